(** C155: the power file of a run. *)
From Coq Require Import Reals ZArith String Ascii List Bool Lia Lra Arith.
From Verif Require Import PyExc Collect SpecSystem Solver SpecSolver Devices Graph PowerFlow SpecPowerFlow PowerFlowProofs NetStamper SpecNetStamper NetworkAssign
  ThreePhase RawParser SpecRaw Loader SolverNet SolverNetProofs SolverRawProofs SolverNetFinal Command SpecCommand CommandProofs CommandFinal
  Results SpecResults Output SpecOutput OutputProofs Report SpecReport ReportProofs ReportFinal.
From Verif Require TimeSeries TimeSeriesRun.
From Verif Require Import Components SpecComponents ComponentsProofs Network SpecNetwork SpecKirchhoff SpecBalance BalanceProofs BalanceFinal SpecColumn ColumnProofs ColumnFinal.
Import ListNotations.
Local Open Scope R_scope.

(** *** where sources and loads are kept *)
Definition others (nw : Network.network) : list elem :=
  nw_lines nw ++ nw_transformers nw ++ nw_switches nw ++ nw_misc nw ++ (if nw_three_phase nw then nw_regulators nw ++ nw_fuses nw ++ nw_capacitors nw else nw_sources nw ++ nw_shunts nw).
Definition tidy (nw : Network.network) : Prop :=
  (forall e, In e (others nw) -> is_source e = false /\ is_demand e = false) /\ forall e, In e (nw_loads nw) -> is_source e = false /\ is_demand e = true.
Lemma filter_quiet {A} (p : A -> bool) l : (forall x, In x l -> p x = false) -> filter p l = [].
Proof. induction l as [|x l IH]; intros H; [reflexivity|]. cbn. rewrite (H x (or_introl eq_refl)). apply IH. intros; apply H; now right. Qed.
Lemma in_others nw l e : (l = nw_lines nw \/ l = nw_transformers nw \/ l = nw_switches nw \/ l = nw_misc nw \/
  l = if nw_three_phase nw then nw_regulators nw ++ nw_fuses nw ++ nw_capacitors nw else nw_sources nw ++ nw_shunts nw) -> In e l -> In e (others nw).
Proof. unfold others. rewrite !in_app_iff. intros [->|[->|[->|[->| ->]]]]; tauto. Qed.
Lemma tidy_sources nw : tidy nw -> filter is_source (elements nw) = map ESlack (nw_slack nw) ++ map EGen (nw_generators nw).
Proof.
  intros [T1 T2]. unfold elements. rewrite !filter_app.
  rewrite (filter_quiet is_source (nw_lines nw)) by (intros e He; apply T1; eapply in_others; [left; reflexivity|exact He]).
  rewrite (filter_quiet is_source (nw_transformers nw)) by (intros e He; apply T1; eapply in_others; [right; left; reflexivity|exact He]).
  rewrite (filter_quiet is_source (nw_switches nw)) by (intros e He; apply T1; eapply in_others; [do 2 right; left; reflexivity|exact He]).
  rewrite (filter_quiet is_source (nw_misc nw)) by (intros e He; apply T1; eapply in_others; [do 3 right; left; reflexivity|exact He]).
  rewrite (filter_quiet is_source (nw_loads nw)) by (intros e He; apply T2; exact He).
  rewrite (filter_quiet is_source (if nw_three_phase nw then _ else _)) by (intros e He; apply T1; eapply in_others; [do 4 right; reflexivity|exact He]).
  rewrite (filter_all is_source (map ESlack _)) by (intros x Hx; apply in_map_iff in Hx as (s & <- & _); reflexivity).
  rewrite (filter_all is_source (map EGen _)) by (intros x Hx; apply in_map_iff in Hx as (s & <- & _); reflexivity). cbn [app]. now rewrite app_nil_r.
Qed.
Definition all_demand (l : list elem) : R := sum (map (fun e => fst (demand e)) l).
Lemma demand_app l m : all_demand (l ++ m) = all_demand l + all_demand m.
Proof. unfold all_demand. now rewrite map_app, sum_app. Qed.
Lemma demand_none l : (forall e, In e l -> is_demand e = false) -> all_demand l = 0.
Proof.
  induction l as [|e l IH]; intros H; [reflexivity|]. unfold all_demand, sum in *. cbn [map fold_right]. rewrite IH by (intros; apply H; now right). pose proof (H e (or_introl eq_refl)) as E. destruct e; cbn in *; try discriminate; ring.
Qed.
Lemma tidy_described nw : tidy nw -> fst (described nw) = all_demand (nw_loads nw).
Proof.
  intros [T1 T2]. transitivity (all_demand (elements nw)).
  { unfold described, all_demand, sum. induction (elements nw) as [|e l IH]; [reflexivity|]. cbn [fold_right map]. unfold Cadd at 1. cbn [fst]. now rewrite IH. }
  unfold elements. rewrite !demand_app.
  rewrite (demand_none (nw_lines nw)) by (intros e He; apply T1; eapply in_others; [left; reflexivity|exact He]).
  rewrite (demand_none (nw_transformers nw)) by (intros e He; apply T1; eapply in_others; [right; left; reflexivity|exact He]).
  rewrite (demand_none (nw_switches nw)) by (intros e He; apply T1; eapply in_others; [do 2 right; left; reflexivity|exact He]).
  rewrite (demand_none (nw_misc nw)) by (intros e He; apply T1; eapply in_others; [do 3 right; left; reflexivity|exact He]).
  rewrite (demand_none (if nw_three_phase nw then _ else _)) by (intros e He; apply T1; eapply in_others; [do 4 right; reflexivity|exact He]).
  rewrite (demand_none (map ESlack _)) by (intros x Hx; apply in_map_iff in Hx as (s & <- & _); reflexivity).
  rewrite (demand_none (map EGen _)) by (intros x Hx; apply in_map_iff in Hx as (s & <- & _); reflexivity). ring.
Qed.
Lemma solver_tidy opt r nw : solver_network opt r = Ok nw -> tidy nw.
Proof.
  intros E. destruct r as [n|o]; cbn [solver_network] in E.
  - unfold dx_network in E. apply ThreePhaseBase.bind_ok in E as (lines & L & E). injection E as <-. split.
    + cbn. intros e. rewrite !in_app_iff. intros [H|[H|[H|[H|[H|H]]]]].
      * assert (G : forall ls es, pmap (dx_line n) ls = Ok es -> forall e, In e es -> exists ph g b B, e = EUnb ph g b B).
        { induction ls as [|l ls IH]; intros es Q e0 He0; cbn [pmap] in Q; [injection Q as <-; contradiction|]. apply ThreePhaseBase.bind_ok in Q as (b & Q1 & Q). apply ThreePhaseBase.bind_ok in Q as (bs & Q2 & Q). injection Q as <-.
          destruct He0 as [<-|He0]; [|exact (IH _ Q2 _ He0)]. unfold dx_line in Q1. apply ThreePhaseBase.bind_ok in Q1 as (ph & _ & Q1). injection Q1 as <-. eauto. }
        destruct (G _ _ L e H) as (ph & g & b & B & ->). split; reflexivity.
      * apply in_map_iff in H as (x & <- & _). destruct x; split; reflexivity.
      * apply in_map_iff in H as (x & <- & _). split; reflexivity.
      * apply in_map_iff in H as (x & <- & _). split; reflexivity.
      * apply in_map_iff in H as (x & <- & _). split; reflexivity.
      * apply in_map_iff in H as (x & <- & _). split; reflexivity.
    + cbn. intros e H. apply in_map_iff in H as (x & <- & _). split; reflexivity.
  - injection E as <-. split.
    + cbn. intros e H. repeat (apply in_app_or in H; destruct H as [H|H]); apply in_map_iff in H as (x & <- & _); split; reflexivity.
    + cbn. intros e H. apply in_map_iff in H as (x & <- & _). split; reflexivity.
Qed.
Lemma loads_set ps es : (forall e, In e es -> is_demand e = true) -> length ps = length es -> (forall e, In e (set_loads ps es) -> is_source e = false /\ is_demand e = true) /\ all_demand (set_loads ps es) = sum (map fst ps).
Proof.
  revert es. induction ps as [|p ps IH]; intros [|e es] H L; cbn in L; try discriminate; [split; [contradiction|reflexivity]|]. destruct (IH es) as [I1 I2]; [intros; apply H; now right|lia|]. cbn [set_loads]. pose proof (H e (or_introl eq_refl)) as D. destruct e; try discriminate. split.
  - intros x [<-|Hx]; [split; reflexivity|auto].
  - unfold all_demand, sum in *. cbn [map fold_right set_load demand fst]. now rewrite I2.
Qed.
Lemma switched_quiet ds es : (forall e, In e es -> is_source e = false /\ is_demand e = false) -> forall e, In e (switch_all ds es) -> is_source e = false /\ is_demand e = false.
Proof.
  revert ds. induction es as [|e es IH]; intros [|d ds] H x Hx; cbn [switch_all] in Hx; try contradiction; [now apply H|]. destruct Hx as [<-|Hx]; [|apply (IH ds); [intros; apply H; now right|exact Hx]].
  pose proof (H e (or_introl eq_refl)) as [D1 D2]. destruct d, e; cbn in *; try discriminate; auto.
Qed.
Section Run.
Variables (r : Loader.network) (opt : option bool) (nw : Network.network) (f : R).
Hypothesis NW : solver_network opt r = Ok nw.
Let ls := map (scale_by f) (loads_of r).
Lemma loads_number : length ls = length (nw_loads nw).
Proof.
  unfold ls. rewrite map_length. destruct r as [n|o]; cbn [solver_network loads_of] in *.
  - apply dx_fields in NW as (_ & _ & _ & _ & _ & _ & _ & -> & _). now rewrite !map_length.
  - injection NW as <-. cbn. now rewrite !map_length.
Qed.
Lemma run_tidy ds : let nwd := with_devices (with_powers ls nw) ds in tidy nwd /\ fst (described nwd) = sum (map TimeSeries.tl_P ls).
Proof.
  intros nwd. destruct (solver_tidy _ _ _ NW) as [T1 T2]. destruct (loads_set (map TimeSeries.power_of ls) (nw_loads nw)) as [L1 L2]; [intros e He; exact (proj2 (T2 e He))|rewrite map_length; exact loads_number|].
  assert (T : tidy nwd).
  { split; [|exact L1]. unfold nwd, others. cbn. intros e He. rewrite !in_app_iff in He. destruct He as [H|[H|[H|[H|H]]]].
    - apply T1. eapply in_others; [left; reflexivity|exact H].
    - apply T1. eapply in_others; [right; left; reflexivity|exact H].
    - apply T1. eapply in_others; [do 2 right; left; reflexivity|exact H].
    - apply T1. eapply in_others; [do 3 right; left; reflexivity|exact H].
    - assert (O : forall x, In x (if nw_three_phase nw then nw_regulators nw ++ nw_fuses nw ++ nw_capacitors nw else nw_sources nw ++ nw_shunts nw) -> is_source x = false /\ is_demand x = false) by (intros x Hx; apply T1; eapply in_others; [do 4 right; reflexivity|exact Hx]).
      destruct (nw_three_phase nw); [|apply O; exact H]. rewrite !in_app_iff in H. destruct H as [H|[H|H]]; [apply O; rewrite !in_app_iff; tauto|apply O; rewrite !in_app_iff; tauto|].
      apply (switched_quiet (skipn (length (nw_fuses nw)) ds) (nw_capacitors nw)); [intros x Hx; apply O; rewrite !in_app_iff; tauto|exact H]. }
  split; [exact T|]. rewrite (tidy_described nwd T). change (nw_loads nwd) with (set_loads (map TimeSeries.power_of ls) (nw_loads nw)). rewrite L2, map_map. reflexivity.
Qed.
Lemma run_listed ds : (forall o, r = Single o -> well_attached o) -> sources_listed (with_devices (with_powers ls nw) ds).
Proof.
  intros WA. split; [exact (tidy_sources _ (proj1 (run_tidy ds)))|]. cbn. intros s Hs. destruct r as [n|o] eqn:R; cbn [solver_network] in NW.
  - unfold dx_network in NW. apply ThreePhaseBase.bind_ok in NW as (lines & _ & E). injection E as <-. cbn in Hs. apply in_map_iff in Hs as (x & <- & _). discriminate.
  - injection NW as <-. cbn in Hs. apply in_map_iff in Hs as (x & <- & Hx). cbn. specialize (WA o eq_refl). destruct (ref_of o (RawParser.sl_bus x)) as (k & -> & _); [|discriminate]. destruct WA as [WA _]. rewrite Forall_forall in WA. apply WA. apply in_map_iff. eauto.
Qed.
End Run.

(** *** numbers read from lines *)
Lemma read_at k x text row : shows 2 x text -> nth_error (split comma row) k = Some text -> exists y, reads k row y /\ Rabs (y - x) <= 1 / 200.
Proof. intros [(y & D & B & _) _] E. exists y. split; [exists text; auto|]. eapply Rle_trans; [exact B|]. lra. Qed.
Lemma read_all {X} k (P : string -> X -> Prop) (h : X -> R) : (forall row x, P row x -> exists y, reads k row y /\ Rabs (y - h x) <= 1 / 200) ->
  forall rows xs, Forall2 P rows xs -> exists ys, Forall2 (reads k) rows ys /\ Rabs (sum ys - sum (map h xs)) <= INR (length ys) / 200.
Proof.
  intros H rows xs. induction 1 as [|row x rows xs Hx F IH]; [exists []; split; [constructor|cbn; rewrite Rminus_0_r, Rabs_R0; lra]|].
  destruct IH as (ys & A & B), (H row x Hx) as (y & C & D). exists (y :: ys). split; [now constructor|]. unfold sum in *. cbn [map fold_right length]. rewrite S_INR.
  replace (y + fold_right Rplus 0 ys - (h x + fold_right Rplus 0 (map h xs))) with ((y - h x) + (fold_right Rplus 0 ys - fold_right Rplus 0 (map h xs))) by ring. eapply Rle_trans; [apply Rabs_triang|]. lra.
Qed.
Lemma gen_reads_P row (g : Z * gen_result) : gen_line row g -> exists y, reads 2 row y /\ Rabs (y - gr_P (snd g)) <= 1 / 200.
Proof. intros (n & p & q & E & _ & P & _). apply (read_at 2 _ p); [exact P|now rewrite E]. Qed.
Lemma gen_reads_Q row (g : Z * gen_result) : gen_line row g -> exists y, reads 3 row y /\ Rabs (y - gr_Q (snd g)) <= 1 / 200.
Proof. intros (n & p & q & E & _ & _ & Q). apply (read_at 3 _ q); [exact Q|now rewrite E]. Qed.
Lemma load_reads row (l : oload) : load_line row l -> exists y, reads 2 row y /\ Rabs (y - ol_P l) <= 1 / 200.
Proof. intros (p & q & E & P & _). apply (read_at 2 _ p); [exact P|now rewrite E]. Qed.
Lemma forall2_cut {X Y} (P : X -> Y -> Prop) : forall a b l, Forall2 P l (a ++ b) -> exists l1 l2, l = l1 ++ l2 /\ Forall2 P l1 a /\ Forall2 P l2 b.
Proof.
  induction a as [|y a IH]; intros b l H; cbn in H; [exists [], l; repeat split; [constructor|exact H]|]. inversion H as [|x y' l' m' Hx Hl E1 E2]. subst. destruct (IH b l' Hl) as (l1 & l2 & -> & A & B). exists (x :: l1), l2. split; [reflexivity|]. split; [now constructor|exact B].
Qed.
Lemma forall2_len {X Y} (P : X -> Y -> Prop) l m : Forall2 P l m -> length l = length m.
Proof. induction 1; cbn; congruence. Qed.
Lemma nodes_number label r : length (nodes_of label r) = length (loads_of r).
Proof. destruct r as [n|o]; cbn; now rewrite !map_length. Qed.
Lemma shown_sum label r ls : length ls = length (loads_of r) -> sum (map ol_P (loads_shown label r ls)) = sum (map TimeSeries.tl_P ls) /\ length (loads_shown label r ls) = length ls.
Proof.
  rewrite <- (nodes_number label). unfold loads_shown. generalize (nodes_of label r). intros ns. revert ls. induction ns as [|n ns IH]; intros [|l ls] E; cbn in E; try discriminate; [split; reflexivity|].
  injection E as E. destruct (IH ls E) as [A B]. unfold sum in *. cbn [combine map fold_right length load_of ol_P fst snd TimeSeries.power_of]. rewrite A, B. split; reflexivity.
Qed.
Lemma rows_number old r nw : let a := assign_matrix old nw in length (gens_of a r nw) = length (nw_generators nw) /\ length (slacks_of a r nw) = length (nw_slack nw).
Proof.
  intros a. pose proof (assigned_lengths old nw) as [LS LI]. fold a in LS, LI. unfold gens_of, slacks_of, stampers_of. rewrite !map_length, !combine_length, !skipn_length, LS.
  unfold Network.elements, generators_at, slack_at. repeat rewrite ?app_length, ?map_length. lia.
Qed.

Section Files.
Variable label : Z -> string * string.
Variables (So : Type) (T : tools) (W : world) (nm : Z -> nat) (spsolve : So -> list (nat * nat * R) -> list R -> So * option (list R))
  (nan : R) (old : Network.table) (visit : list nat -> list nat)
  (later : nat -> list TimeSeries.tload -> option (@pf_result So)) (outputs : @pf_result So -> list TimeSeries.gout)
  (rated : list TimeSeries.tload -> @pf_result So -> bool) (fuel : nat) (o : options) (so : So).
Variables (r : Loader.network) (nw : Network.network) (f : R).
Hypothesis FI : from_file T W (op_case o) = Ok r.
Hypothesis AN : op_infeasibility o = false.
Hypothesis NW : solver_network None r = Ok nw.
Hypothesis AF : asks_factor o f.
Let run := command So T W nm spsolve nan old visit later outputs fuel o so.
Let ls := map (scale_by f) (loads_of r).
Lemma files_column path d : no_series o r -> path <> ""%string -> names_plain label r ->
  forall v it tx rd ds so' eps, reports run (PFDone true v it tx rd ds so') -> forall nw', scaled f nw nw' -> let nwd := with_devices nw' ds in let a := assign_matrix old nwd in let V := voltages a (vec v) in
  energised nwd V -> constant_power nwd -> (forall q, (q < as_size a)%nat -> Rabs (F (equations a) (vec v) 0 q) < eps) ->
  exists d' tp gens slacks loads, files label So T W nm spsolve nan old visit later outputs rated fuel o (Some path) so d = Ok (Some d') /\ d' (path ++ "_power.csv")%string = Some tp /\
    split line_end tp = ("bus,name,P(MW),Q(MVar)"%string :: gens ++ slacks ++ loads ++ [""%string])%list /\
    length gens = length (nw_generators nw) /\ length slacks = length (nw_slack nw) /\ length loads = length (nw_loads nw) /\
    exists ac ps qs, accounts_for V nwd ac /\ gives_rows nwd a ac (vec v) /\ Forall2 (reads 2) (gens ++ slacks ++ loads) ps /\ Forall2 (reads 3) slacks qs /\
      Rabs (sum ps + sum qs + fst (lost V ac)) <= all_voltages nwd V * eps + INR (length ps + length qs) / 200.
Proof.
  intros NS NE P v it tx rd ds so' eps Q nw' SC. assert (WA : forall q, r = Single q -> well_attached q) by (intros q E; rewrite E in FI; exact (proj1 (loaded_raw _ _ _ _ FI))). assert (AA : asks_analysis o None) by (right; auto).
  pose proof (is_scaled r nw None f NW) as SC'. fold ls in SC'. rewrite (scaled_unique _ _ _ _ SC SC'). intros nwd a V EN CP HF.
  destruct (loaded_network _ _ _ _ _ _ FI NW) as (OK0 & _).
  assert (OK : network_ok nwd) by (apply (rewired_ok (with_powers ls nw)); [apply with_devices_re|exact (scaled_ok f nw _ SC' OK0)]).
  assert (NO : nw_optimization nwd = None). { change (nw_optimization nwd) with (nw_optimization nw). destruct r as [n|q]; cbn in NW; [unfold dx_network in NW; apply ThreePhaseBase.bind_ok in NW as (ln & _ & NW2); now injection NW2 as <-|now injection NW as <-]. }
  destruct (run_tidy r None nw f NW ds) as [TD DE]. fold ls nwd in TD, DE. pose proof (run_listed r None nw f NW ds WA) as SL. fold ls nwd in SL.
  destruct (column_near old r nwd (vec v) OK NO EN SL eps HF) as (ac & A & G & B & D). specialize (D CP). fold a V in A, G, B, D. rewrite D, DE in B.
  set (res := {| Output.or_success := true; Output.or_violates := false; Output.or_v := vec v; Output.or_buses := buses_of label a r;
              Output.or_gens := gens_of a r nwd; Output.or_slacks := slacks_of a r nwd; Output.or_inf := infeasible_of a r nwd; Output.or_loads := loads_shown label r ls |}).
  assert (PL : forall l, In l (or_loads res) -> plain (ol_node l)).
  { cbn [or_loads res]. intros l Hl. unfold loads_shown in Hl. apply in_map_iff in Hl as ([x y] & <- & Hx). cbn. apply in_combine_l in Hx. unfold nodes_of in Hx. destruct r as [n|q].
    - apply in_map_iff in Hx as (k & <- & Hk). destruct (three_loads _ _ _ _ NW OK0 Hk) as [[_ E]|(c & Hc & _ & E)]; rewrite E; [|exact (proj1 (P c Hc))]. split; intros H; cbn in H; repeat (destruct H as [H|H]; [discriminate|]); exact H.
    - apply in_map_iff in Hx as (k & <- & Hk). exact (proj2 P k Hk). }
  destruct (power_table res eq_refl PL) as (gs & rows & last & E & F1 & F2 & LL). destruct LL as [[? _]|[_ ->]]; [discriminate|].
  cbn [or_gens or_slacks or_inf or_loads or_v res] in F1, F2. unfold infeasible_of in F1. rewrite NO, app_nil_r in F1. apply forall2_cut in F1 as (gens & slacks & -> & F1 & F3).
  destruct (rows_number old r nwd) as [N1 N2]. fold a in N1, N2.
  destruct (@output_writes path res d NE) as (_ & O2 & _).
  exists (Output.output path res d), (power_file res), gens, slacks, rows. split; [|split; [exact O2|split; [now rewrite <- app_assoc in E|]]].
  { rewrite (plain_reported label So T W nm spsolve nan old visit later outputs rated fuel o so r nw None f FI AA NW AF _ _ _ _ _ _ _ (Some path) d NS Q). reflexivity. }
  assert (LN : length ls = length (loads_of r)) by apply map_length. destruct (shown_sum label r ls LN) as [S1 S2].
  split; [rewrite (forall2_len _ _ _ F1), map_length; exact N1|]. split; [rewrite (forall2_len _ _ _ F3), map_length; exact N2|].
  split; [rewrite (forall2_len _ _ _ F2), S2; exact (loads_number r None nw f NW)|].
  destruct (read_all 2 gen_line (fun g => gr_P (snd g)) gen_reads_P _ _ F1) as (p1 & R1 & B1), (read_all 2 gen_line (fun g => gr_P (snd g)) gen_reads_P _ _ F3) as (p2 & R2 & B2),
    (read_all 3 gen_line (fun g => gr_Q (snd g)) gen_reads_Q _ _ F3) as (q2 & R3 & B3), (read_all 2 load_line ol_P load_reads _ _ F2) as (p3 & R4 & B4).
  exists ac, (p1 ++ p2 ++ p3), q2. split; [exact A|]. split; [exact G|]. split; [apply Forall2_app; [exact R1|apply Forall2_app; assumption]|]. split; [exact R3|].
  rewrite !sum_app, !app_length, !plus_INR. rewrite S1 in B4. rewrite !map_map in B1, B2, B3. cbn [snd] in B1, B2, B3.
  unfold active in B. rewrite !map_map in B.
  assert (SP : forall (l : list (Z * rslack)), sum (map (fun x => gr_P (slack_res (vec v) (snd x)) + gr_Q (slack_res (vec v) (snd x))) l) = sum (map (fun x => gr_P (slack_res (vec v) (snd x))) l) + sum (map (fun x => gr_Q (slack_res (vec v) (snd x))) l)).
  { unfold sum. induction l as [|x l IH]; cbn [map fold_right]; [ring|]. rewrite IH. ring. }
  rewrite SP in B. revert B B1 B2 B3 B4.
  match goal with |- Rabs (?g + (?p + ?q) + ?l + ?t) <= ?c -> Rabs (?g1 - _) <= _ -> Rabs (?g2 - _) <= _ -> Rabs (?g3 - _) <= _ -> Rabs (?g4 - _) <= _ -> _ =>
    generalize g p q l t c g1 g2 g3 g4 end. intros g p q l t c g1 g2 g3 g4 B B1 B2 B3 B4.
  replace (g1 + (g2 + g4) + g3 + t) with ((g + (p + q) + l + t) + ((g1 - g) + ((g2 - p) + ((g3 - q) + (g4 - l))))) by ring.
  pose proof (Rabs_triang (g + (p + q) + l + t) ((g1 - g) + ((g2 - p) + ((g3 - q) + (g4 - l))))). pose proof (Rabs_triang (g1 - g) ((g2 - p) + ((g3 - q) + (g4 - l)))).
  pose proof (Rabs_triang (g2 - p) ((g3 - q) + (g4 - l))). pose proof (Rabs_triang (g3 - q) (g4 - l)). lra.
Qed.
End Files.
