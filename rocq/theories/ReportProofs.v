(** Proofs for C154. *)
From Coq Require Import Reals ZArith String Ascii List Bool Lia Lra Arith.
From Verif Require Import PyExc Expr Collect SpecSystem Components SpecComponents SpecUnbalanced Network SpecNetwork Solver SpecSolver Devices PowerFlow SpecPowerFlow
  SpecKirchhoff NetworkAssign ThreePhase RawParser Loader SolverNet SolverNetProofs SolverRawProofs SolverNetFinal Command SpecCommand CommandProofs CommandFinal
  Results SpecResults Output SpecOutput OutputProofs Report SpecReport.
From Verif Require TimeSeries TimeSeriesRun.
Import ListNotations.
Local Open Scope R_scope.

(** *** the scaled network is determined *)
Lemma scaled_load_unique f e x y : scaled_load f e x -> scaled_load f e y -> x = y.
Proof.
  intros A B. inversion A as [l l1 b t P1 A1 A2 A3 A4]; subst. inversion B as [l' l2 b' t' P2 B1 B2 B3 B4]; subst. f_equal.
  destruct l1, l2; cbn in *. rewrite <- P2 in P1. injection P1 as -> ->. congruence.
Qed.
Lemma scaled_unique f nw n1 n2 : scaled f nw n1 -> scaled f nw n2 -> n1 = n2.
Proof.
  destruct n1 as [a1 b1 c1 d1 e1 f1 g1 h1 i1 j1 k1 l1 m1 o1 p1], n2 as [a2 b2 c2 d2 e2 f2 g2 h2 i2 j2 k2 l2 m2 o2 p2]. unfold scaled. cbn.
  intros (L1 & -> & -> & -> & -> & -> & -> & -> & -> & -> & -> & -> & -> & -> & ->) (L2 & -> & -> & -> & -> & -> & -> & -> & -> & -> & -> & -> & -> & -> & ->). f_equal.
  revert h2 L2. induction L1 as [|e x es xs H L IH]; intros ys L2; inversion L2 as [|e' y es' ys' H' L']; subst; [reflexivity|]. f_equal; [eapply scaled_load_unique; eassumption|now apply IH].
Qed.

(** *** voltages of buses *)
Lemma table_same old nw nw' : nw_buses nw' = nw_buses nw -> nw_optimization nw' = nw_optimization nw -> as_table (assign_matrix old nw') = as_table (assign_matrix old nw).
Proof. intros B O. rewrite !table_of. unfold optimizing. now rewrite B, O. Qed.
Lemma indexes_at old nw v b : network_ok nw -> In b (nw_buses nw) -> let a := assign_matrix old nw in at2 v (indexes a (bus_id b)) = voltages a v (Some (bus_id b)).
Proof.
  intros OK H a. apply In_nth_error in H as [k H]. unfold voltages, at2, indexes, volt. cbn [at_ref]. subst a. rewrite (table_bus old nw k b OK H). reflexivity.
Qed.
Lemma numbered_nth {A} (l : list A) : forall j k, nth_error (number j l) k = option_map (fun b => ((j + k)%nat, b)) (nth_error l k).
Proof. induction l as [|a l IH]; intros j [|k]; cbn; [reflexivity|reflexivity| |]; [now rewrite Nat.add_0_r|]. rewrite IH. destruct (nth_error l k); cbn; [|reflexivity]. do 2 f_equal. lia. Qed.
Lemma numbered_snd {A} (l : list A) : forall j, map snd (number j l) = l.
Proof. induction l as [|a l IH]; intros j; cbn; [reflexivity|]. now rewrite IH. Qed.
Lemma sx_nth bs : forall j k b, nth_error bs k = Some b -> nth_error (sx_buses j bs) k = Some {| bus_id := (j + k)%nat; bus_Vm := ob_vm b; bus_Va := ob_va b |}.
Proof. induction bs as [|c bs IH]; intros j [|k] b H; try discriminate; cbn in *; [injection H as ->; now rewrite Nat.add_0_r|]. rewrite (IH (S j) k b H). do 2 f_equal. lia. Qed.
Lemma Forall2_map_r {A B D} (P : A -> D -> Prop) (g : B -> D) l m : Forall2 P l (map g m) <-> Forall2 (fun a b => P a (g b)) l m.
Proof.
  split.
  - revert l. induction m as [|b m IH]; intros l H; inversion H; subst; constructor; auto.
  - induction 1; cbn; constructor; auto.
Qed.
Lemma filter_map_swap {A B} (p : B -> bool) (g : A -> B) l : filter p (map g l) = map g (filter (fun a => p (g a)) l).
Proof. induction l as [|a l IH]; cbn; [reflexivity|]. destruct (p (g a)); cbn; now rewrite IH. Qed.
Lemma Forall2_in {A B} (P Q : A -> B -> Prop) l m : (forall a b, In b m -> P a b -> Q a b) -> Forall2 P l m -> Forall2 Q l m.
Proof. intros H F. induction F as [|a b l m K F IH]; constructor; [apply H; [now left|exact K]|]. apply IH. intros; apply H; [now right|assumption]. Qed.
Lemma Forall2_length {A B} (P : A -> B -> Prop) l m : Forall2 P l m -> List.length l = List.length m.
Proof. induction 1; cbn; congruence. Qed.
Lemma Forall2_nth {A B} (P : A -> B -> Prop) l m k a b : Forall2 P l m -> nth_error l k = Some a -> nth_error m k = Some b -> P a b.
Proof. intros F. revert k. induction F; intros [|k] Ha Hb; try discriminate; cbn in *; [congruence|eauto]. Qed.

Lemma volt_at old nw nwd v b : network_ok nw -> nw_buses nwd = nw_buses nw -> nw_optimization nwd = nw_optimization nw -> In b (nw_buses nw) ->
  let a := assign_matrix old nwd in at2 v (indexes a (bus_id b)) = voltages a v (Some (bus_id b)).
Proof.
  intros OK SB SO H a. pose proof (indexes_at old nw v b OK H) as E. cbv zeta in E. unfold indexes, voltages in *. subst a. now rewrite (table_same old nw nwd SB SO).
Qed.
Lemma three_bus opt n nw b : solver_network opt (Three n) = Ok nw -> In b (nt_buses n) -> exists c, In c (nw_buses nw) /\ bus_id c = tb_id b.
Proof. intros NW H. cbn in NW. apply dx_fields in NW as (_ & _ & B & _). rewrite B. exists (dx_bus b). split; [now apply in_map|reflexivity]. Qed.
Lemma single_bus opt o nw k b : solver_network opt (Single o) = Ok nw -> nth_error (n_buses o) k = Some b -> exists c, In c (nw_buses nw) /\ bus_id c = k.
Proof. intros NW H. injection NW as <-. pose proof (sx_nth _ 0 _ _ H) as Z. eexists. split; [exact (nth_error_In _ _ Z)|reflexivity]. Qed.
Lemma bus_lines label old r opt nw nwd res : solver_network opt r = Ok nw -> network_ok nw -> nw_buses nwd = nw_buses nw -> nw_optimization nwd = nw_optimization nw ->
  let a := assign_matrix old nwd in
  Output.or_success res = true -> Output.or_buses res = buses_of label a r -> names_plain label r ->
  shows_voltages label r (voltages a (Output.or_v res)) (Output.or_violates res) (voltage_file res).
Proof.
  intros NW OK SB SO a S B P. destruct (voltage_table res S) as (rows & last & E & F & L).
  { rewrite B. intros b Hb. unfold buses_of in Hb. destruct r as [n|o].
    - apply in_map_iff in Hb as (c & <- & Hc). exact (P c Hc).
    - apply in_map_iff in Hb as ([k c] & <- & Hc). cbn. apply (proj1 P). rewrite <- (numbered_snd (n_buses o) 0). apply (in_map snd _ _ Hc). }
  exists rows, last. split; [exact E|]. split; [exact L|]. rewrite B in F. unfold buses_of in F. destruct r as [n|o].
  - rewrite filter_map_swap in F. apply (proj1 (Forall2_map_r _ _ _ _)) in F. refine (Forall2_in _ _ _ _ _ F). intros row b Hb (x & m & w & Q1 & Q2 & Q3). exists x, m, w. cbn [Output.ob_num Output.ob_name Output.ob_phase Output.ob_V] in *. split; [exact Q1|]. split; [exact Q2|].
    apply filter_In in Hb as [Hb _]. destruct (three_bus _ _ _ _ NW Hb) as (c & Hc & Ec). rewrite <- Ec in Q3 |- *. unfold a in Q3. rewrite (volt_at old nw nwd _ c OK SB SO Hc) in Q3. exact Q3.
  - rewrite filter_map_swap in F. apply (proj1 (Forall2_map_r _ _ _ _)) in F. cbn [Output.ob_virtual negb] in F.
    assert (FT : forall (l : list (nat * RawParser.obus)), filter (fun _ => true) l = l) by (induction l as [|x l IH]; cbn; [reflexivity|now rewrite IH]). rewrite FT in F.
    split; [rewrite (Forall2_length _ _ _ F), <- (map_length snd), numbered_snd; reflexivity|].
    intros k row b Hr Hb. pose proof (numbered_nth (n_buses o) 0 k) as N. rewrite Hb in N. cbn in N. destruct (Forall2_nth _ _ _ _ _ _ F Hr N) as (x & m & w & Q1 & Q2 & Q3). cbn [Output.ob_num Output.ob_name Output.ob_phase Output.ob_V fst snd] in *.
    exists x, m, w. split; [exact Q1|]. split; [exact Q2|]. destruct (single_bus _ _ _ _ _ NW Hb) as (c & Hc & Ec). rewrite <- Ec in Q3 |- *. unfold a in Q3. rewrite (volt_at old nw nwd _ c OK SB SO Hc) in Q3. exact Q3.
Qed.

(** *** lines of generators and loads *)
Lemma elems_length o tbl es : forall n, List.length (fst (assign_elems o tbl n es)) = List.length es.
Proof. induction es as [|e es IH]; intros n; cbn [assign_elems]; [reflexivity|]. destruct (assign_elem o tbl n e) as [s n1]. specialize (IH n1). destruct (assign_elems o tbl n1 es). cbn in *. now rewrite IH. Qed.
Lemma infeas_length l1 tbl bs : forall n, List.length (fst (assign_infeasibility l1 tbl n bs)) = List.length bs.
Proof. induction bs as [|b bs IH]; intros n; cbn [assign_infeasibility]; [reflexivity|]. destruct ((if l1 then l1_stampers else l2_stampers) (tbl (bus_id b)) n) as [s n1]. specialize (IH n1). destruct (assign_infeasibility l1 tbl n1 bs). cbn in *. now rewrite IH. Qed.
Lemma assigned_lengths old nw : let a := assign_matrix old nw in List.length (as_stampers a) = List.length (Network.elements nw) /\
  List.length (as_infeasibility a) = match nw_optimization nw with Some _ => List.length (nw_buses nw) | None => 0%nat end.
Proof.
  unfold assign_matrix. destruct (assign_buses (optimizing nw) (nw_buses nw) old 0) as [tbl n0].
  pose proof (elems_length (optimizing nw) tbl (Network.elements nw) n0) as E. destruct (assign_elems (optimizing nw) tbl n0 (Network.elements nw)) as [s n1].
  destruct (nw_optimization nw) as [l1|].
  - pose proof (infeas_length l1 tbl (nw_buses nw) n1) as I. destruct (assign_infeasibility l1 tbl n1 (nw_buses nw)). split; assumption.
  - split; [exact E|reflexivity].
Qed.
Lemma gens_length old r nw v rs : let a := assign_matrix old nw in
  Output.or_gens rs = gens_of a r nw -> Output.or_slacks rs = slacks_of a r nw -> Output.or_inf rs = infeasible_of a r nw ->
  List.length (map (fun g => (fst g, gen_res v (snd g))) (or_gens rs) ++ map (fun s => (fst s, slack_res v (snd s))) (or_slacks rs)
      ++ match or_inf rs with Some l => map (fun i => (fst i, inf_res v (snd i))) l | None => [] end) = sources nw.
Proof.
  intros a G S I. pose proof (assigned_lengths old nw) as [LS LI]. fold a in LS, LI. rewrite !app_length, !map_length, G, S, I. unfold gens_of, slacks_of, infeasible_of, sources, stampers_of. rewrite !map_length, !combine_length, !skipn_length, LS.
  unfold Network.elements, generators_at, slack_at. repeat rewrite ?app_length, ?map_length. destruct (nw_optimization nw) as [l1|]; [rewrite !map_length, combine_length, LI|cbn [List.length]]; lia.
Qed.
Lemma name_found n b : (exists c, In c (nt_buses n) /\ tb_id c = b) -> at_bus n (Some b) (name_at n (Some b)).
Proof.
  intros (c & Hc & E). right. cbn. destruct (find _ _) as [x|] eqn:Fd.
  - apply find_some in Fd as [Hx Q]. apply Nat.eqb_eq in Q. exists x. subst b. rewrite Q. auto.
  - exfalso. pose proof (find_none _ _ Fd c Hc) as Q. cbn in Q. rewrite E, Nat.eqb_refl in Q. discriminate.
Qed.
Lemma Forall2_combine {A B D} (P : A -> D -> Prop) (Q : A -> B -> Prop) (F : string * TimeSeries.tload -> D) (g : B -> string) (h : B -> TimeSeries.tload) l m :
  (forall a b, In b m -> P a (F (g b, h b)) -> Q a b) -> Forall2 P l (map F (combine (map g m) (map h m))) -> Forall2 Q l m.
Proof.
  intros H F2. assert (E : combine (map g m) (map h m) = map (fun b => (g b, h b)) m) by (clear; induction m as [|b m IH]; cbn; [reflexivity|now rewrite IH]).
  rewrite E, map_map in F2. apply (proj1 (Forall2_map_r _ _ _ _)) in F2. exact (Forall2_in _ _ _ _ H F2).
Qed.
Lemma three_loads opt n nw l : solver_network opt (Three n) = Ok nw -> network_ok nw -> In l (nt_loads n) -> at_bus n (tl_from l) (name_at n (tl_from l)).
Proof.
  intros NW OK H. destruct (tl_from l) as [b|] eqn:E; [|left; split; reflexivity]. apply name_found.
  cbn in NW. pose proof (dx_fields _ _ _ NW) as (_ & _ & B & _ & _ & _ & _ & LO & _).
  assert (I : In (dx_load l) (Network.elements nw)) by (unfold Network.elements; rewrite !in_app_iff, LO; do 5 right; left; now apply in_map).
  destruct OK as [_ R]. specialize (R _ I b). unfold dx_load in R. cbn [refs] in R. rewrite E in R. specialize (R (or_introl eq_refl)). rewrite B, map_map in R. apply in_map_iff in R as (c & Q & Hc). exists c. split; [exact Hc|exact Q].
Qed.
Lemma scaled_shows f p q : Cscale f (p, q) = (p * f, q * f).
Proof. unfold Cscale. cbn. f_equal; ring. Qed.
Lemma load_lines label old r opt nw nwd f res : solver_network opt r = Ok nw -> network_ok nw -> let a := assign_matrix old nwd in
  Output.or_gens res = gens_of a r nwd -> Output.or_slacks res = slacks_of a r nwd -> Output.or_inf res = infeasible_of a r nwd ->
  Output.or_loads res = loads_shown label r (map (scale_by f) (loads_of r)) -> Output.or_success res = true -> Output.or_violates res = false -> names_plain label r ->
  shows_powers label r f (sources nwd) (power_file res).
Proof.
  intros NW OK a G S I L SU VI P.
  assert (PL : forall l, In l (or_loads res) -> plain (ol_node l)).
  { rewrite L. intros l Hl. unfold loads_shown in Hl. apply in_map_iff in Hl as ([x y] & <- & Hx). cbn. apply in_combine_l in Hx. unfold nodes_of in Hx. destruct r as [n|o].
    - apply in_map_iff in Hx as (k & <- & Hk). destruct (three_loads _ _ _ _ NW OK Hk) as [[_ Q]|(c & Hc & _ & Q)]; rewrite Q; [|exact (proj1 (P c Hc))]. split; intros H; cbn in H; repeat (destruct H as [H|H]; [discriminate|]); exact H.
    - apply in_map_iff in Hx as (k & <- & Hk). exact (proj2 P k Hk). }
  destruct (power_table res SU PL) as (gs & rows & last & E & F1 & F2 & LL). exists gs, rows. rewrite VI in LL. destruct LL as [[? _]|[_ ->]]; [discriminate|]. split; [exact E|].
  split; [rewrite (Forall2_length _ _ _ F1); exact (gens_length old r nwd _ res G S I)|]. rewrite L in F2. unfold loads_shown, nodes_of, loads_of in F2. destruct r as [n|o].
  - rewrite map_map in F2. revert F2. apply Forall2_combine. intros row l Hl (p & q & Q1 & Q2 & Q3). exists (name_at n (tl_from l)). split; [exact (three_loads _ _ _ _ NW OK Hl)|].
    cbn in Q1, Q2, Q3. exists p, q. rewrite scaled_shows. auto.
  - rewrite map_map in F2. revert F2. apply Forall2_combine. intros row l Hl (p & q & Q1 & Q2 & Q3). cbn in Q1, Q2, Q3. exists p, q. rewrite scaled_shows. auto.
Qed.
