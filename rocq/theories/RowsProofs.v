(** Lemmas for C162. *)
From Coq Require Import Reals ZArith String Ascii List Bool Lia Lra Arith.
From Verif Require Import PyExc Devices PowerFlow ThreePhase ThreePhaseBase ThreePhaseElemProofs RawParser Loader SolverNet SolverNetProofs SolverRawProofs SolverNetFinal Command Report ReportProofs.
From Verif Require TimeSeries Results SpecResults Output.
From Verif Require Import Expr Collect SpecSystem Components SpecComponents Network SpecNetwork SpecKirchhoff SpecNetInfeas NetInfeasProofs SpecRows.
Import ListNotations.

Lemma combine_rows {A B D} (P : A -> D -> Prop) (F : A * B -> D) : forall l m, (length l <= length m)%nat -> (forall a b, In a l -> P a (F (a, b))) -> Forall2 P l (map F (combine l m)).
Proof.
  induction l as [|a l IH]; intros m L H; cbn; [constructor|]. destruct m as [|b m]; [cbn in L; lia|]. cbn. constructor; [apply H; now left|]. apply IH; [cbn in L; lia|]. intros; apply H; now right.
Qed.
Section Rows.
Variables (T : tools) (W : world) (uri : string) (r : Loader.network) (opt : option bool) (nw : Network.network).
Hypothesis FF : from_file T W uri = Ok r.
Hypothesis EN : solver_network opt r = Ok nw.
Lemma sx_ids l : forall k, map bus_id (sx_buses k l) = seq k (length l).
Proof. induction l as [|b l IH]; intros k; cbn; [reflexivity|now rewrite IH]. Qed.
(** buses of the solver are numbered by their places, which are those of the list of buses shown *)
Lemma ids label a : map bus_id (nw_buses nw) = seq 0 (length (buses_of label a r)).
Proof.
  destruct r as [n|o]; cbn [solver_network] in EN.
  - apply from_three in FF as (ms & P). destruct (good_parse _ _ _ _ P) as [[G _] _]. pose proof (dx_fields _ _ _ EN) as (_ & _ & BU & _). rewrite BU, map_map. cbn [buses_of]. rewrite map_length.
    change (map (fun x => bus_id (dx_bus x)) (nt_buses n)) with (map tb_id (nt_buses n)). rewrite G. f_equal. rewrite <- (map_length tb_id), G, seq_length. reflexivity.
  - injection EN as <-. cbn [sx_network nw_buses]. rewrite sx_ids. cbn [buses_of]. rewrite map_length, <- (map_length snd), numbered_snd. reflexivity.
Qed.
Lemma shown label a k : In k (map bus_id (nw_buses nw)) -> exists b, nth_error (buses_of label a r) k = Some b /\ number_at r (Some k) = Output.ob_num b /\ indexes a k = Output.ob_V b.
Proof.
  intros H. rewrite (ids label a) in H. apply in_seq in H as [_ H]. destruct (nth_error (buses_of label a r) k) as [b|] eqn:E; [|apply nth_error_None in E; lia]. exists b. split; [reflexivity|].
  destruct r as [n|o]; cbn [buses_of] in E.
  - rewrite nth_error_map in E. destruct (nth_error (nt_buses n) k) as [c|] eqn:Ec; [|discriminate]. injection E as <-. cbn. apply from_three in FF as (ms & P). destruct (good_parse _ _ _ _ P) as [[G _] _].
    assert (tb_id c = k) as ->; [|auto]. pose proof (map_nth_error tb_id _ _ Ec) as Q. rewrite G in Q. assert (k < nt_next n)%nat as L by (rewrite <- (seq_length (nt_next n) 0); apply nth_error_Some; congruence).
    apply (nth_error_nth _ _ 0%nat) in Q. rewrite seq_nth in Q by exact L. exact (eq_sym Q).
  - rewrite nth_error_map in E. pose proof (numbered_nth (n_buses o) 0 k) as N. destruct (nth_error (n_buses o) k) as [c|] eqn:Ec; rewrite N in E; [|discriminate]. injection E as <-. cbn. rewrite Ec. auto.
Qed.
Variables (So : Type) (label : Z -> string * string) (old : table) (viol : bool) (ls : list TimeSeries.tload) (res : @pf_result So) (rs : Output.result).
Hypothesis RS : results label old r nw viol ls res = Some rs.
Lemma ref_in e k : In e (Network.elements nw) -> In (Some k) (refs e) -> In k (map bus_id (nw_buses nw)).
Proof. intros He Hk. destruct (loaded_network _ _ _ _ _ _ FF EN) as [[_ OK] _]. exact (OK e He k Hk). Qed.
Lemma slack_in s k : In s (nw_slack nw) -> Network.sl_bus s = Some k -> In k (map bus_id (nw_buses nw)).
Proof. intros H Q. apply (ref_in (ESlack s)); [unfold Network.elements; rewrite !in_app_iff; right; right; left; now apply in_map|]. cbn. auto. Qed.
Lemma gen_in_net g k : In g (nw_generators nw) -> gen_bus g = Some k -> In k (map bus_id (nw_buses nw)).
Proof. intros H Q. apply (ref_in (EGen g)); [unfold Network.elements; rewrite !in_app_iff; do 4 right; left; now apply in_map|]. cbn. auto. Qed.
Theorem rows_listed : Forall2 (slack_listed rs) (nw_slack nw) (Output.or_slacks rs) /\ Forall2 (gen_listed rs) (nw_generators nw) (Output.or_gens rs) /\
  (opt = None <-> Output.or_inf rs = None) /\ (forall l, Output.or_inf rs = Some l -> Forall2 inf_listed (Output.or_buses rs) l).
Proof.
  destruct (loaded_network _ _ _ _ _ _ FF EN) as (_ & _ & _ & OP & _).
  destruct res as [| | |ok v it tx rd ds so']; try discriminate. cbn [results] in RS. injection RS as <-.
  set (nwd := with_devices (with_powers ls nw) ds). set (a := assign_matrix old nwd).
  assert (SL : nw_slack nwd = nw_slack nw) by reflexivity. assert (GE : nw_generators nwd = nw_generators nw) by reflexivity.
  assert (BU : nw_buses nwd = nw_buses nw) by reflexivity. assert (OT : nw_optimization nwd = nw_optimization nw) by reflexivity.
  pose proof (assigned_lengths old nwd) as [LS LI]. fold a in LS, LI. cbn [Output.or_slacks Output.or_gens Output.or_inf Output.or_buses].
  split; [|split; [|split]].
  - rewrite <- SL. unfold slacks_of, stampers_of. apply combine_rows.
    + rewrite skipn_length, LS. unfold Network.elements, slack_at. repeat rewrite ?app_length, ?map_length. lia.
    + intros s st H k Q. rewrite SL in H. destruct (shown label a k (slack_in s k H Q)) as (b & E & N & V). exists b. cbn [Output.or_buses fst snd Results.rs_bus]. rewrite Q. auto.
  - rewrite <- GE. unfold gens_of, stampers_of. apply combine_rows.
    + rewrite skipn_length, LS. unfold Network.elements, generators_at. repeat rewrite ?app_length, ?map_length. lia.
    + intros g st H k Q. rewrite GE in H. destruct (shown label a k (gen_in_net g k H Q)) as (b & E & N & V). exists (Output.ob_V b), b. cbn [Output.or_buses fst snd]. rewrite Q. auto.
  - unfold infeasible_of. rewrite OT, OP. destruct opt; split; intros Q; discriminate || reflexivity.
  - pose proof (ids label a) as ID. pose proof (shown label a) as SH. intros l. unfold infeasible_of. rewrite OT, OP in *. destruct opt as [l1|]; [|discriminate]. intros Q. injection Q as <-. change (nw_buses nwd) with (nw_buses nw).
    assert (F : forall k bs (os : list Output.obus) m, map bus_id bs = seq k (length os) -> (length bs <= length m)%nat ->
      (forall j b, nth_error os j = Some b -> number_at r (Some (k + j)%nat) = Output.ob_num b /\ indexes a (k + j)%nat = Output.ob_V b) ->
      Forall2 inf_listed os (map (fun x => let i y := PowerFlow.or0 (index_in (snd x) y) in let v := indexes a (bus_id (fst x)) in
      (number_at r (Some (bus_id (fst x))),
       if l1 then Results.RL1 v (i "Iir_plus", i "Iii_plus")%string (i "Iir_minus", i "Iii_minus")%string else Results.RL2 v (i "Iir", i "Iii")%string)) (combine bs m))).
    { intros k bs. revert k. induction bs as [|c bs IH]; intros k os m I L H; destruct os as [|o os]; try discriminate; [constructor|]. destruct m as [|x m]; [cbn in L; lia|]. cbn [combine map]. cbn [map length seq] in I. injection I as I1 I2. constructor.
      - destruct (H 0%nat o eq_refl) as [H1 H2]. rewrite Nat.add_0_r in H1, H2. cbn [fst snd]. rewrite I1. split; [exact H1|]. cbn [snd]. destruct l1; exact H2.
      - apply (IH (S k) os m I2); [cbn in L; lia|]. intros j b Hj. specialize (H (S j) b Hj). rewrite Nat.add_succ_r in H. exact H. }
    apply (F 0%nat); [exact ID|rewrite LI; change (nw_buses nwd) with (nw_buses nw); lia|].
    intros j b Hj. destruct (SH j) as (b' & E & N & V).
    + rewrite ID. apply in_seq. split; [lia|]. apply nth_error_Some. congruence.
    + rewrite Hj in E. injection E as <-. auto.
Qed.
End Rows.

(** *** infeasibility currents *)
Local Open Scope R_scope.
Lemma cut_clamp x : cut x (Results.clamp x).
Proof. unfold cut, Results.clamp. destruct (Rlt_dec x (1 / 100000)); split; intros; try reflexivity; try contradiction. lra. Qed.
Lemma inf_nth l1 tbl bs : forall n k b, nth_error bs k = Some b -> exists m, nth_error (fst (assign_infeasibility l1 tbl n bs)) k = Some (fst (inf_stampers l1 (tbl (bus_id b)) m)).
Proof.
  induction bs as [|c bs IH]; intros n k b H; [destruct k; discriminate|]. rewrite inf_cons. cbn [fst]. destruct k as [|k]; cbn in H |- *; [injection H as <-; eauto|eauto].
Qed.
Lemma combine_nth_error {A B} : forall (l : list A) (m : list B) k a b, nth_error l k = Some a -> nth_error m k = Some b -> nth_error (combine l m) k = Some (a, b).
Proof. induction l as [|x l IH]; intros m k a b H1 H2; [destruct k; discriminate|]. destruct m as [|y m]; [destruct k; discriminate|]. destruct k; cbn in *; [congruence|eauto]. Qed.
Theorem infeasible_shown old r nw l1 v : network_ok nw -> nw_optimization nw = Some l1 -> let a := assign_matrix old nw in
  exists rows, infeasible_of a r nw = Some rows /\ length rows = length (nw_buses nw) /\
  forall k b row, nth_error (nw_buses nw) k = Some b -> nth_error rows k = Some row -> shows_current l1 (voltages a v (Some (bus_id b))) (extra l1 a v k) (Results.inf_res v (snd row)).
Proof.
  intros OK OP a. pose proof (assigned_lengths old nw) as [_ LI]. fold a in LI. rewrite OP in LI. unfold infeasible_of. rewrite OP. eexists. split; [reflexivity|].
  split; [rewrite map_length, combine_length, LI; lia|]. intros k b row Hb Hr.
  assert (exists m, nth_error (as_infeasibility a) k = Some (fst (inf_stampers l1 (as_table a (bus_id b)) m))) as [m Hm].
  { unfold a, assign_matrix. destruct (assign_buses (optimizing nw) (nw_buses nw) old 0) as [tbl n0]. destruct (assign_elems (optimizing nw) tbl n0 (Network.elements nw)) as [s n1]. rewrite OP.
    destruct (inf_nth l1 tbl (nw_buses nw) n1 k b Hb) as [m Hm]. destruct (assign_infeasibility l1 tbl n1 (nw_buses nw)). exists m. exact Hm. }
  rewrite (map_nth_error _ _ _ (combine_nth_error _ _ _ _ _ Hb Hm)) in Hr. injection Hr as <-. cbn [fst snd].
  pose proof (volt_at old nw nw v b OK eq_refl eq_refl (nth_error_In _ _ Hb)) as V. cbv zeta in V. fold a in V. rewrite <- V. unfold SpecResults.at2, shows_current, extra, infeasibility. rewrite (nth_error_nth _ _ [] Hm).
  destruct l1; cbn; unfold Csub; cbn; split; match goal with |- cut ?x (Results.clamp ?y) => replace x with y by ring; apply cut_clamp end.
Qed.
