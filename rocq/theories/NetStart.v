(** Lemmas for C143: a start vector that already meets the tolerance. *)
From Coq Require Import String List Bool Arith ZArith Reals Lia Lra Permutation.
From Verif Require Import Expr Segment Stamper SpecStamper Builder Residual ResidualProofs Collect SpecSystem CollectProofs Components SpecComponents Network SpecNetwork NetworkProofs NetworkAssign
  SystemProofs Solver SpecSolver SolverProofs NetSolverProofs Homotopy SpecHomotopy HomotopyProofs SpecKirchhoff KirchhoffProofs KirchhoffNet SpecNetStamper NetStamper NetStamperProofs NetStamperNet.
Import ListNotations.
Local Open Scope R_scope.

(** *** the first iteration *)
Section Loop.
Context {M St So : Type}.
Variable st_linear : St -> R -> St * list (@event R).
Variable st_nonlinear : St -> (nat -> R) -> Z -> St * list (@event R).
Variable st_residuals : St -> R -> (nat -> R) -> Z -> St * list (M * nat * R).
Variable spsolve : So -> list (nat * nat * R) -> list R -> So * option (list R).
Variable limiting : option (list R -> list R -> option (list R)).
Variable cfg : settings.
Variable at_pt : St -> (nat -> R) -> option R -> Z -> Prop.
Variable EL EN : (nat -> R) -> R -> list (@event R).
Variable RS : (nat -> R) -> R -> list (M * nat * R).
Hypothesis H_lin : forall st w tx0 j tx, at_pt st w tx0 j ->
  at_pt (fst (st_linear st tx)) w (Some tx) j /\ Permutation (snd (st_linear st tx)) (EL w tx).
Hypothesis H_nl : forall st w tx j v k, at_pt st w (Some tx) j ->
  let u := if Z.eqb k j then w else v in
  at_pt (fst (st_nonlinear st v k)) u (Some tx) k /\ Permutation (snd (st_nonlinear st v k)) (EN u tx).
Hypothesis H_res : forall st w tx0 j tx v k, at_pt st w tx0 j ->
  let u := if Z.eqb k j then w else v in
  at_pt (fst (st_residuals st tx v k)) u (Some tx) k /\ Permutation (snd (st_residuals st tx v k)) (RS u tx).

Lemma run_accepted : forall st w tx0 j so v0 tx, at_pt st w tx0 j -> j <> 0%Z -> set_debug cfg = false -> (1 <= set_max_iters cfg)%nat ->
  (1 <= length v0)%nat ->
  (forall r x, In (EvJ r x) (EL w tx) -> (r < length v0)%nat) -> (forall r x, In (EvJ r x) (EN (vec v0) tx) -> (r < length v0)%nat) ->
  (forall q, In q (RS (vec v0) tx) -> (snd (fst q) < length v0)%nat) ->
  (forall r, (r < length v0)%nat -> Rabs (Rrow (RS (vec v0) tx) r) < set_tolerance cfg) ->
  (forall so es J, length J = length v0 -> exists so' v, spsolve so es J = (so', Some v) /\ length v = length v0) ->
  exists v st' so', nr_run st_linear st_nonlinear st_residuals spsolve limiting cfg st so v0 tx = NOk true v 0 st' so' /\ length v = length v0 /\
    at_pt st' (vec v0) (Some tx) 0%Z.
Proof.
  intros st w tx0 j so v0 tx Hat Hj Hd Hm Hn HrJ HrN HrR Ht Hsol. unfold nr_run.
  destruct (H_lin st w tx0 j tx Hat) as [L1 L2]. destruct (st_linear st tx) as [st0 evs]. simpl in L1, L2.
  destruct (apply_events_total cfg evs b_init (repeat 0 (length v0)) Hd) as [[Y JL] E]; [simpl; lia| |].
  { intros r x Hin. rewrite repeat_length. apply (HrJ r x). eapply Permutation_in; eauto. }
  rewrite E. destruct (apply_events_ok _ _ _ _ _ _ E) as [A [_ [_ [_ [_ [L _]]]]]]; [simpl; lia|].
  assert (HJL : length JL = length v0) by (rewrite L; apply repeat_length).
  destruct (set_max_iters cfg) as [|m]; [lia|]. cbn [nr_loop].
  pose proof (H_nl st0 w tx j (vec v0) (Z.of_nat 0) L1) as [N1 N2].
  replace (Z.eqb (Z.of_nat 0) j) with false in * by (symmetry; apply Z.eqb_neq; cbn; congruence).
  destruct (st_nonlinear st0 (vec v0) (Z.of_nat 0)) as [st1 evs1]. simpl in N1, N2.
  destruct (apply_events_total cfg evs1 Y JL Hd) as [[Y1 J1] E1]; [exact A| |].
  { intros r x Hin. rewrite HJL. apply (HrN r x). eapply Permutation_in; eauto. }
  rewrite E1. destruct (apply_events_ok _ _ _ _ _ _ E1) as [_ [_ [_ [_ [_ [LJ _]]]]]]; [exact A|].
  rewrite Hd. cbn [b_assert_valid b_to_matrix andb].
  destruct (Hsol so (b_entries Y1) J1) as [so1 [v1 [S1 X1]]]; [congruence|]. rewrite S1.
  pose proof (H_res st1 _ (Some tx) (Z.of_nat 0) tx (vec v1) (Z.of_nat 0) N1) as [R1 R2]. rewrite Z.eqb_refl in *.
  destruct (st_residuals st1 tx (vec v1) (Z.of_nat 0)) as [st2 res]. simpl in R1, R2.
  destruct (proj2 (residual_details_defined res (length v1))) as [rd Hrd].
  { split; [lia|]. intros q Hq. rewrite X1. eapply HrR. eapply Permutation_in; eauto. }
  rewrite Hrd. change (bails_out ([] ++ [rd_max rd])) with false. cbn iota.
  destruct (residual_details_correct _ _ _ Hrd) as [_ [_ [_ [Q1 [Q2 _]]]]].
  assert (Hz : rd_max rd < set_tolerance cfg).
  { rewrite <- Q2, <- Rrow_row_sum, Rrow_rsum, (rsum_perm _ _ _ R2), <- Rrow_rsum. apply Ht. lia. }
  unfold Rltb. destruct (Rlt_dec (rd_max rd) (set_tolerance cfg)) as [_|N]; [|contradiction].
  exists v1, st2, so1. auto.
Qed.
End Loop.

(** *** rows of collections *)
Lemma stamps_row d i : forall l ss, build_stamps d i l = Some ss -> forall q, In q ss -> exists x ev, In (x, ev) l /\ row_index d x = Some (Some (s_row q)).
Proof.
  induction l as [|[x ev] l IH]; cbn [build_stamps]; intros ss H q Hq; [injection H as <-; contradiction|].
  assert (Hl : forall ss', build_stamps d i l = Some ss' -> In q ss' -> exists x0 ev0, In (x0, ev0) ((x, ev) :: l) /\ row_index d x0 = Some (Some (s_row q))).
  { intros ss' E Hq'. destruct (IH ss' E q Hq') as [x0 [ev0 [B C]]]. exists x0, ev0. split; [now right|auto]. }
  assert (Hc : forall r c, row_index d x = Some (Some r) -> ocons {| s_x := mk_expression (sd_seg d) x ev; s_in := i; s_row := r; s_col := c |} (build_stamps d i l) = Some ss ->
       exists x0 ev0, In (x0, ev0) ((x, ev) :: l) /\ row_index d x0 = Some (Some (s_row q))).
  { intros r c Hr E. destruct (build_stamps d i l) as [ss'|]; [|discriminate]. injection E as <-.
    destruct Hq as [<-|Hq]; [|now apply (Hl ss')]. exists x, ev. split; [now left|auto]. }
  destruct (row_index d x) as [[r|]|] eqn:R; try discriminate; [|now apply (Hl ss)].
  destruct (ev_yth ev) as [y|]; [|now apply (Hc r 0%nat)].
  destruct (col_index d y) as [[c|]|]; try discriminate; [now apply (Hc r c)|now apply (Hl ss)].
Qed.
Lemma resids_row d i : forall l rs, build_resids d i l = Some rs -> forall q, In q rs -> exists x, In x l /\ row_index d x = Some (Some (r_row q)).
Proof.
  induction l as [|x l IH]; cbn [build_resids]; intros rs H q Hq; [injection H as <-; contradiction|].
  destruct (row_index d x) as [[r|]|] eqn:R; try discriminate.
  - destruct (build_resids d i l) as [rs'|]; [|discriminate]. injection H as <-.
    destruct Hq as [<-|Hq]; [exists x; split; [now left|auto]|]. destruct (IH rs' eq_refl q Hq) as [x' [A B]]. exists x'. split; [now right|auto].
  - destruct (IH rs H q Hq) as [x' [A B]]. exists x'. split; [now right|auto].
Qed.
Lemma coll_rows {M} : forall (l : list (M * option details * list R)) cs, build_colls l = Some cs -> forall c, In c cs -> exists e, In e (elements_of l) /\
  (forall q, In q (c_stamps c) -> exists x, In x (first_orders (fst e)) /\ row_index (fst e) x = Some (Some (s_row q))) /\
  (forall q, In q (c_resids c) -> exists x, In x (first_orders (fst e)) /\ row_index (fst e) x = Some (Some (r_row q))).
Proof.
  induction l as [|[[m [d|]] cv] l IH]; cbn; intros cs H c Hc; [injection H as <-; contradiction| |eapply IH; eauto].
  destruct (build_coll m d cv) as [c0|] eqn:E; [|discriminate]. destruct (build_colls l) as [cs0|]; [|discriminate]. injection H as <-.
  destruct Hc as [<-|Hc].
  - exists (d, cv). split; [now left|]. destruct (build_coll_from m d cv c0 E) as [ps [ds CF]]. cbn [fst]. split; intros q Hq.
    + destruct (stamps_row _ _ _ _ (cf_ss _ _ _ _ _ _ CF) q Hq) as [x [ev [A B]]]. exists x. split; auto. eapply row_of_cell; eauto.
    + exact (resids_row _ _ _ _ (cf_rs _ _ _ _ _ _ CF) q Hq).
  - destruct (IH cs0 eq_refl c Hc) as [e [A B]]. exists e. split; [now right|exact B].
Qed.

Section Network.
Variables (old : table) (nw : network).
Hypothesis OK : network_ok nw.
Hypothesis EN : ends_on_buses nw.
Let a := assign_matrix old nw.
Let opt := optimizing nw.

Lemma equation_rows e x r : In e (equations a) -> In x (first_orders (fst e)) -> row_index (fst e) x = Some (Some r) -> (r < as_size a)%nat.
Proof.
  unfold equations. rewrite in_flat_map. intros [s [Hs He]] Hx Hr. destruct (rows_exist old nw s e x OK Hs He Hx) as [o [E Ho]]. apply Ho. congruence.
Qed.
Lemma used_below e x i : In e (equations a) -> lookup (sd_var (fst e)) x = Some (Some i) -> (i < as_size a)%nat.
Proof.
  unfold equations. rewrite in_flat_map. intros [s [Hs He]] Hx. destruct (parts_good old nw OK) as [n1 [C1 [C2 L]]].
  assert (U : In i (used s)) by (apply used_in; exists e, x; split; auto; now apply lookup_in).
  apply in_app_iff in Hs as [Hs|Hs]; apply In_nth_error in Hs as [k Hk];
    [destruct (chain_nth _ _ _ _ k s (good_in_le nw) C1 Hk) as [p [q [G [H1 [H2 H3]]]]]|destruct (chain_nth _ _ _ _ k s (good_in_le nw) C2 Hk) as [p [q [G [H1 [H2 H3]]]]]];
    destruct (good_in_used nw i _ _ _ G U); unfold a; lia.
Qed.
Lemma F_within v w tx r : (forall i, (i < as_size a)%nat -> v i = w i) -> F (equations a) v tx r = F (equations a) w tx r.
Proof.
  intros H. assert (forall es, incl es (equations a) -> F es v tx r = F es w tx r) as G; [|apply G, incl_refl].
  induction es as [|e es IH]; intros I; [reflexivity|]. cbn [F fold_right]. fold (F es v tx r) (F es w tx r).
  rewrite IH by (intros x Hx; apply I; now right). f_equal. unfold elem_row.
  assert (S : forall s, sym_val e v tx s = sym_val e w tx s).
  { intros s. unfold sym_val. destruct (index_of s _); auto. destruct (lookup (sd_var (fst e)) s) as [[i|]|] eqn:E; auto. apply H. eapply used_below; eauto. apply I. now left. }
  generalize (first_orders (fst e)). induction l as [|x l IHl]; [reflexivity|]. cbn [fold_right]. rewrite IHl.
  destruct (row_index (fst e) x) as [[r'|]|]; auto. destruct (Nat.eqb r' r); auto. f_equal. apply ExprProofs.den_ext. auto.
Qed.

Lemma start_accepted nan So (spsolve : So -> list (nat * nat * R) -> list R -> So * option (list R)) limiting cfg tx_stepping :
  always_answers spsolve -> set_debug cfg = false -> (1 <= set_max_iters cfg)%nat -> (1 <= as_size a)%nat ->
  exists ms, matrix_stamper nan nw a = Some ms /\
  forall so v0, length v0 = as_size a -> (forall r, (r < as_size a)%nat -> Rabs (F (equations a) (vec v0) 0 r) < set_tolerance cfg) ->
  exists r s', net_homotopy spsolve limiting cfg tx_stepping ms so v0 = HOk r s' /\ h_ok r = true /\ h_tx r = 0 /\ h_iterations r = 0%nat /\
    forall q, (q < as_size a)%nat -> nth q (rd_residuals (h_res r)) 0 = F (equations a) (vec v0) 0 q.
Proof.
  intros SV Hd Hm Hn. destruct (network_builds old nw OK EN nan) as [cs [ms [B [EO [SP [BS MS]]]]]]. exists ms. split; [exact MS|].
  intros so v0 L HF.
  assert (RWS : forall q, In q (all_stamps cs) -> (s_row q < length v0)%nat).
  { intros q Hq. unfold all_stamps in Hq. apply in_flat_map in Hq as [c [Hc Hq]]. destruct (coll_rows _ _ B c Hc) as [e [He [A _]]].
    destruct (A q Hq) as [x [Hx Hr]]. rewrite L. rewrite elements_of_network in He. eapply equation_rows; eauto. }
  assert (RWR : forall c q, In c cs -> In q (c_resids c) -> (r_row q < length v0)%nat).
  { intros c q Hc Hq. destruct (coll_rows _ _ B c Hc) as [e [He [_ A]]].
    destruct (A q Hq) as [x [Hx Hr]]. rewrite L. rewrite elements_of_network in He. eapply equation_rows; eauto. }
  assert (RJ : forall lin u r x, In (EvJ r x) (element_events 0 nan opt lin {| pt_v := u; pt_tx := Some 0 |} cs) -> (r < length v0)%nat).
  { intros lin u r x Hin. unfold element_events in Hin. apply in_map_iff in Hin as [q [E Hq]].
    apply filter_In in Hq as [Hq _]. apply RWS in Hq. unfold stamp_event in E. destruct (x_isJ (s_x q)); [|discriminate]. injection E as <- _. exact Hq. }
  assert (RR : forall u q, In q (net_RS nan opt cs u 0) -> (snd (fst q) < length v0)%nat).
  { intros u q Hq. unfold net_RS, element_residuals in Hq. apply in_flat_map in Hq as [c [Hc Hq]].
    apply in_map_iff in Hq as [z [<- Hz]]. cbn. eapply RWR; eauto. }
  pose proof (net_reached nan opt _ cs ms B EO SP BS [] ms [] eq_refl) as At0. cbn [spec_ops fst op_start op_v op_tx last_iter] in At0.
  destruct (run_accepted (stamp_linear pkey_eqb) (stamp_nonlinear pkey_eqb) (calc_residuals pkey_eqb) spsolve limiting cfg
     (at_net nan opt cs) (net_EL nan opt cs) (net_EN nan opt cs) (net_RS nan opt cs)
     (net_lin nan opt cs) (net_nl nan opt cs) (net_res nan opt cs) ms _ _ _ so v0 0 At0) as [v [st' [so' [R [Lv At1]]]]]; auto; try lia.
  - intros r x. apply RJ.
  - intros r x. apply RJ.
  - apply RR.
  - intros r Hr. rewrite (net_residual_F nan opt _ cs B EO), elements_of_network. apply HF. lia.
  - intros so1 es J HJ. destruct (SV so1 es J) as [so2 [w [E1 E2]]]. exists so2, w. split; auto. congruence.
  - unfold net_homotopy, homotopy_run. unfold net_nr at 1. unfold network_run. cbn [fst snd]. rewrite R. cbn [orb]. unfold h_return, net_residuals. cbn [fst].
    destruct (net_res nan opt cs st' (vec v0) (Some 0) 0%Z 0 (vec v) 0%Z At1) as [_ P]. rewrite Z.eqb_refl in P.
    change (Z.of_nat 0) with 0%Z. destruct (calc_residuals pkey_eqb st' 0 (vec v) 0%Z) as [st2 res]. cbn [snd] in *.
    destruct (proj2 (residual_details_defined res (length v))) as [rd Hrd].
    { split; [lia|]. intros q Hq. rewrite Lv. eapply RR. eapply Permutation_in; eauto. }
    rewrite Hrd. eexists; eexists. split; [reflexivity|]. cbn. split; [reflexivity|]. split; [reflexivity|]. split; [reflexivity|].
    intros q Hq. destruct (residual_details_correct _ _ _ Hrd) as [_ [Q1 _]]. rewrite Q1 by lia.
    rewrite <- Rrow_row_sum, Rrow_rsum, (rsum_perm _ _ _ P), <- Rrow_rsum, (net_residual_F nan opt _ cs B EO). now rewrite elements_of_network.
Qed.
Lemma physical_found nan So (spsolve : So -> list (nat * nat * R) -> list R -> So * option (list R)) limiting cfg tx_stepping V :
  nw_optimization nw = None -> physical nw V ->
  always_answers spsolve -> set_debug cfg = false -> (1 <= set_max_iters cfg)%nat -> (1 <= as_size a)%nat -> 0 < set_tolerance cfg ->
  exists ms v0, matrix_stamper nan nw a = Some ms /\ length v0 = as_size a /\
    (forall b, In b (nw_buses nw) -> voltages a (vec v0) (Some (bus_id b)) = V (Some (bus_id b))) /\
    forall so, exists r s', net_homotopy spsolve limiting cfg tx_stepping ms so v0 = HOk r s' /\ h_ok r = true /\ h_tx r = 0 /\
      forall q, (q < as_size a)%nat -> nth q (rd_residuals (h_res r)) 0 = 0.
Proof.
  intros NO PH SV Hd Hm Hn Ht. destruct (start_accepted nan So spsolve limiting cfg tx_stepping SV Hd Hm Hn) as [ms [MS H]].
  destruct (complete old nw OK NO V PH) as [v [HV HF]]. exists ms, (map v (seq 0 (as_size a))).
  assert (E : forall i, (i < as_size a)%nat -> vec (map v (seq 0 (as_size a))) i = v i).
  { intros i Hi. unfold vec. rewrite nth_indep with (d' := v 0%nat) by now rewrite map_length, seq_length. rewrite map_nth, seq_nth by exact Hi. reflexivity. }
  split; [exact MS|]. split; [now rewrite map_length, seq_length|]. split.
  - intros b Hb. rewrite <- (HV b Hb). unfold voltages. cbn [at_ref]. fold a.
    assert (forall i, In i (node_indexes (as_table a (bus_id b))) -> (i < as_size a)%nat) as HI.
    { intros i Hi. apply In_nth_error in Hb as [k Hk]. apply (all_owned old nw i OK). exists (OBus k). exists b. auto. }
    unfold volt, read. f_equal; [destruct (n_Vr (as_table a (bus_id b))) eqn:Q|destruct (n_Vi (as_table a (bus_id b))) eqn:Q]; auto; apply E, HI; [now apply node_Vr|now apply node_Vi].
  - intros so. destruct (H so (map v (seq 0 (as_size a)))) as [r [s' [R1 [R2 [R3 [R4 R5]]]]]]; [now rewrite map_length, seq_length| |].
    + intros q Hq. rewrite (F_within _ v) by exact E. fold a in HF. rewrite HF by exact Hq. now rewrite Rabs_R0.
    + exists r, s'. repeat (split; auto). intros q Hq. rewrite R5 by exact Hq. rewrite (F_within _ v) by exact E. fold a in HF. now apply HF.
Qed.
End Network.
