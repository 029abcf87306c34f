(** C150: power flow on networks whose circuit laws are linear. *)
From Coq Require Import String List Bool Arith ZArith Reals Lia Lra.
From Verif Require Import Stamper Residual Collect SpecSystem Components SpecComponents Network SpecNetwork Solver SpecSolver Homotopy Devices Graph SpecKirchhoff NetworkProofs KirchhoffNet
  SpecNetInfeas NetInfeasFinal SpecNetLeast NetLeastFinal SpecNetStamper NetStamper PowerFlow SpecPowerFlow PowerFlowRun SpecNewton NewtonProofs.
Import ListNotations.
Local Open Scope R_scope.

Section Network.
Variables (old : table) (nw : network).
Hypothesis OK : network_ok nw.
Hypothesis EN : ends_on_buses nw.
Hypothesis LN : linear_network nw.
Let a := assign_matrix old nw.

Lemma newton_found nan So (spsolve : So -> list (nat * nat * R) -> list R -> So * option (list R)) cfg tx_stepping :
  solves_regular spsolve -> one_solution (equations a) (as_size a) ->
  set_debug cfg = false -> (2 <= set_max_iters cfg)%nat -> 0 < set_tolerance cfg -> (1 <= as_size a)%nat ->
  exists ms, matrix_stamper nan nw a = Some ms /\
  forall so v0, length v0 = as_size a ->
  exists r s', net_homotopy spsolve None cfg tx_stepping ms so v0 = HOk r s' /\ h_ok r = true /\ h_tx r = 0 /\ (h_iterations r <= 1)%nat /\
    length (h_v r) = as_size a /\ solution (equations a) (h_v r).
Proof. intros SV U. apply (newton_exact old nw OK EN LN). now apply regular_exact. Qed.

(** *** what the solution says of the circuit *)
Lemma solution_rows v : length v = as_size a -> solution (equations a) v -> forall r, (r < as_size a)%nat -> F (equations a) (vec v) 0 r = 0.
Proof. intros L H r Hr. apply H. lia. Qed.
Lemma newton_physical v : nw_optimization nw = None -> one_solution (equations a) (as_size a) -> length v = as_size a -> solution (equations a) v ->
  physical nw (voltages a (vec v)) /\
  forall V, physical nw V -> forall b, In b (nw_buses nw) -> V (Some (bus_id b)) = voltages a (vec v) (Some (bus_id b)).
Proof.
  intros NO [w [Lw [Hw U]]] L H. split.
  - apply (exact_iff old nw OK NO); [apply (linear_energised nw LN)|]. exact (solution_rows v L H).
  - intros V PV b Hb. destruct (complete old nw OK NO V PV) as [y [HV HF]]. rewrite <- (HV b Hb). fold a in HV, HF |- *.
    assert (E : forall i, (i < as_size a)%nat -> vec (map y (seq 0 (as_size a))) i = y i) by (intros i Hi; now apply NewtonGauss.vec_map).
    assert (Q : map y (seq 0 (as_size a)) = v).
    { rewrite (U v L H). apply U; [now rewrite map_length, seq_length|]. intros r Hr. rewrite map_length, seq_length in Hr.
      rewrite (NetStart.F_within old nw OK _ y) by exact E. now apply HF. }
    rewrite <- Q. unfold voltages. cbn [at_ref].
    assert (HI : forall i, In i (node_indexes (as_table a (bus_id b))) -> (i < as_size a)%nat).
    { intros i Hi. apply In_nth_error in Hb as [k Hk]. apply (NetworkAssign.all_owned old nw i OK). exists (OBus k). exists b. auto. }
    unfold volt, read. f_equal; [destruct (n_Vr (as_table a (bus_id b))) eqn:Z|destruct (n_Vi (as_table a (bus_id b))) eqn:Z]; auto; symmetry; apply E, HI; [now apply node_Vr|now apply node_Vi].
Qed.

(** *** PowerFlow.execute without device control *)
Lemma newton_execute x nan So (spsolve : So -> list (nat * nat * R) -> list R -> So * option (list R)) cfg visit so :
  solves_regular spsolve -> one_solution (equations a) (as_size a) -> (1 <= as_size a)%nat ->
  (nw_three_phase nw = true \/ pf_limiting cfg = false) -> pf_device_control cfg = false -> intact x nw ->
  set_debug (pf_nr cfg) = false -> (2 <= set_max_iters (pf_nr cfg))%nat -> 0 < set_tolerance (pf_nr cfg) ->
  (exists n, execute x spsolve nan cfg old visit nw so = PFIslands n) \/ execute x spsolve nan cfg old visit nw so = PFVoltages \/
  exists v it res so', execute x spsolve nan cfg old visit nw so = PFDone true v it 0 res (devices_of x nw a) so' /\ (it <= 1)%nat /\
    length v = as_size a /\ solution (equations a) v.
Proof.
  intros SV U Hn Hl Hc HI Hd Hm Ht. unfold execute. fold a.
  destruct (negb (Nat.eqb (length (islands (build (graph_of x nw)))) 1)); [left; eexists; reflexivity|].
  destruct (negb (validate visit (build (graph_of x nw)))); [right; left; reflexivity|]. right. right.
  destruct (newton_found nan So spsolve (pf_nr cfg) (pf_tx_stepping cfg) SV U Hd Hm Ht Hn) as [ms [MS H]].
  destruct (H so (v_init cfg nw a)) as [r [s' [R [R1 [R2 [R3 [R4 R5]]]]]]]; [unfold v_init; now rewrite map_length, seq_length|].
  assert (LI : limiter cfg nw a = None).
  { unfold limiter. destruct Hl as [-> | ->]; [reflexivity|]. now rewrite andb_false_r. }
  assert (AB : any_blown (devices_of x nw a) = false).
  { unfold any_blown. apply not_true_is_false. intros B. apply existsb_exists in B as [d [Hin B]]. unfold devices_of in Hin.
    destruct (nw_three_phase nw) eqn:T; [|destruct Hin]. apply in_app_iff in Hin as [Hin|Hin]; apply in_map_iff in Hin as [[k e] [<- Hk]]; cbn [fst snd] in *.
    - assert (K : (k < length (nw_fuses nw))%nat).
      { revert Hk. generalize (nw_fuses nw). assert (forall (l : list elem) n, In (k, e) (number n l) -> (k < n + length l)%nat) as G.
        { induction l as [|y l IH]; cbn; intros n Q; [contradiction|]. destruct Q as [Q|Q]; [injection Q as -> _; lia|]. apply IH in Q. lia. }
        intros l Q. exact (G l 0%nat Q). }
      unfold fuse_of in B. cbn in B. unfold fuse_stamps_raise in B. cbn in B. rewrite (HI T k K) in B. discriminate.
    - unfold cap_of in B. destruct e; try discriminate. destruct (of_cap x k) as [[? ?] ?]. discriminate. }
  unfold device_run. rewrite Hc. unfold MAX_DEVICE_ITERATIONS. cbn [device_loop]. unfold solve. rewrite AB. unfold run_homotopy. rewrite with_devices_same. cbv zeta. fold a.
  rewrite MS, LI, R. rewrite R1. cbn [negb]. rewrite R2. do 4 eexists. split; [reflexivity|]. auto.
Qed.
End Network.

(** infeasibility analysis *)
Lemma newton_least old nw l1 : network_ok nw -> nw_optimization nw = Some l1 -> affine_network nw -> let a := assign_matrix old nw in forall v,
  length v = as_size a -> solution (equations a) v -> physical_with (extra l1 a (vec v)) nw (voltages a (vec v)) /\
  forall E W, physical_with E nw W -> total_square nw (extra l1 a (vec v)) <= total_square nw E.
Proof.
  intros OK NO AF a v L H. pose proof (solution_rows old nw v L H) as HF. split.
  - apply (infeasible_sound old nw l1 OK NO); [apply (affine_energised nw AF)|exact HF].
  - intros E W HW. apply (least old nw l1 OK NO AF _ HF E W HW).
Qed.
