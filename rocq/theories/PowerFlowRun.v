(** Lemmas for C144: what a power flow that comes to an end says about its network. *)
From Coq Require Import String List Bool Arith ZArith Reals Permutation Lia Lra.
From Verif Require Import Expr Segment Stamper Residual Collect SpecSystem Components SpecComponents Network SpecNetwork NetworkAssign Solver SpecSolver Homotopy SpecHomotopy HomotopyProofs
  Devices SpecDevices DevicesProofs Graph SpecGraph GraphProofs SpecKirchhoff KirchhoffProofs KirchhoffNet SpecNetStamper NetStamper NetStamperNet NetRun
  PowerFlow SpecPowerFlow PowerFlowProofs PowerFlowGraph PowerFlowDevices.
Import ListNotations.
Local Open Scope R_scope.

Lemma switch_same x a : forall l n, switch_all (map (fun y => cap_of x a (fst y) (snd y)) (number n l)) l = l.
Proof.
  induction l as [|e l IH]; intros n; [reflexivity|]. cbn [number map switch_all fst snd]. rewrite IH. f_equal. unfold cap_of.
  destruct e; try reflexivity. destruct (of_cap x n) as [[m h] lo]. cbn [switched c_switch]. destruct closed; reflexivity.
Qed.
Lemma with_devices_same x nw a : with_devices nw (devices_of x nw a) = nw.
Proof.
  unfold with_devices, devices_of. destruct (nw_three_phase nw).
  - rewrite skipn_app, skipn_all2 by (rewrite map_length, number_length; lia). rewrite map_length, number_length, Nat.sub_diag. cbn [skipn app]. rewrite switch_same. destruct nw; reflexivity.
  - rewrite skipn_nil. cbn. destruct (nw_capacitors nw) eqn:E; cbn; rewrite <- E; destruct nw; reflexivity.
Qed.

Section Run.
Variable x : details_of.
Context {So : Type}.
Variable spsolve : So -> list (nat * nat * R) -> list R -> So * option (list R).
Variable nan : R.
Variable cfg : pf_settings.
Variable old : table.
Variable visit : list nat -> list nat.
Variable nw : network.
Notation exec := (execute x spsolve nan cfg old visit nw).

Lemma islands_iff so : network_ok nw -> sorted nw -> proper x nw -> ((exists n, exec so = PFIslands n) <-> ~ one_piece x nw).
Proof.
  intros OK SO PR. rewrite (piece_connected x nw SO PR). rewrite <- (islands_connected _ (graph_ends x nw OK PR)). unfold execute.
  destruct (Nat.eqb_spec (length (islands (build (graph_of x nw)))) 1) as [E|E]; cbn [negb]; [|split; eauto].
  split; [|intros H; contradiction]. intros [n H]. destruct (negb (validate visit (build (graph_of x nw)))); [discriminate|].
  destruct (device_run _ _ _ _ _ _ _) as [ok v [[it tx] res] ds so'|]; discriminate.
Qed.

Section Done.
Variables (so so' : So) (ok : bool) (v : list R) (it : nat) (tx : R) (res : residual_details) (ds : list device).
Hypothesis D : exec so = PFDone ok v it tx res ds so'.
Let nw' := with_devices nw ds.
Let a := assign_matrix old nw.
Let a' := assign_matrix old nw'.
Lemma done_run : accepted visit (graph_of x nw) = true /\
  device_run (run_homotopy spsolve nan cfg old nw) vec (pf_device_control cfg) (nw_three_phase nw) so (devices_of x nw a) (v_init cfg nw a) = DOk ok v (it, tx, res) ds so'.
Proof.
  unfold execute in D. unfold accepted. destruct (Nat.eqb (length (islands (build (graph_of x nw)))) 1); cbn [negb] in D; [|discriminate].
  destruct (validate visit (build (graph_of x nw))); cbn [negb] in D; [|discriminate]. split; [reflexivity|]. fold a in D.
  destruct (device_run _ _ _ _ _ _ _) as [ok1 v1 [[it1 tx1] res1] ds1 so1|]; [|discriminate]. injection D as -> -> -> -> -> -> ->. reflexivity.
Qed.
Lemma done_homotopy : exists so0, run_homotopy spsolve nan cfg old nw so0 ds (v_init cfg nw a) = (so', inl (ok, v, (it, tx, res))).
Proof. apply (run_result _ _ _ _ _ _ _ _ _ _ _ _ (proj2 done_run)). Qed.
Lemma done_same : Forall2 same_device (devices_of x nw a) ds.
Proof. eapply run_same. apply done_run. Qed.
Lemma done_fuses : forall i f, nth_error ds i = Some (DFuse f) -> f_status f = GOOD /\ nth_error (devices_of x nw a) i = Some (DFuse f).
Proof. apply (run_fuses _ _ _ _ _ _ _ _ _ _ _ _ (proj2 done_run)). Qed.

Lemma done_network : network_ok nw -> sorted nw -> proper x nw -> (forall l, Permutation (visit l) l) ->
  one_piece x nw /\
  (forall p q bp bq, path (plain (graph_of x nw)) p q -> first_bus (graph_of x nw) p bp -> first_bus (graph_of x nw) q bq -> Rabs (gb_vnom bp - gb_vnom bq) <= 20) /\
  intact x nw /\ rewired nw nw' /\ (pf_device_control cfg && nw_three_phase nw = false -> nw' = nw).
Proof.
  intros OK SO PR PE. destruct done_run as [AC DR]. split.
  - apply (piece_connected x nw SO PR). apply (islands_connected _ (graph_ends x nw OK PR)). unfold accepted in AC. apply andb_true_iff in AC as [AC _]. now apply Nat.eqb_eq.
  - split; [exact (accepted_voltages visit _ (graph_ends x nw OK PR) PE AC)|]. split; [exact (run_intact x old nw ds done_same done_fuses)|].
    split; [apply with_devices_re|]. intros H. apply andb_false_iff in H as [H|H].
    + rewrite H in DR. destruct (run_result _ _ _ _ _ _ _ _ _ _ _ _ DR) as [_ [_ E]]. unfold nw'. rewrite (E eq_refl). apply with_devices_same.
    + pose proof done_same as SA. unfold devices_of in SA. rewrite H in SA. inversion SA; subst. unfold nw'. rewrite <- (with_devices_same x nw a) at 2. unfold devices_of. rewrite H. reflexivity.
Qed.
Lemma init_length : length (v_init cfg nw a) = as_size a'.
Proof. unfold v_init. rewrite map_length, seq_length. symmetry. apply (rewired_assign old nw nw' (with_devices_re nw ds)). Qed.

Lemma done_success : network_ok nw -> ends_on_buses nw -> sized spsolve -> ok = true ->
  length v = as_size a' /\
  exists u lin stale J so0,
    spsolve so0 (lin ++ stale) J = (so', Some v) /\ (set_debug (pf_nr cfg) = true -> stale = []) /\
    (live nw' (voltages a' u) -> linearised_at (equations a') 0 u lin J) /\
    (forall q, (q < as_size a')%nat -> Rabs (F (equations a') u 0 q) < set_tolerance (pf_nr cfg) /\ nth q (rd_residuals res) 0 = F (equations a') u 0 q) /\
    (nw_optimization nw = None -> energised nw' (voltages a' u) -> nearly_physical (set_tolerance (pf_nr cfg)) nw' (voltages a' u)).
Proof.
  intros OK EN SZ OT. pose proof (with_devices_re nw ds) as RW. fold nw' in RW. destruct done_homotopy as [so0 RH]. unfold run_homotopy in RH. fold nw' in RH. cbv zeta in RH. fold a' in RH.
  destruct (@network_success old nw' (rewired_ok _ _ RW OK) (rewired_ends _ _ RW EN) nan So spsolve (limiter cfg nw' a') (pf_nr cfg) (pf_tx_stepping cfg) SZ) as [ms [Em H]].
  fold a' in Em, H. rewrite Em in RH.
  destruct (net_homotopy spsolve (limiter cfg nw' a') (pf_nr cfg) (pf_tx_stepping cfg) ms so0 (v_init cfg nw a)) as [r s|e s] eqn:EH; [|discriminate].
  injection RH as R1 R2 R3 R4 R5 R6. destruct (H _ _ _ _ init_length EH (eq_trans R2 OT)) as [L [u [lin [stale [J [s0 K]]]]]].
  rewrite R1, R3, R6 in K. rewrite R3 in L. split; [exact L|]. exists u, lin, stale, J, s0.
  destruct (rewired_same _ _ RW) as [_ [Eo _]]. rewrite Eo in K. exact K.
Qed.

Lemma done_devices : network_ok nw -> sorted nw -> ok = true -> pf_device_control cfg = true -> nw_three_phase nw = true ->
  capacitors_rest x (voltages a' (vec v)) nw' /\
  (nw_optimization nw = None -> energised nw' (voltages a' (vec v)) ->
   exists ac, accounts_for (voltages a' (vec v)) nw' ac /\ gives_rows nw' a' ac (vec v) /\ fuses_rest x nw' ac).
Proof.
  intros OK SO OT DC TP. destruct done_run as [_ DR]. destruct (run_result _ _ _ _ _ _ _ _ _ _ _ _ DR) as [_ [ST _]]. specialize (ST OT DC).
  split; [exact (caps_at_rest x old nw ds done_same OK (vec v) ST TP SO)|]. intros O EN.
  pose proof (with_devices_re nw ds) as RW. fold nw' in RW. destruct (rewired_same _ _ RW) as [_ [Eo _]]. rewrite <- Eo in O.
  exists (account_of (voltages a' (vec v)) (vec v) (2 * length (nw_buses nw')) (elements nw')). split; [split|split].
  - apply account_elems.
  - apply account_behaves. intros e He. eapply energised_elems; eauto.
  - exact (rows_of_vector old nw' (rewired_ok _ _ RW OK) O (vec v)).
  - rewrite Eo in O. exact (fuses_at_rest x old nw ds done_same done_fuses (vec v) ST TP SO O).
Qed.
End Done.

Definition pf_state (r : @pf_result So) (so : So) : So := match r with PFIslands _ | PFVoltages => so | PFRaise _ _ so' | PFDone _ _ _ _ _ _ so' => so' end.
Lemma execute_work (cnt : So -> nat) so : (forall so es J, cnt (fst (spsolve so es J)) = S (cnt so)) ->
  (cnt (pf_state (exec so) so) <= cnt so + 1020 * set_max_iters (pf_nr cfg))%nat.
Proof.
  intros Hc. unfold execute. destruct (negb _); [cbn; lia|]. destruct (negb _); [cbn; lia|].
  match goal with |- context [device_run ?h ?r ?dc ?tp ?s ?d ?v] => pose proof (@run_work _ _ _ _ h r cnt (102 * set_max_iters (pf_nr cfg))) as W; specialize (fun K => W K dc tp s d v) end.
  destruct (device_run _ _ _ _ _ _ _) as [ok v [[it tx] res] ds so'|e ds so']; cbn [dcount pf_state] in *; (etransitivity; [apply W|lia]).
  all: intros h dd vv; unfold run_homotopy; cbv zeta; destruct (matrix_stamper _ _ _) as [ms|]; [|cbn; lia].
  all: match goal with |- context [net_homotopy ?sp ?li ?c ?t ?m ?s0 ?v0] => pose proof (@net_homotopy_bounded _ _ sp li c cnt Hc t m s0 v0) as B end;
    destruct (net_homotopy _ _ _ _ _ _ _) as [r s|e0 s]; cbn [hst fst snd] in *; lia.
Qed.
End Run.
