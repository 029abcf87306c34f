(** Property theorems C23 and C24 (src/logic/homotopycontroller.py). *)
From Coq Require Import String List Bool Arith ZArith Reals Lra Lia.
From Verif Require Import Expr Stamper Collect SpecSystem Residual Solver SpecSolver Homotopy SpecHomotopy HomotopyProofs.
Import ListNotations.
Local Open Scope R_scope.

(** C23: a success is the answer of a successful Newton run at factor 0, either directly or at the end of
    101 runs at 1.00, 0.99, ..., 0.00, each started from the previous answer (the first from v0). *)
Theorem C23_success : forall (St V E Res : Type) (nr : St -> V -> R -> @nrout St V E) (residuals : St -> R -> V -> nat -> option Res)
    tx_stepping st v0 r st', homotopy_run nr residuals tx_stepping st v0 = HOk r st' -> h_ok r = true ->
  (exists k, nr st v0 0 = NR true (h_v r) k st' /\ h_tx r = 0 /\ h_iterations r = k /\ residuals st' 0 (h_v r) k = Some (h_res r)) \/
  (tx_stepping = true /\ exists v1 k1 s v k,
     nr st v0 0 = NR false v1 k1 (s 0%nat) /\ v 0%nat = v0 /\ successful_runs nr 101 s v k /\
     s 101%nat = st' /\ v 101%nat = h_v r /\ h_tx r = -1 / 100 /\ h_iterations r = S (k 100%nat) /\
     residuals st' 0 (h_v r) (k 100%nat) = Some (h_res r)).
Proof. exact (@homotopy_success). Qed.
Print Assumptions C23_success.

(** C23: a failure is that of the direct run without stepping, or of the first failing step. *)
Theorem C23_failure : forall (St V E Res : Type) (nr : St -> V -> R -> @nrout St V E) (residuals : St -> R -> V -> nat -> option Res)
    tx_stepping st v0 r st', homotopy_run nr residuals tx_stepping st v0 = HOk r st' -> h_ok r = false ->
  exists v1 k1 st1, nr st v0 0 = NR false v1 k1 st1 /\
  ((tx_stepping = false /\ h_v r = v1 /\ h_tx r = 0 /\ h_iterations r = k1 /\ st' = st1) \/
   (tx_stepping = true /\ exists j s v k kj, (j <= 100)%nat /\ s 0%nat = st1 /\ v 0%nat = v0 /\ successful_runs nr j s v k /\
      nr (s j) (v j) ((100 - INR j) / 100) = NR false (h_v r) kj st' /\ h_tx r = (100 - INR j) / 100 /\ h_iterations r = S kj)).
Proof. exact (@homotopy_failure). Qed.
Print Assumptions C23_failure.

(** C23: at most 102 Newton runs (costs [c] each). *)
Theorem C23_at_most_102_runs : forall (St V E Res : Type) (nr : St -> V -> R -> @nrout St V E) (residuals : St -> R -> V -> nat -> option Res)
    (cnt : St -> nat) (c : nat),
  (forall st v tx, match nr st v tx with NR _ _ _ st' | NRraise _ st' => (cnt st' <= cnt st + c)%nat end) ->
  forall tx_stepping st v0, (cnt (hst (homotopy_run nr residuals tx_stepping st v0)) <= cnt st + 102 * c)%nat.
Proof. exact (@homotopy_count). Qed.
Print Assumptions C23_at_most_102_runs.

(** C23 on a network: the answer is the linear solver's answer for the original network (factor 0) linearised
    at a vector [u] meeting the tolerance, and the residual report is that of [u]. *)
Theorem C23_network_success :
  forall (M So : Type) nan opt (l : list (M * option details * list R)) cs ms0,
  build_colls l = Some cs -> (forall e, In e (elements_of l) -> element_ok opt e) -> stamps_present cs ->
  build_stamper 0 nan skey_eqb pkey_eqb rkey_eqb input_eqb opt cs = SOk ms0 ->
  forall (spsolve : So -> list (nat * nat * R) -> list R -> So * option (list R)) limiting cfg tx_stepping so v0 r s',
  net_homotopy spsolve limiting cfg tx_stepping ms0 so v0 = HOk r s' -> h_ok r = true ->
  exists u lin stale J so0,
    spsolve so0 (lin ++ stale) J = (snd s', Some (h_v r)) /\
    (set_debug cfg = true -> stale = []) /\
    ((forall e, In e (elements_of l) -> defined_at e u 0) -> linearised_at (elements_of l) 0 u lin J) /\
    (forall q, (q < length (h_v r))%nat ->
       Rabs (F (elements_of l) u 0 q) < set_tolerance cfg /\ nth q (rd_residuals (h_res r)) 0 = F (elements_of l) u 0 q) /\
    rd_max (h_res r) < set_tolerance cfg.
Proof. exact (@net_homotopy_certified). Qed.
Print Assumptions C23_network_success.

Theorem C23_network_bounded :
  forall (M So : Type) (spsolve : So -> list (nat * nat * R) -> list R -> So * option (list R)) limiting cfg (cnt : So -> nat),
  (forall so es J, cnt (fst (spsolve so es J)) = S (cnt so)) ->
  forall tx_stepping (st : @mstamper R skey (list sym) M) so v0,
  (cnt (snd (hst (net_homotopy spsolve limiting cfg tx_stepping st so v0))) <= cnt so + 102 * set_max_iters cfg)%nat.
Proof. exact (@net_homotopy_bounded). Qed.
Print Assumptions C23_network_bounded.

(** a Newton solver that fails the first time and then needs as many iterations as it was called before *)
Definition toy_nr (st : nat) (v : list R) (tx : R) : @nrout nat (list R) unit := NR (Nat.ltb 0 st) (tx :: v) st (S st).
Definition toy_residuals (st : nat) (tx : R) (v : list R) (k : nat) : option nat := Some k.

Example C24_witness : exists r, homotopy_run toy_nr toy_residuals true 0%nat [] = HOk r 102%nat /\
  h_ok r = true /\ length (h_v r) = 101%nat /\ h_tx r = tx_value (-1) /\ h_iterations r = 102%nat /\ hd 5 (h_v r) = tx_value 0.
Proof. eexists. split; [reflexivity|]. repeat split. Qed.

(** C24: whenever stepping was needed and succeeded, the reported factor is -0.01 and the reported iteration
    count is one more than the iteration number of the last run alone. *)
Theorem C24_negative_factor : forall (St V E Res : Type) (nr : St -> V -> R -> @nrout St V E) (residuals : St -> R -> V -> nat -> option Res)
    st v0 r st' v1 k1 st1, nr st v0 0 = NR false v1 k1 st1 -> homotopy_run nr residuals true st v0 = HOk r st' -> h_ok r = true ->
  h_tx r = -1 / 100 /\ exists s v k_last, nr s v 0 = NR true (h_v r) k_last st' /\ h_iterations r = S k_last.
Proof. exact (@homotopy_negative_factor). Qed.
Print Assumptions C24_negative_factor.
