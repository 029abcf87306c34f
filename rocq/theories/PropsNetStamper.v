(** C143: the stamper, the solver and the homotopy on a whole network. *)
From Coq Require Import String List Bool Arith ZArith Reals Lia Lra.
From Verif Require Import Expr Stamper Residual Collect SpecSystem Components SpecComponents Network SpecNetwork Solver SpecSolver Homotopy SpecHomotopy
  SpecKirchhoff KirchhoffWitness SpecNetStamper NetStamper NetStamperNet NetRun NetStart NetStamperWitness.
Import ListNotations.
Local Open Scope R_scope.

Example C143_witness : network_ok feeder /\ ends_on_buses feeder /\ (forall x, x <> 0 -> live feeder (far x)) /\ physical feeder (far (2 / 3)) /\
  sized echo /\ always_answers echo /\
  forall old, let a := assign_matrix old feeder in exists ms v0, matrix_stamper 0 feeder a = Some ms /\ length v0 = as_size a /\
    voltages a (vec v0) (Some 8%nat) = (2 / 3, 0) /\ exists r s', net_homotopy echo None short true ms tt v0 = HOk r s' /\ h_ok r = true.
Proof.
  exact (conj feeder_ok (conj feeder_ends (conj feeder_live (conj (proj2 far_both) (conj echo_sized (conj echo_answers feeder_solved)))))).
Qed.

(** C143: building the matrix stamper of a network never fails and meets the conditions of C13-C25 *)
Theorem C143_builds : forall old nw, network_ok nw -> ends_on_buses nw -> forall nan, let a := assign_matrix old nw in
  exists cs ms, build_colls (stamper_list a) = Some cs /\ (forall e, In e (elements_of (stamper_list a)) -> element_ok (optimizing nw) e) /\ stamps_present cs /\
    build_stamper 0 nan skey_eqb pkey_eqb rkey_eqb input_eqb (optimizing nw) cs = SOk ms /\ matrix_stamper nan nw a = Some ms.
Proof. exact network_builds. Qed.
Print Assumptions C143_builds.

(** C143: the residuals it reports, and Y v - J of the system it stamps, are the currents left over at the buses and the misses of the laws *)
Theorem C143_residuals : forall old nw, network_ok nw -> ends_on_buses nw -> forall nan, nw_optimization nw = None -> let a := assign_matrix old nw in
  exists ms, matrix_stamper nan nw a = Some ms /\
  forall ops ms1 outs v w k, do_ops pkey_eqb ms ops = (ms1, outs) -> last_iter (-1)%Z ops <> k -> live nw (voltages a v) ->
  exists ms2 E1 E2 Rs ac, do_ops pkey_eqb ms1 [OLinear 0; ONonlinear v k; OResiduals 0 w k] = (ms2, [OutEvents E1; OutEvents E2; OutResids Rs]) /\
    accounts_for (voltages a v) nw ac /\ as_size a = (2 * length (nw_buses nw) + length (misses ac))%nat /\
    tells nw ac (Rrow Rs) /\ tells nw ac (fun r => Yrow (E1 ++ E2) v r - Jentry (E1 ++ E2) r).
Proof. exact network_residuals. Qed.
Print Assumptions C143_residuals.

(** C143: the stamped matrix holds the derivatives of the equations, also with optimisation *)
Theorem C143_jacobian : forall old nw, network_ok nw -> ends_on_buses nw -> forall nan, let a := assign_matrix old nw in
  exists ms, matrix_stamper nan nw a = Some ms /\
  forall ops ms1 outs v w k, do_ops pkey_eqb ms ops = (ms1, outs) -> last_iter (-1)%Z ops <> k -> live nw (voltages a v) ->
  exists ms2 E1 E2 Rs, do_ops pkey_eqb ms1 [OLinear 0; ONonlinear v k; OResiduals 0 w k] = (ms2, [OutEvents E1; OutEvents E2; OutResids Rs]) /\
    forall r c, derivable_pt_lim (fun t => F (equations a) (set_v v c t) 0 r) (v c) (Yentry (E1 ++ E2) r c).
Proof. exact network_jacobian. Qed.
Print Assumptions C143_jacobian.

(** C143: after a success some vector u has voltages obeying all circuit laws up to the tolerance; the residual report is that of u
    and the returned vector is the answer of the linear solver one step after u *)
Theorem C143_success : forall old nw, network_ok nw -> ends_on_buses nw ->
  forall nan So (spsolve : So -> list (nat * nat * R) -> list R -> So * option (list R)) limiting cfg tx_stepping, let a := assign_matrix old nw in
  sized spsolve ->
  exists ms, matrix_stamper nan nw a = Some ms /\
  forall so v0 r s', length v0 = as_size a -> net_homotopy spsolve limiting cfg tx_stepping ms so v0 = HOk r s' -> h_ok r = true ->
  length (h_v r) = as_size a /\
  exists u lin stale J so0,
    spsolve so0 (lin ++ stale) J = (snd s', Some (h_v r)) /\ (set_debug cfg = true -> stale = []) /\
    (live nw (voltages a u) -> linearised_at (equations a) 0 u lin J) /\
    (forall q, (q < as_size a)%nat -> Rabs (F (equations a) u 0 q) < set_tolerance cfg /\ nth q (rd_residuals (h_res r)) 0 = F (equations a) u 0 q) /\
    (nw_optimization nw = None -> energised nw (voltages a u) -> nearly_physical (set_tolerance cfg) nw (voltages a u)).
Proof. exact network_success. Qed.
Print Assumptions C143_success.

(** C143: a start vector within the tolerance is accepted at once, whatever vector the linear solver answers with *)
Theorem C143_start_accepted : forall old nw, network_ok nw -> ends_on_buses nw ->
  forall nan So (spsolve : So -> list (nat * nat * R) -> list R -> So * option (list R)) limiting cfg tx_stepping, let a := assign_matrix old nw in
  always_answers spsolve -> set_debug cfg = false -> (1 <= set_max_iters cfg)%nat -> (1 <= as_size a)%nat ->
  exists ms, matrix_stamper nan nw a = Some ms /\
  forall so v0, length v0 = as_size a -> (forall r, (r < as_size a)%nat -> Rabs (F (equations a) (vec v0) 0 r) < set_tolerance cfg) ->
  exists r s', net_homotopy spsolve limiting cfg tx_stepping ms so v0 = HOk r s' /\ h_ok r = true /\ h_tx r = 0 /\ h_iterations r = 0%nat /\
    forall q, (q < as_size a)%nat -> nth q (rd_residuals (h_res r)) 0 = F (equations a) (vec v0) 0 q.
Proof. exact start_accepted. Qed.
Print Assumptions C143_start_accepted.

(** C143: hence every state that obeys the circuit laws is found by some run *)
Theorem C143_physical_found : forall old nw, network_ok nw -> ends_on_buses nw ->
  forall nan So (spsolve : So -> list (nat * nat * R) -> list R -> So * option (list R)) limiting cfg tx_stepping V, let a := assign_matrix old nw in
  nw_optimization nw = None -> physical nw V ->
  always_answers spsolve -> set_debug cfg = false -> (1 <= set_max_iters cfg)%nat -> (1 <= as_size a)%nat -> 0 < set_tolerance cfg ->
  exists ms v0, matrix_stamper nan nw a = Some ms /\ length v0 = as_size a /\
    (forall b, In b (nw_buses nw) -> voltages a (vec v0) (Some (bus_id b)) = V (Some (bus_id b))) /\
    forall so, exists r s', net_homotopy spsolve limiting cfg tx_stepping ms so v0 = HOk r s' /\ h_ok r = true /\ h_tx r = 0 /\
      forall q, (q < as_size a)%nat -> nth q (rd_residuals (h_res r)) 0 = 0.
Proof. exact physical_found. Qed.
Print Assumptions C143_physical_found.

(** C143: without [ends_on_buses] building can fail *)
Theorem C143_grounded_refuted : exists nw, network_ok nw /\ forall old nan, matrix_stamper nan nw (assign_matrix old nw) = None.
Proof. exact (ex_intro _ (grounded []) (conj grounded_ok grounded_refused)). Qed.
Print Assumptions C143_grounded_refuted.
