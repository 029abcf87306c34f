(** C144: PowerFlow.execute as a whole. *)
From Coq Require Import List Bool Arith ZArith Reals Permutation.
From Verif Require Import Residual SpecSystem Components SpecComponents Network SpecNetwork Solver SpecSolver Devices Graph SpecGraph SpecKirchhoff
  SpecNetStamper PowerFlow SpecPowerFlow PowerFlowRun PowerFlowWitness.
Import ListNotations.
Local Open Scope R_scope.

Example C144_witness : network_ok (quiet true) /\ ends_on_buses (quiet true) /\ sorted (quiet true) /\ proper quiet_details (quiet true) /\ sized zeros /\
  (forall c V, energised (quiet c) V) /\ with_devices (quiet true) opened = quiet false /\
  forall old nan, exists v it tx res so', execute quiet_details zeros nan quiet_settings old (fun l => l) (quiet true) 0%nat = PFDone true v it tx res opened so'.
Proof.
  exact (conj (quiet_ok true) (conj (quiet_ends true) (conj (quiet_sorted true) (conj (quiet_proper true) (conj zeros_sized (conj quiet_energised (conj quiet_opened quiet_run))))))).
Qed.

(** C144: the power flow is refused for its islands exactly when the network is not in one piece *)
Theorem C144_islands : forall x So (spsolve : So -> list (nat * nat * R) -> list R -> So * option (list R)) nan cfg old visit nw so,
  network_ok nw -> sorted nw -> proper x nw ->
  ((exists n, execute x spsolve nan cfg old visit nw so = PFIslands n) <-> ~ one_piece x nw).
Proof. exact (@islands_iff). Qed.
Print Assumptions C144_islands.
Example C144_islands_example : ~ one_piece blown_details (quiet true).
Proof. apply (C144_islands blown_details nat zeros 0 quiet_settings (fun _ => GROUND) (fun l => l) (quiet true) 0%nat (quiet_ok true) (quiet_sorted true) blown_proper). exists 2%nat. apply blown_islands. Qed.

(** C144: whatever is returned, the network is in one piece with close nominal voltages, its fuses are good and only capacitors were switched *)
Theorem C144_network : forall x So (spsolve : So -> list (nat * nat * R) -> list R -> So * option (list R)) nan cfg old visit nw so so' ok v it tx res ds,
  execute x spsolve nan cfg old visit nw so = PFDone ok v it tx res ds so' -> let nw' := with_devices nw ds in
  network_ok nw -> sorted nw -> proper x nw -> (forall l, Permutation (visit l) l) ->
  one_piece x nw /\
  (forall p q bp bq, path (plain (graph_of x nw)) p q -> first_bus (graph_of x nw) p bp -> first_bus (graph_of x nw) q bq -> Rabs (gb_vnom bp - gb_vnom bq) <= 20) /\
  intact x nw /\ rewired nw nw' /\ (pf_device_control cfg && nw_three_phase nw = false -> nw' = nw)%bool.
Proof. exact (@done_network). Qed.
Print Assumptions C144_network.

(** C144: a success certifies the circuit laws of the network as it was switched *)
Theorem C144_success : forall x So (spsolve : So -> list (nat * nat * R) -> list R -> So * option (list R)) nan cfg old visit nw so so' ok v it tx res ds,
  execute x spsolve nan cfg old visit nw so = PFDone ok v it tx res ds so' ->
  let nw' := with_devices nw ds in let a' := assign_matrix old nw' in
  network_ok nw -> ends_on_buses nw -> sized spsolve -> ok = true ->
  length v = as_size a' /\
  exists u lin stale J so0,
    spsolve so0 (lin ++ stale) J = (so', Some v) /\ (set_debug (pf_nr cfg) = true -> stale = []) /\
    (live nw' (voltages a' u) -> linearised_at (equations a') 0 u lin J) /\
    (forall q, (q < as_size a')%nat -> Rabs (F (equations a') u 0 q) < set_tolerance (pf_nr cfg) /\ nth q (rd_residuals res) 0 = F (equations a') u 0 q) /\
    (nw_optimization nw = None -> energised nw' (voltages a' u) -> nearly_physical (set_tolerance (pf_nr cfg)) nw' (voltages a' u)).
Proof. exact (@done_success). Qed.
Print Assumptions C144_success.

(** C144: with device control no capacitor has to be switched at the returned voltages, and the returned currents through the fuses are
    within their limits *)
Theorem C144_devices : forall x So (spsolve : So -> list (nat * nat * R) -> list R -> So * option (list R)) nan cfg old visit nw so so' ok v it tx res ds,
  execute x spsolve nan cfg old visit nw so = PFDone ok v it tx res ds so' ->
  let nw' := with_devices nw ds in let a' := assign_matrix old nw' in
  network_ok nw -> sorted nw -> ok = true -> pf_device_control cfg = true -> nw_three_phase nw = true ->
  capacitors_rest x (voltages a' (vec v)) nw' /\
  (nw_optimization nw = None -> energised nw' (voltages a' (vec v)) ->
   exists ac, accounts_for (voltages a' (vec v)) nw' ac /\ gives_rows nw' a' ac (vec v) /\ fuses_rest x nw' ac).
Proof. exact (@done_devices). Qed.
Print Assumptions C144_devices.

(** C144: it ends, after a bounded number of linear systems *)
Theorem C144_work : forall x So (spsolve : So -> list (nat * nat * R) -> list R -> So * option (list R)) nan cfg old visit nw (cnt : So -> nat) so,
  (forall so es J, cnt (fst (spsolve so es J)) = S (cnt so)) ->
  (cnt (pf_state (execute x spsolve nan cfg old visit nw so) so) <= cnt so + 1020 * set_max_iters (pf_nr cfg))%nat.
Proof. exact (@execute_work). Qed.
Print Assumptions C144_work.
