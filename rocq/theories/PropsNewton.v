(** C150: networks with linear circuit laws are always solved. *)
From Coq Require Import List Bool Arith ZArith Reals.
From Verif Require Import SpecSystem Components SpecComponents Network SpecNetwork Solver SpecSolver Homotopy Devices PowerFlow SpecPowerFlow SpecKirchhoff SpecNetStamper NetStamper
  SpecNetInfeas SpecNetLeast SpecNewton NewtonGauss NewtonFinal NewtonWitness NetInfeasWitness NetInfeasFinal NetLeastWitness.
Import ListNotations.
Local Open Scope R_scope.

Example C150_witness : network_ok branch /\ ends_on_buses branch /\ linear_network branch /\ solves_regular gauss /\
  forall old, let a := assign_matrix old branch in as_size a = 6%nat /\ one_solution (equations a) (as_size a) /\ solution (equations a) branch_point /\
    voltages a (vec branch_point) (Some 8%nat) = (3 / 4, 0).
Proof. exact (conj branch_ok (conj branch_ends (conj branch_linear (conj gauss_regular branch_unique)))). Qed.

(** C150: without generators and constant power, from every start and also with infeasibility currents, the solver succeeds in at most two
    iterations with the exact solution *)
Theorem C150_found : forall old nw, network_ok nw -> ends_on_buses nw -> linear_network nw -> let a := assign_matrix old nw in
  forall nan So (spsolve : So -> list (nat * nat * R) -> list R -> So * option (list R)) cfg tx_stepping,
  solves_regular spsolve -> one_solution (equations a) (as_size a) ->
  set_debug cfg = false -> (2 <= set_max_iters cfg)%nat -> 0 < set_tolerance cfg -> (1 <= as_size a)%nat ->
  exists ms, matrix_stamper nan nw a = Some ms /\
  forall so v0, length v0 = as_size a ->
  exists r s', net_homotopy spsolve None cfg tx_stepping ms so v0 = HOk r s' /\ h_ok r = true /\ h_tx r = 0 /\ (h_iterations r <= 1)%nat /\
    length (h_v r) = as_size a /\ solution (equations a) (h_v r).
Proof. exact newton_found. Qed.
Print Assumptions C150_found.

(** C150: the voltages of that solution are the only ones possible in the circuit *)
Theorem C150_physical : forall old nw, network_ok nw -> linear_network nw -> let a := assign_matrix old nw in
  forall v, nw_optimization nw = None -> one_solution (equations a) (as_size a) -> length v = as_size a -> solution (equations a) v ->
  physical nw (voltages a (vec v)) /\
  forall V, physical nw V -> forall b, In b (nw_buses nw) -> V (Some (bus_id b)) = voltages a (vec v) (Some (bus_id b)).
Proof. exact newton_physical. Qed.
Print Assumptions C150_physical.

(** C150: PowerFlow.execute without device control, if the network is not refused for its islands or nominal voltages *)
Theorem C150_execute : forall old nw, network_ok nw -> ends_on_buses nw -> linear_network nw -> let a := assign_matrix old nw in
  forall x nan So (spsolve : So -> list (nat * nat * R) -> list R -> So * option (list R)) cfg visit so,
  solves_regular spsolve -> one_solution (equations a) (as_size a) -> (1 <= as_size a)%nat ->
  (nw_three_phase nw = true \/ pf_limiting cfg = false) -> pf_device_control cfg = false -> intact x nw ->
  set_debug (pf_nr cfg) = false -> (2 <= set_max_iters (pf_nr cfg))%nat -> 0 < set_tolerance (pf_nr cfg) ->
  (exists n, execute x spsolve nan cfg old visit nw so = PFIslands n) \/ execute x spsolve nan cfg old visit nw so = PFVoltages \/
  exists v it res so', execute x spsolve nan cfg old visit nw so = PFDone true v it 0 res (devices_of x nw a) so' /\ (it <= 1)%nat /\
    length v = as_size a /\ solution (equations a) v.
Proof. exact newton_execute. Qed.
Print Assumptions C150_execute.
Example C150_execute_example : forall old nan, exists it res,
  execute branch_details gauss nan branch_settings old (fun l => l) branch tt = PFDone true branch_point it 0 res [] tt /\ (it <= 1)%nat.
Proof. exact branch_run. Qed.

(** C150: with infeasibility currents it holds the least currents with which the network has possible voltages *)
Theorem C150_least : forall old nw l1, network_ok nw -> nw_optimization nw = Some l1 -> affine_network nw -> let a := assign_matrix old nw in forall v,
  length v = as_size a -> solution (equations a) v -> physical_with (extra l1 a (vec v)) nw (voltages a (vec v)) /\
  forall E W, physical_with E nw W -> total_square nw (extra l1 a (vec v)) <= total_square nw E.
Proof. exact newton_least. Qed.
Print Assumptions C150_least.
Example C150_least_example : forall l1 old, network_ok (stranded l1) /\ affine_network (stranded l1) /\ forall r, (r < as_size (assign_matrix old (stranded l1)))%nat ->
  F (equations (assign_matrix old (stranded l1))) (stranded_point l1) 0 r = 0.
Proof. exact (fun l1 old => conj (stranded_ok l1) (conj (stranded_affine l1) (proj1 (stranded_solved l1 old)))). Qed.
