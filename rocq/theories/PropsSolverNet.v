(** C145, C146: what the parsers make fits the solver, and from a file to a result. *)
From Coq Require Import Reals ZArith String List Bool.
From Verif Require Import PyExc Components Devices UnbalancedLine Solver Network SpecNetwork SpecNetStamper SpecKirchhoff Graph PowerFlow SpecPowerFlow PowerFlowWitness
  ThreePhase SpecThreePhase SpecThreeElems RawParser SpecRaw Loader LoaderWitness SolverNet SpecSolverNet SolverNetProofs SolverRawProofs SolverNetFinal SolverNetWitness.
From Verif Require UnbalancedWitness ThreeWitness.
Import ListNotations.
Local Open Scope R_scope.

(** C145: a network that was read from a file has all that the theorems about the solver ask for *)
Theorem C145_network : forall T W uri r opt nw, from_file T W uri = Ok r -> solver_network opt r = Ok nw ->
  network_ok nw /\ ends_on_buses nw /\ sorted nw /\ nw_optimization nw = opt /\ (nw_three_phase nw = true <-> exists n, r = Three n).
Proof. exact loaded_network. Qed.
Print Assumptions C145_network.
Example C145_network_example : from_file feed_tools lone_desk "lone.glm" = Ok (Three lone_net) /\ solver_network None (Three lone_net) = Ok lone_nw.
Proof. exact (conj lone_loads lone_network). Qed.

(** C145: a three-phase network reaches the solver exactly when each line has a bus for each of its phases at both ends *)
Theorem C145_lines : forall opt n, (exists nw, dx_network opt n = Ok nw) <-> forall l, In l (nt_lines n) -> connected n l.
Proof. exact dx_lines. Qed.
Print Assumptions C145_lines.
Example C145_lines_example : exists n nw, parse_three UnbalancedWitness.half_inv false ThreeWitness.demo5 = Ok n /\ dx_network None n = Ok nw /\ length (nt_lines n) = 1%nat /\
  Forall (fun l => NoDup (tn_phases l)) (nt_lines n).
Proof. exact demo_line_ends. Qed.
(** the parser itself does not notice *)
Theorem C145_lines_refuted : exists n, parse_three UnbalancedWitness.half_inv false short_line = Ok n /\ dx_network None n = Err KeyError.
Proof. exact short_line_refused. Qed.
Print Assumptions C145_lines_refuted.

(** C145: in a network from a RAW file every element ends at a bus, and each bus number belongs to one bus *)
Theorem C145_raw : forall T W uri o, from_file T W uri = Ok (Single o) ->
  well_attached o /\ NoDup (map ob_num (n_buses o)) /\ (forall z, attached o z -> exists k, sx_ref o z = Some k /\ is_bus o z k) /\ (forall z k k', is_bus o z k -> is_bus o z k' -> k = k').
Proof. exact loaded_raw. Qed.
Print Assumptions C145_raw.
Example C145_raw_example : exists o, from_file feed_tools desk "/data/case.RAW" = Ok (Single o).
Proof. exact raw_loads. Qed.

(** C145: the solver starts a three-phase run at the voltages of the parser *)
Theorem C145_start : forall n opt nw k b, dx_network opt n = Ok nw -> nth_error (nt_buses n) k = Some b ->
  exists c, nth_error (nw_buses nw) k = Some c /\ bus_id c = tb_id b /\ bus_Vm c * cos (bus_Va c) = tb_vr b /\ bus_Vm c * sin (bus_Va c) = tb_vi b.
Proof. exact dx_start. Qed.
Print Assumptions C145_start.
(** C145: its places and phases are those of the parser *)
Theorem C145_places : forall n i j b c, nth_error (nt_buses n) i = Some b -> nth_error (nt_buses n) j = Some c ->
  (gb_name (dx_place n i) = gb_name (dx_place n j) <-> tb_name b = tb_name c) /\ (gb_phase (dx_place n i) = gb_phase (dx_place n j) <-> tb_phase b = tb_phase c) /\
  gb_virtual (dx_place n i) = tb_virtual b /\ gb_vnom (dx_place n i) = tb_vnom b.
Proof. exact places_same. Qed.
Print Assumptions C145_places.
Example C145_places_example : nth_error (nt_buses lone_net) 0 = Some lone_bus.
Proof. reflexivity. Qed.

(** C145: no element joins a bus inside another one, when no element refers to a name like those of such buses *)
Theorem C145_inner : forall inv cap ms n, known_elements ms -> parse_three inv cap ms = Ok n -> Forall plain_ends ms ->
  forall opt nw, dx_network opt n = Ok nw -> proper (dx_details n) nw.
Proof. exact dx_proper. Qed.
Print Assumptions C145_inner.
(** for RAW files always *)
Theorem C145_inner_raw : forall nm opt o, proper (sx_details nm o) (sx_network opt o).
Proof. exact sx_proper. Qed.
Print Assumptions C145_inner_raw.
(** without that condition on names the bus inside a fuse takes the place of a node *)
Theorem C145_inner_refuted : tidy captured /\ known_elements captured /\ exists n nw, parse_three UnbalancedWitness.half_inv false captured = Ok n /\ dx_network None n = Ok nw /\
  map tb_name (nt_buses n) = ["mid"; "end"; "mid-Fuse"; "mid-Fuse"]%string /\ nw_switches nw = [ESwitch true (Some 1%nat) (Some 3%nat)] /\ ~ proper (dx_details n) nw.
Proof. exact captured_bus. Qed.
Print Assumptions C145_inner_refuted.
Example C145_inner_example : Forall plain_ends ThreeWitness.demo5 /\ known_elements ThreeWitness.demo5.
Proof. exact demo5_plain. Qed.

(** C145: no two phases of a line meet at a bus *)
Theorem C145_apart : forall inv cap ms n, known_elements ms -> parse_three inv cap ms = Ok n -> Forall plain_ends ms -> tidy ms ->
  forall opt nw ph g b B, Forall (fun l => NoDup (tn_phases l)) (nt_lines n) -> dx_network opt n = Ok nw -> In (EUnb ph g b B) (nw_lines nw) -> apart ph.
Proof. exact lines_apart. Qed.
Print Assumptions C145_apart.

(** C146: a run on a file that reports success: the solution satisfies the laws of the circuit the file describes, and its devices rest *)
Theorem C146_success : forall T W nm So (spsolve : So -> list (nat * nat * R) -> list R -> So * option (list R)) nan cfg old visit opt uri so v it tx res ds so',
  sized spsolve -> opt = None ->
  run_file T W nm spsolve nan cfg old visit opt uri so = Ok (PFDone true v it tx res ds so') ->
  exists r nw, from_file T W uri = Ok r /\ solver_network opt r = Ok nw /\
    let nw' := with_devices nw ds in let a' := assign_matrix old nw' in let V := voltages a' (vec v) in
    length v = as_size a' /\
    (exists u so0 es J, spsolve so0 es J = (so', Some v) /\ (energised nw' (voltages a' u) -> nearly_physical (set_tolerance (pf_nr cfg)) nw' (voltages a' u))) /\
    (pf_device_control cfg = true -> nw_three_phase nw = true ->
     capacitors_rest (solver_details nm r) V nw' /\
     (energised nw' V -> exists ac, accounts_for V nw' ac /\ gives_rows nw' a' ac (vec v) /\ fuses_rest (solver_details nm r) nw' ac)).
Proof. exact run_success. Qed.
Print Assumptions C146_success.
Example C146_example : sized zeros /\ forall nm old nan, exists v it tx res so',
  run_file feed_tools lone_desk nm zeros nan quiet_settings old (fun l => l) None "lone.glm" 0%nat = Ok (PFDone true v it tx res [] so').
Proof. exact (conj zeros_sized lone_run). Qed.

(** C146: a run on a RAW file is refused for its islands exactly when the network is not in one piece *)
Theorem C146_raw_pieces : forall T W nm So (spsolve : So -> list (nat * nat * R) -> list R -> So * option (list R)) nan cfg old visit opt uri so o,
  from_file T W uri = Ok (Single o) ->
  ((exists k, run_file T W nm spsolve nan cfg old visit opt uri so = Ok (PFIslands k)) <-> ~ one_piece (sx_details nm o) (sx_network opt o)).
Proof. exact pieces_raw. Qed.
Print Assumptions C146_raw_pieces.
(** two buses with nothing between them are one piece when they have the same name *)
Theorem C146_names_refuted : exists o, from_file feed_tools lone_desk "pair.RAW" = Ok (Single o) /\
  map ob_num (n_buses o) = [1%Z; 3%Z] /\ n_lines o = [] /\ n_xfmrs o = [] /\
  forall nm So (spsolve : So -> list (nat * nat * R) -> list R -> So * option (list R)) nan cfg old visit opt so,
    ((exists k, run_file feed_tools lone_desk nm spsolve nan cfg old visit opt "pair.RAW" so = Ok (PFIslands k)) <-> nm 1%Z <> nm 3%Z).
Proof. exact names_merge. Qed.
Print Assumptions C146_names_refuted.
(** C146: likewise for three-phase files *)
Theorem C146_glm_pieces : forall T W nm So (spsolve : So -> list (nat * nat * R) -> list R -> So * option (list R)) nan cfg old visit opt uri so n ms,
  from_file T W uri = Ok (Three n) -> parse_three (t_inv T) (t_cap T) ms = Ok n -> known_elements ms -> Forall plain_ends ms ->
  forall nw, solver_network opt (Three n) = Ok nw ->
  ((exists k, run_file T W nm spsolve nan cfg old visit opt uri so = Ok (PFIslands k)) <-> ~ one_piece (dx_details n) nw).
Proof. exact pieces_glm. Qed.
Print Assumptions C146_glm_pieces.
(** C146: and it raises exactly when a line lacks a bus *)
Theorem C146_glm_lines : forall T W nm So (spsolve : So -> list (nat * nat * R) -> list R -> So * option (list R)) nan cfg old visit opt uri so n,
  from_file T W uri = Ok (Three n) ->
  ((exists e, run_file T W nm spsolve nan cfg old visit opt uri so = Err e) <-> exists l, In l (nt_lines n) /\ ~ connected n l).
Proof. exact line_without_bus. Qed.
Print Assumptions C146_glm_lines.
