(** C156: the circuit that is solved is the one the parsers read. *)
From Coq Require Import String Reals ZArith List Bool Arith.
From Verif Require Import PyExc Components SpecComponents Devices Network SpecKirchhoff Graph Solver NetStamper SpecNetStamper PowerFlow ThreePhase RawParser SpecRaw Loader LoaderWitness SolverNet
  SolverNetWitness CommandWitness SpecParts PartsFinal PartsFile PartsWitness.
Import ListNotations.
Local Open Scope R_scope.

(** the solver's network obeys its laws exactly when what the parser read does; the same within any tolerance *)
Theorem C156_three : forall opt n nw V, dx_network opt n = Ok nw ->
  (physical nw V <-> circuit n V (fun x => x = 0)) /\ forall eps, nearly_physical eps nw V <-> circuit n V (fun x => Rabs x < eps).
Proof. exact three_laws. Qed.
Print Assumptions C156_three.
Example C156_three_example : dx_network None home_net = Ok home_nw /\ circuit home_net (house_at 2401) (fun x => x = 0) /\ forall x, circuit home_net (house_at x) (fun y => y = 0) -> x = 2401.
Proof. exact (conj home_network (conj house_circuit house_only)). Qed.

(** a RAW file: the voltages are those of the buses with the file's numbers *)
Theorem C156_raw : forall T W uri o, from_file T W uri = Ok (Single o) -> forall opt V U, V None = C0 -> by_number o V U ->
  (physical (sx_network opt o) V <-> sequence o U (fun x => x = 0)) /\ forall eps, nearly_physical eps (sx_network opt o) V <-> sequence o U (fun x => Rabs x < eps).
Proof. exact raw_file. Qed.
Print Assumptions C156_raw.
Example C156_raw_example : exists o, from_file feed_tools desk "/data/case.RAW" = Ok (Single o).
Proof. exact raw_loads. Qed.
(** the same for any network of the RAW parser's kind whose elements end at buses *)
Theorem C156_single : forall o opt V U, well_attached o -> NoDup (map RawParser.ob_num (n_buses o)) -> V None = C0 -> by_number o V U ->
  (physical (sx_network opt o) V <-> sequence o U (fun x => x = 0)) /\ forall eps, nearly_physical eps (sx_network opt o) V <-> sequence o U (fun x => Rabs x < eps).
Proof. exact single_laws. Qed.
Print Assumptions C156_single.
Example C156_single_example : well_attached pair_net /\ NoDup (map RawParser.ob_num (n_buses pair_net)) /\ sequence pair_net (pair_at (1 / 3)) (fun y => y = 0).
Proof. exact (conj (proj1 pair_fits) (conj (proj2 pair_fits) (proj1 pair_both))). Qed.

(** a run on a RAW file that reports success ended with a step from voltages that obey the laws of the file within the tolerance *)
Theorem C156_raw_run : forall T W nm So (spsolve : So -> list (nat * nat * R) -> list R -> So * option (list R)) nan cfg old visit uri so v it tx res ds so' o,
  sized spsolve -> from_file T W uri = Ok (Single o) -> run_file T W nm spsolve nan cfg old visit None uri so = Ok (PFDone true v it tx res ds so') ->
  exists u so0 es J, spsolve so0 es J = (so', Some v) /\
    forall U, by_number o (voltages (assign_matrix old (sx_network None o)) u) U -> powered o U -> sequence o U (fun x => Rabs x < set_tolerance (pf_nr cfg)).
Proof. exact raw_run. Qed.
Print Assumptions C156_raw_run.
Example C156_raw_run_example : powered pair_net (pair_at (1 / 3)) /\ by_number pair_net (fun b => match b with None => C0 | Some 0%nat => (1, 0) | Some _ => (1 / 3, 0) end) (pair_at (1 / 3)).
Proof. exact (proj2 pair_both). Qed.

(** what the solver starts from and checks in a RAW network: initial voltages, initial powers, nominal voltages, names *)
Theorem C156_kept_raw : forall nm opt o, let nw := sx_network opt o in
  map (fun b => (bus_Vm b, bus_Va b)) (nw_buses nw) = map (fun b => (ob_vm b, ob_va b)) (n_buses o) /\
  Forall2 (fun s t => sl_Pinit t / 100 = sl_pinit s /\ sl_Qinit t / 100 = sl_qinit s) (n_slack o) (nw_slack nw) /\
  Forall2 (fun g h => gen_Qinit h = - og_qinit g) (n_gens o) (nw_generators nw) /\
  forall k b, nth_error (n_buses o) k = Some b -> gb_vnom (of_bus (sx_details nm o) k) = ob_vm b /\ gb_name (of_bus (sx_details nm o) k) = nm (RawParser.ob_num b).
Proof. exact raw_kept. Qed.
Print Assumptions C156_kept_raw.
Example C156_kept_raw_example : map (fun s => (sl_pinit s, sl_qinit s)) (n_slack pair_net) = [(3, 4)].
Proof. reflexivity. Qed.
(** fuses and capacitors are controlled with the settings the parser read *)
Theorem C156_kept_three : forall n, let x := dx_details n in
  (forall k f, nth_error (nt_fuses n) k = Some f -> of_fuse x k = (tf_limit f, tf_status f)) /\
  (forall k c hi lo, nth_error (nt_caps n) k = Some c -> tc_high c = Some hi -> tc_low c = Some lo -> of_cap x k = (tc_mode c, hi, lo)).
Proof. exact three_kept. Qed.
Print Assumptions C156_kept_three.
Example C156_kept_three_example : exists n, nt_fuses n <> [] /\ nt_caps n <> [] /\ exists hi lo, option_map tc_high (nth_error (nt_caps n) 0) = Some (Some hi) /\ option_map tc_low (nth_error (nt_caps n) 0) = Some (Some lo).
Proof. exact guarded. Qed.
