(** What is refused, and where the solver starts: C81, C83, C85, C95, C104, C105. *)
From Coq Require Import Reals String List.
From Verif Require Import PyExc Components UnbalancedLine UnbalancedWitness GlmText SpecGlm GlmWitness ThreePhase SpecThreePhase ThreeWitness LineImpedance SpecLineZ ReaderWitness LineZWitness SpecRefused RefusedProofs.
Import ListNotations.
Local Open Scope string_scope.

(** C81 *)
Theorem C81_start : forall ms n, create_buses ms = Ok n -> forall b, In b (nt_buses n) ->
  exists nd, In nd (nodes_of ms) /\ is_root nd /\ tb_name b = dn_name nd /\ In (tb_phase b) (dn_phases nd) /\ starts nd (tb_phase b) (tb_vr b, tb_vi b).
Proof. exact buses_begin. Qed.
Print Assumptions C81_start.
Example C81_start_nonvacuous : exists n, create_buses demo_nodes = Ok n /\ List.length (nt_buses n) = 11%nat.
Proof. exact (proj2 demo_bus_count). Qed.

(** C83 *)
Theorem C83_unknown : forall inv cap ms n, In MUnknown ms -> parse_three inv cap ms <> Ok n.
Proof. exact unknown_refused. Qed.
Print Assumptions C83_unknown.
Example C83_unknown_nonvacuous : In MUnknown (demo4 ++ [MUnknown]) /\ exists n, parse_three half_inv false demo4 = Ok n.
Proof. split; [apply in_or_app; right; now left | exact demo4_parses]. Qed.

(** C85 *)
Theorem C85_accepted : forall inv cap ms n r, parse_three inv cap ms = Ok n -> In (MReg r) ms ->
  dr_nwindings r = 2%nat /\ List.length (dr_phases1 r) = 3%nat /\ List.length (dr_phases2 r) = 3%nat /\ dr_conn1 r = Some "Y" /\ dr_conn2 r = Some "Y".
Proof. exact regulators_accepted. Qed.
Print Assumptions C85_accepted.
Example C85_accepted_nonvacuous : In (MReg demo_reg) demo4 /\ exists n, parse_three half_inv false demo4 = Ok n.
Proof. split; [now left | exact demo4_parses]. Qed.

(** C95 *)
Theorem C95_missing : forall schema over12 mega cron files input rows f r, files input = Some rows -> In r rows -> include_row f r -> files f = None ->
  forall x, read_glm schema over12 mega cron files input <> Ok x.
Proof. exact missing_include. Qed.
Print Assumptions C95_missing.
Example C95_missing_nonvacuous : exists f r, In r main_rows /\ include_row f r /\
  read_glm demo_schema no_conv no_conv no_cron (fun g => if String.eqb g "main.glm" then Some main_rows else None) "main.glm" = Err Raised.
Proof. eexists _, _. split; [left; reflexivity |]. split; [exact main_include |]. vm_compute. reflexivity. Qed.

(** C104, C105 *)
Theorem C104_phases : forall E ws d phases neutral m, overhead_z E ws d phases neutral = Ok m -> incl (map w_phase ws) line_phases.
Proof. exact overhead_phases. Qed.
Print Assumptions C104_phases.
Example C104_phases_nonvacuous : exists m, overhead_z line_prims abn_wires unit_dist ["A"; "C"] true = Ok m.
Proof. destruct demo_carson as (m & H & _). exists m. exact H. Qed.
Theorem C105_phases : forall E ws m, triplex_z E ws = Ok m -> incl (map w_phase ws) triplex_phases.
Proof. exact triplex_phases_only. Qed.
Print Assumptions C105_phases.
Example C105_phases_nonvacuous : triplex_z line_prims [plain_wire "A"] = Err KeyError.
Proof. reflexivity. Qed.
