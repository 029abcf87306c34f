(** C116-C126: from the objects of a GridLAB-D file to the network. *)
From Coq Require Import Reals ZArith String Ascii List Bool Lia.
From Verif Require Import PyExc SpecComponents SpecUnbalanced Components Devices UnbalancedLine GlmText SpecGlm LineImpedance ThreePhase SpecThreePhase SpecThreeElems GlmReader SpecReader SpecLineZ SpecReader2 SpecReader3 SpecFile FileNet FileElems FileUnits FileBuses FileTap FileWitness FileWitness2.
From Verif Require UnbalancedWitness ReaderWitness ReaderWitness2 ReaderWitness3 LineZWitness.
Import ListNotations.
Local Open Scope string_scope.

(** C116: what a clean file becomes is fit for the parser *)
Theorem C116_fit : forall E sch objs ms, clean_file objs -> read_store E sch objs = Ok ms -> tidy ms /\ known_elements ms.
Proof. exact clean_ok. Qed.
Print Assumptions C116_fit.
Example C116_files : clean_file feed1 /\ clean_file feed2 /\ clean_file feed3 /\ clean_file wire_objs.
Proof. exact (conj feed1_clean (conj feed2_clean (conj feed3_clean wire_clean))). Qed.

(** C117: fuses *)
Theorem C117_fuses : forall E sch inv cap objs ms n, clean_file objs -> read_store E sch objs = Ok ms -> parse_three inv cap ms = Ok n ->
  grouped objs (fun o => go_class o = "fuse") (fun _ _ o g => fuse_group E n o g) (nt_fuses n).
Proof. exact file_fuses. Qed.
Print Assumptions C117_fuses.
(** the blown phase of the file is good in the network *)
Example C117_blown : says blown "phase_A_status" "BLOWN" /\ clean_file feed1 /\ loads feed_prims UnbalancedWitness.half_inv feed1 (fun n => map tf_status (nt_fuses n) = [GOOD; GOOD]).
Proof. split; [now apply ReaderWitness.says_dget |]. split; [exact feed1_clean |]. destruct feed1_loads as (ms & R & n & P & Q). exists ms. split; [exact R |]. exists n. split; [exact P | tauto]. Qed.

(** C118: switches and reclosers *)
Theorem C118_switches : forall E sch inv cap objs ms n, clean_file objs -> read_store E sch objs = Ok ms -> parse_three inv cap ms = Ok n ->
  grouped objs (fun o => go_class o = "switch" \/ go_class o = "recloser") (fun _ _ o g => switch_group n o g) (nt_switches n).
Proof. exact file_switches. Qed.
Print Assumptions C118_switches.
Example C118_open : clean_file feed1 /\ loads feed_prims UnbalancedWitness.half_inv feed1 (fun n => map ts_open (nt_switches n) = [true; false]).
Proof. split; [exact feed1_clean |]. destruct feed1_loads as (ms & R & n & P & Q). exists ms. split; [exact R |]. exists n. split; [exact P | tauto]. Qed.

(** C119: regulators *)
Theorem C119_regulators : forall E sch inv cap objs ms n, clean_file objs -> read_store E sch objs = Ok ms -> parse_three inv cap ms = Ok n ->
  grouped objs (fun o => go_class o = "regulator") (fun _ _ o g => reg_group E objs n o g) (nt_regs n).
Proof. exact file_regulators. Qed.
Print Assumptions C119_regulators.
(** a tap position of 20 out of 16 raises is limited *)
Example C119_taps : clean_file feed2 /\ loads feed_prims UnbalancedWitness.half_inv feed2 (fun n => map (fun t => r_tap (tr_dev t)) (nt_regs n) = [5; 16; 5]%Z).
Proof. split; [exact feed2_clean |]. destruct feed2_loads as (ms & R & n & P & Q). exists ms. split; [exact R |]. exists n. split; [exact P | tauto]. Qed.

(** C120: transformers *)
Theorem C120_transformers : forall E sch inv cap objs ms n, clean_file objs -> read_store E sch objs = Ok ms -> parse_three inv cap ms = Ok n ->
  grouped objs (fun o => go_class o = "transformer") (fun _ name o g => xfmr_group E objs n name o g) (nt_xfmrs n).
Proof. exact file_transformers. Qed.
Print Assumptions C120_transformers.
Example C120_three : clean_file feed2 /\ loads feed_prims UnbalancedWitness.half_inv feed2 (fun n => List.length (nt_xfmrs n) = 3%nat).
Proof. split; [exact feed2_clean |]. destruct feed2_loads as (ms & R & n & P & Q). exists ms. split; [exact R |]. exists n. split; [exact P | tauto]. Qed.

(** C121: center taps with a secondary voltage in kV *)
Theorem C121_kilovolts : forall E sch inv cap objs ms n, clean_file objs -> read_store E sch objs = Ok ms -> parse_three inv cap ms = Ok n ->
  grouped objs (fun o => go_class o = "transformer") (fun _ _ o g => kv_group E objs o g) (nt_xfmrs n).
Proof. exact file_kv. Qed.
Print Assumptions C121_kilovolts.
Example C121_tap : clean_file feed3 /\ loads feed_prims UnbalancedWitness.half_inv feed3 (fun n => List.length (nt_xfmrs n) = 1%nat) /\
  says ReaderWitness3.tap_cfg "secondary_voltage" "0.12kV" /\ part_of "kV" "0.12kV" /\ wiring ReaderWitness3.tap_cfg None None true.
Proof.
  split; [exact feed3_clean |]. split; [exact feed3_loads |]. split; [now apply ReaderWitness.says_dget |]. split; [exists "0.12", ""; reflexivity |].
  exact (proj1 (proj2 (proj2 ReaderWitness3.tap_says))).
Qed.

(** C122: loads *)
Theorem C122_loads : forall E sch inv cap objs ms n, clean_file objs -> read_store E sch objs = Ok ms -> parse_three inv cap ms = Ok n ->
  grouped objs load_object (fun _ name o g => load_group E sch n name o g) (nt_loads n).
Proof. exact file_loads. Qed.
Print Assumptions C122_loads.
Example C122_load : clean_file feed1 /\ loads feed_prims UnbalancedWitness.half_inv feed1 (fun n => map tl_phase (nt_loads n) = ["A"]).
Proof. split; [exact feed1_clean |]. destruct feed1_loads as (ms & R & n & P & Q). exists ms. split; [exact R |]. exists n. split; [exact P | tauto]. Qed.

(** C123: capacitors *)
Theorem C123_capacitors : forall E sch inv cap objs ms n, clean_file objs -> read_store E sch objs = Ok ms -> parse_three inv cap ms = Ok n ->
  grouped objs (fun o => go_class o = "capacitor") (fun _ _ o g => cap_group E n o g) (nt_caps n).
Proof. exact file_capacitors. Qed.
Print Assumptions C123_capacitors.
Example C123_bank : clean_file feed1 /\ loads feed_prims UnbalancedWitness.half_inv feed1 (fun n => map tc_mode (nt_caps n) = [C_MANUAL] /\ map tc_switch (nt_caps n) = [CLOSED]).
Proof. split; [exact feed1_clean |]. destruct feed1_loads as (ms & R & n & P & Q). exists ms. split; [exact R |]. exists n. split; [exact P | tauto]. Qed.

(** C124: lines *)
Theorem C124_lines : forall E sch inv cap objs ms n, clean_file objs -> read_store E sch objs = Ok ms -> parse_three inv cap ms = Ok n ->
  grouped objs (fun o => In (go_class o) line_classes) (fun i _ o g => line_group E objs i o g) (nt_lines n).
Proof. exact file_netlines. Qed.
Print Assumptions C124_lines.
Example C124_line : clean_file wire_objs /\ overhead_data LineZWitness.line_prims wire_objs (firstn 4 wire_objs) ReaderWitness2.l_obj ["A"; "B"] (fun _ => 1%R) (fun _ => 1%R) (fun _ _ => 2%R) /\
  loads LineZWitness.line_prims inv2 wire_objs (fun n => exists t, nt_lines n = [t] /\ tn_phases t = ["A"; "B"] /\ tn_from t = Some "x" /\ tn_to t = Some "y").
Proof. exact (conj wire_clean (conj wire_data wire_loads)). Qed.

(** C125: the buses of the nodes *)
Theorem C125_buses : forall E sch inv cap objs ms n, clean_file objs -> read_store E sch objs = Ok ms -> parse_three inv cap ms = Ok n ->
  forall i name o core p, nth_error objs i = Some (name, o) -> go_class o = "node" \/ go_class o = "meter" -> silent o "parent" -> phase_core o core -> In p (phase_letters core) ->
  exists b bus a, leads_to n name p b /\ nth_error (nt_buses n) b = Some bus /\ tb_name bus = name /\ tb_phase bus = p /\ tb_virtual bus = false /\
    phase_volts E objs i name o p (tb_vnom bus) a /\ (~ In b (map tc_bus (nt_caps n)) -> starts_at p (tb_vnom bus) a (tb_vr bus) (tb_vi bus)).
Proof. exact file_buses. Qed.
Print Assumptions C125_buses.
Theorem C125_kinds : forall E sch inv cap objs ms n, clean_file objs -> read_store E sch objs = Ok ms -> parse_three inv cap ms = Ok n ->
  forall bus, In bus (nt_buses n) -> tb_virtual bus = false ->
  exists i o, nth_error objs i = Some (tb_name bus, o) /\ silent o "parent" /\ (In (go_class o) ["node"; "meter"; "triplex_meter"] \/ load_object o).
Proof. exact file_bus_kinds. Qed.
Print Assumptions C125_kinds.
Theorem C125_differ : forall E sch inv cap objs ms n, clean_file objs -> read_store E sch objs = Ok ms -> parse_three inv cap ms = Ok n ->
  NoDup (map (fun b => (tb_name b, tb_phase b)) (filter (fun b => negb (tb_virtual b)) (nt_buses n))).
Proof. exact file_buses_differ. Qed.
Print Assumptions C125_differ.
(** the bus of a node of 2401 V whose child is a meter of 2300 V has 2300 V *)
Example C125_child : child_of "b" bus_c /\ clean_file feed1 /\ loads feed_prims UnbalancedWitness.half_inv feed1 (fun n => exists b, nth_error (nt_buses n) 3 = Some b /\ tb_name b = "b" /\ tb_phase b = "A" /\ tb_vnom b = 2300%R /\ found n "c" "A" 3).
Proof. split; [split; [cbn; tauto | now apply ReaderWitness.says_dget] |]. split; [exact feed1_clean |]. destruct feed1_loads as (ms & R & n & P & Q). exists ms. split; [exact R |]. exists n. split; [exact P | tauto]. Qed.

(** C126: sources *)
Theorem C126_sources : forall E sch inv cap objs ms n, clean_file objs -> read_store E sch objs = Ok ms -> parse_three inv cap ms = Ok n ->
  grouped objs (fun o => (go_class o = "node" \/ go_class o = "meter") /\ says o "bustype" "SWING") (fun i name o g => source_group E objs n i name o g) (nt_slack n).
Proof. exact file_sources. Qed.
Print Assumptions C126_sources.
(** the swing node gives 2402 V for phase B and 2401 V in general *)
Example C126_swing : clean_file feed1 /\ loads feed_prims UnbalancedWitness.half_inv feed1 (fun n => map sk_v (nt_slack n) = [2401; 2402; 2401]%R).
Proof. split; [exact feed1_clean |]. destruct feed1_loads as (ms & R & n & P & Q). exists ms. split; [exact R |]. exists n. split; [exact P | tauto]. Qed.
