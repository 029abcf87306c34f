(** C113-C115: transformers, regulators and nominal voltages of a GridLAB-D file. *)
From Coq Require Import Reals ZArith String Ascii List Bool Lia.
From Verif Require Import PyExc SpecComponents SpecUnbalanced Components UnbalancedLine GlmText SpecGlm LineImpedance ThreePhase GlmReader SpecReader SpecLineZ SpecReader2 SpecReader3 UnitFinal VnomFile ReaderWitness3.
Import ListNotations.
Local Open Scope string_scope.

(** C113: transformers *)
Theorem C113_transformer : forall E sch objs ms, NoDup (map fst objs) -> read_store E sch objs = Ok ms ->
  exists parts, Forall2 (fun no part => contributes E sch (fst no) (snd no) part) objs parts /\ Forall2 same_model (concat parts) ms /\
    forall i name o part, nth_error objs i = Some (name, o) -> nth_error parts i = Some part -> go_class o = "transformer" -> xfmr_ok E objs o part.
Proof. exact file_xfmrs. Qed.
Print Assumptions C113_transformer.
(** two center-tapped transformers with one configuration are alike; with 0.12kV the coils have 120 V and -0.12 V *)
Theorem C113_tap_coils_refuted : exists ms, read_store unit_prims [] tap_objs = Ok ms /\ exists x1 x2 x3, ms = [MXfmr x1; MXfmr x2; MXfmr x3] /\
  dx_windings x1 = dx_windings x2 /\ exists w1 w2 w3, dx_windings x1 = [w1; w2; w3] /\
  dw_nom w2 = Some (12 / 100 * 1000)%R /\ dw_nom w3 = Some (- (12 / 100))%R.
Proof. exact tap_reads. Qed.
Print Assumptions C113_tap_coils_refuted.
Example C113_tap : NoDup (map fst tap_objs) /\ phase_core (trafo "AS" "tc") "AS" /\ configured tap_objs (trafo "AS" "tc") tap_cfg /\ wiring tap_cfg None None true /\
  opt_complex unit_prims tap_cfg "shunt_impedance" None /\
  winding_volts unit_prims tap_cfg "primary_voltage" (Some (72 / 10 * 1000)%R) (Some (72 / 10)%R) /\
  winding_volts unit_prims tap_cfg "secondary_voltage" (Some (12 / 100 * 1000)%R) (Some (12 / 100)%R) /\
  ohms unit_prims tap_cfg true (Some 3%R) (tap_reactances 4) /\ rated_power unit_prims tap_cfg (Some (10 * 1000)%R).
Proof. exact (conj tap_keys tap_says). Qed.
Example C113_wye : phase_core (trafo "ABC" "wc") "ABC" /\ configured tap_objs (trafo "ABC" "wc") wye_cfg /\ wiring wye_cfg (Some "Y") (Some "Y") false /\
  winding_volts unit_prims wye_cfg "secondary_voltage" (Some 480%R) (Some 480%R) /\
  ohms unit_prims wye_cfg false (Some 2%R) [10%R] /\ rated_power unit_prims wye_cfg (Some (10 * 1000 + (2 * 1000 + 0))%R).
Proof. exact wye_says. Qed.

(** C114: regulators *)
Theorem C114_regulator : forall E sch objs ms, NoDup (map fst objs) -> read_store E sch objs = Ok ms ->
  exists parts, Forall2 (fun no part => contributes E sch (fst no) (snd no) part) objs parts /\ Forall2 same_model (concat parts) ms /\
    forall i name o part, nth_error objs i = Some (name, o) -> nth_error parts i = Some part -> go_class o = "regulator" -> reg_ok E objs o part.
Proof. exact file_regs. Qed.
Print Assumptions C114_regulator.
Example C114_three_phases : NoDup (map fst reg_objs) /\ exists ms n r, read_store unit_prims [] reg_objs = Ok ms /\ ms = [MNode n; MReg r] /\
  dr_phases1 r = ["A"; "B"; "C"] /\ dr_tap r "C" = Some 5%Z /\ dr_tap r "A" = None /\ dr_width r = 2%R /\ dr_raise r = 16%Z /\ dr_type r = "B".
Proof. exact (conj reg_keys reg_reads). Qed.

(** C115: nominal voltages *)
Theorem C115_voltage : forall E sch objs ms, NoDup (map fst objs) -> read_store E sch objs = Ok ms ->
  forall i name o n, nth_error objs i = Some (name, o) -> In (MNode n) ms -> dn_name n = name -> node_voltage E objs i name o n.
Proof. exact nodes_voltage. Qed.
Print Assumptions C115_voltage.
(** a child overwrites the voltage of its parent, also with nothing *)
Theorem C115_own_voltage_refuted : exists ms np nq nc nd, read_store unit_prims [] kids = Ok ms /\ ms = [MNode np; MNode nq; MNode nc; MNode nd] /\
  dn_name np = "p" /\ dn_name nq = "q" /\ dn_vnom np = Some 120%R /\ dn_vnom nq = None.
Proof. exact kids_read. Qed.
Print Assumptions C115_own_voltage_refuted.
Example C115_children : NoDup (map fst kids) /\ child_of "p" (snd (nth 2 kids ("", tap_cfg))) /\ child_of "q" (snd (nth 3 kids ("", tap_cfg))).
Proof. exact (conj kids_keys kids_child). Qed.
