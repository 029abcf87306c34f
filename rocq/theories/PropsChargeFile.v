(** C139: the charging of overhead lines from the file *)
From Coq Require Import Reals ZArith String List Bool Lra.
From Verif Require Import PyExc SpecComponents SpecUnbalanced Components UnbalancedLine GlmText LineImpedance ThreePhase GlmReader SpecReader SpecLineZ SpecReader2 Cables SpecCables CableFileWitness SpecChargeFile ChargeFile ChargeFileWitness.
Import ListNotations.
Local Open Scope string_scope.

Theorem C139_charging : forall E0 side sch objs ms, let E := with_cables E0 side in NoDup (map fst objs) -> read_store E sch objs = Ok ms ->
  exists parts, Forall2 (fun no part => contributes E sch (fst no) (snd no) part) objs parts /\ Forall2 same_model (concat parts) ms /\
    forall i name o part, nth_error objs i = Some (name, o) -> nth_error parts i = Some part -> go_class o = "overhead_line" -> charging_ok E objs o part.
Proof. exact lines_charging. Qed.
Print Assumptions C139_charging.
(** a file whose spacing gives no heights and whose conductor has no diameter *)
Example C139_one_line : NoDup (map fst a_objs) /\ (exists l, read_store u_prims [] a_objs = Ok [MLine l]) /\ nth_error a_objs 3 = Some ("l1", a_obj) /\
  overhead_measures u_prims a_objs a_obj ["A"] (fun _ _ => 2%R) (fun _ => 1%R) (fun _ => (1 / 2 / 2)%R) /\ inverts u_prims 1 (real a_P).
Proof. split; [exact a_keys |]. split; [exact a_file |]. split; [reflexivity |]. split; [exact a_measures | exact a_inverts]. Qed.
