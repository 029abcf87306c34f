(** Reader.parse, from GridLAB-D objects to the store: C97 - C102. *)
From Coq Require Import Reals String Ascii List Bool Lra.
From Verif Require Import PyExc Components GlmText SpecGlm LineImpedance ThreePhase GlmReader SpecReader ReaderBase ReaderLoadProofs ReaderFrame ReaderStore ReaderFile ReaderWitness.
Import ListNotations.
Local Open Scope string_scope.

(** C97 *)
Theorem C97_phases : forall core s, wrapped core s -> forall pi,
  parse_phases s = Ok pi <->
  phase_letters core <> [] /\ (In "S"%char (chars core) -> List.length (phase_letters core) = 1) /\
  pi_phases pi = phase_letters core /\ (pi_neutral pi = true <-> In "N"%char (chars core)) /\
  (pi_triplex pi = true <-> In "S"%char (chars core)) /\
  (pi_delta pi = true <-> ~ In "N"%char (chars core) /\ ~ In "S"%char (chars core)).
Proof. exact parse_phases_ok. Qed.
Print Assumptions C97_phases.
Theorem C97_rejected : forall core s, wrapped core s ->
  (phase_letters core = [] \/ In "S"%char (chars core) /\ List.length (phase_letters core) <> 1) <-> parse_phases s = Err Raised.
Proof. exact parse_phases_fail. Qed.
Print Assumptions C97_rejected.
Example C97_nonvacuous :
  wrapped "ABCD" """ABCD|""" /\ phase_letters "ABCD" = ["A"; "B"; "C"]
  /\ parse_phases """ABCD|""" = Ok {| pi_phases := ["A"; "B"; "C"]; pi_delta := true; pi_triplex := false; pi_neutral := false |}
  /\ parse_phases "AS" = Ok {| pi_phases := ["A"]; pi_delta := false; pi_triplex := true; pi_neutral := false |}
  /\ parse_phases "A|BN" = Ok {| pi_phases := ["A"; "|"; "B"]; pi_delta := false; pi_triplex := false; pi_neutral := true |}
  /\ parse_phases "ABS" = Err Raised.
Proof. split; [apply demo_phases |]. split; [apply demo_phases |]. repeat split; vm_compute; reflexivity. Qed.

(** C98 *)
Theorem C98_store : forall E sch objs ms, NoDup (map fst objs) -> read_store E sch objs = Ok ms ->
  exists parts, Forall2 (fun no part => contributes E sch (fst no) (snd no) part) objs parts /\ Forall2 same_model (concat parts) ms.
Proof. exact file_ok. Qed.
Print Assumptions C98_store.
Example C98_nonvacuous : NoDup (map fst demo_objs) /\ read_store demo_prims demo_sch demo_objs = Ok demo_store.
Proof. split; [exact demo_keys | exact demo_reads]. Qed.

(** C99 *)
Theorem C99_loads : forall E sch objs ms name o, NoDup (map fst objs) -> read_store E sch objs = Ok ms ->
  In (name, o) objs -> load_object o -> exists d, In (MLoad d) ms /\ load_matches E sch name o d.
Proof. exact file_load. Qed.
Print Assumptions C99_loads.
Example C99_nonvacuous : read_store demo_prims demo_sch demo_objs = Ok demo_store
  /\ exists o, In ("ld", o) demo_objs /\ load_object o
  /\ complex demo_prims o "constant_power_A" (3, 4)%R /\ complex demo_prims o "power_A" (5, 0)%R
  /\ zip_power demo_prims demo_sch o "A" (1 / 2 * 10)%R /\ lands true "A" "AB".
Proof. exact demo_load. Qed.

(** C100 *)
Theorem C100_fractions_ignored : forall E sch o o', same_but_fractions E o o' ->
  forall name, read_load E sch name o = read_load E sch name o'.
Proof. exact frac_load. Qed.
Print Assumptions C100_fractions_ignored.
Example C100_nonvacuous : same_but_fractions demo_prims (zip_demo "0" "1") (zip_demo "1" "0")
  /\ read_load demo_prims [] "z" (zip_demo "0" "1")
     = Ok [MLoad {| do_name := Some "z"; do_conn := Some "n1"; do_triplex := None;
                    do_loads := [{| dp_phase := Some "A"; dp_p := 10; dp_q := 0; dp_z := (0, 0); dp_i := (0, 0) |}]%R |}].
Proof. split; [exact zip_demo_same | exact zip_demo_reads]. Qed.

(** C101 *)
Theorem C101_delta_between_phases : forall E sch inv cap objs ms name o core c k v,
  NoDup (map fst objs) -> read_store E sch objs = Ok ms -> In (name, o) objs -> load_object o ->
  phase_core o core -> In "D"%char (chars core) -> ~ In "S"%char (chars core) ->
  In c ["AB"; "BC"; "CA"; "1"; "2"; "12"] -> In k direct_loads -> complex E o (k ++ c) v -> v <> (0, 0)%R ->
  exists e, parse_three inv cap ms = Err e.
Proof. exact delta_stray. Qed.
Print Assumptions C101_delta_between_phases.
Example C101_nonvacuous : (exists ms, read_store demo_prims [] delta_objs = Ok ms) /\ NoDup (map fst delta_objs)
  /\ exists o, In ("ld", o) delta_objs /\ load_object o /\ phase_core o "ABCD" /\ complex demo_prims o ("constant_power_" ++ "AB") (3, 4)%R.
Proof. exact delta_demo. Qed.

(** C102 *)
Theorem C102_objects_kept : forall E sch objs s, NoDup (map fst objs) ->
  mfold (read_object E sch) (map fst objs) (start objs) = Ok s -> all_kept objs (r_objs s).
Proof. exact objects_kept. Qed.
Print Assumptions C102_objects_kept.
Example C102_nonvacuous : exists s, mfold (read_object demo_prims []) (map fst line_objs) (start line_objs) = Ok s
  /\ NoDup (map fst line_objs) /\ exists o o', In ("tr", o) line_objs /\ In ("tr", o') (r_objs s) /\ says o "power_rating" "10kVA" /\ says o' "power_rating" "10".
Proof. exact line_demo. Qed.
