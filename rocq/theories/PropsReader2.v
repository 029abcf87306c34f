(** C107-C112: lines of a GridLAB-D file. *)
From Coq Require Import Reals ZArith String Ascii List Bool Lia.
From Verif Require Import PyExc SpecComponents SpecUnbalanced Components UnbalancedLine GlmText SpecGlm LineImpedance ThreePhase GlmReader SpecReader SpecLineZ SpecReader2 LineZFinal LineFinal ReaderBare ReaderWitness LineZWitness ReaderWitness2.
Import ListNotations.
Local Open Scope string_scope.

(** C107: impedances given directly are not read; a line without conductors has none *)
Theorem C107_never_read : forall E pre o, pre = "z" \/ pre = "c" -> load_direct E pre o = Ok None.
Proof. exact direct_never. Qed.
Print Assumptions C107_never_read.
Theorem C107_fails : forall E sch objs name o, NoDup (map fst objs) -> p_inv E [[Some C0]] = None -> In (name, o) objs ->
  (go_class o = "triplex_line" /\ without_conductors objs o triplex_phases \/
   go_class o = "overhead_line" /\ without_conductors objs o line_phases /\ exists core, phase_core o core /\ In "N"%char (chars core)) ->
  forall ms, read_store E sch objs <> Ok ms.
Proof. exact bare_fails. Qed.
Print Assumptions C107_fails.
Theorem C107_zero : forall E sch objs ms, NoDup (map fst objs) -> read_store E sch objs = Ok ms ->
  exists parts, Forall2 (fun no part => contributes E sch (fst no) (snd no) part) objs parts /\ Forall2 same_model (concat parts) ms /\
    forall i name o part, nth_error objs i = Some (name, o) -> nth_error parts i = Some part -> go_class o = "overhead_line" -> bare_ok objs o part.
Proof. exact bare_zero. Qed.
Print Assumptions C107_zero.
Example C107_given : says direct_cfg "z11" "1" /\ load_direct line_prims "z" direct_cfg = Ok None.
Proof. split; [now apply says_dget | reflexivity]. Qed.
Example C107_triplex_fails : forall ms, read_store line_prims [] (direct_objs "triplex_line" "AS") <> Ok ms.
Proof.
  apply (C107_fails line_prims [] (direct_objs "triplex_line" "AS") "l" _ (direct_keys _ _) inv1_zero ltac:(cbn; tauto)). left. split; [reflexivity |].
  apply direct_none. intros p I. now right.
Qed.
Example C107_overhead_fails : forall ms, read_store line_prims [] (direct_objs "overhead_line" "AN") <> Ok ms.
Proof.
  apply (C107_fails line_prims [] (direct_objs "overhead_line" "AN") "l" _ (direct_keys _ _) inv1_zero ltac:(cbn; tauto)). right. split; [reflexivity |].
  split; [apply direct_none; intros p I; now left |]. exists "AN". split; [| cbn; tauto]. apply (@core_plain "overhead_line" "AN" "A" "N"); try discriminate; [reflexivity | cbn; split; discriminate].
Qed.
Example C107_zero_line : exists ms, read_store line_prims [] (direct_objs "overhead_line" "A") = Ok ms /\ phase_core (the_line "overhead_line" "A" "3" "cfg") "A" /\
  without_conductors (direct_objs "overhead_line" "A") (the_line "overhead_line" "A" "3" "cfg") line_phases /\ ~ In "N"%char (chars "A").
Proof.
  destruct direct_reads as (ms & H). exists ms. split; [exact H |]. split; [apply (@core_plain "overhead_line" "A" "" "A"); try discriminate; [reflexivity | cbn; split; discriminate] |].
  split; [apply direct_none; intros p I; now left | cbn; intuition discriminate].
Qed.

(** C108: lengths *)
Theorem C108_length : forall E sch objs ms, NoDup (map fst objs) -> read_store E sch objs = Ok ms ->
  exists parts, Forall2 (fun no part => contributes E sch (fst no) (snd no) part) objs parts /\ Forall2 same_model (concat parts) ms /\
    forall i name o part, nth_error objs i = Some (name, o) -> nth_error parts i = Some part -> In (go_class o) line_classes -> length_ok E o part.
Proof. exact lines_length. Qed.
Print Assumptions C108_length.
Example C108_three_lines : NoDup (map fst (shared_objs cdA)) /\ exists ms, read_store line_prims [] (shared_objs cdA) = Ok ms /\
  metres line_prims l_obj (3 * 0.3048)%R /\ metres line_prims (t_obj "2 km") (2 * 1000)%R.
Proof.
  split; [exact shared_keys |]. destruct shared_reads as (ms & H). exists ms. split; [exact H |]. split.
  - exists "3". split; [now apply says_dget |]. right. split; [now apply not_part |]. exists 3%R. split; reflexivity.
  - exists "2 km". split; [now apply says_dget |]. left. split; [exists "2 ", ""; reflexivity |]. exists 2%R. split; [exists "2"; split; reflexivity | reflexivity].
Qed.

(** C109: a unit is converted once; the second line with the conductor takes ohms per kilometre as ohms per mile *)
Theorem C109_later_use : forall E sch objs ms, NoDup (map fst objs) -> read_store E sch objs = Ok ms ->
  exists parts, Forall2 (fun no part => contributes E sch (fst no) (snd no) part) objs parts /\ Forall2 same_model (concat parts) ms /\
    forall i j n1 o1 n2 o2 c core ps r g D p n cd t y k, (i < j)%nat -> nth_error objs i = Some (n1, o1) -> nth_error objs j = Some (n2, o2) ->
      uses objs n o1 -> go_class o2 = "overhead_line" -> configured objs o2 c -> phase_core o2 core -> ~ In "N"%char (chars core) ->
      overhead_data E objs (firstn j objs) o2 ps r g D -> In p ps -> says c ("conductor_" ++ p) n -> named objs n cd ->
      says cd "resistance" t -> part_of "Ohm/km" t -> among E t y -> nth_error (abc_of (phase_letters core)) k = Some p ->
      exists l, nth_error parts j = Some [MLine l] /\ entry (dl_z l) k k = Some (to_metre (carson_self y (g p))).
Proof. exact later_use. Qed.
Print Assumptions C109_later_use.
(** the same line twice in a file, with different impedances *)
Theorem C109_units_once_refuted : exists ms l1 l2 l3, read_store line_prims [] (shared_objs cdA) = Ok ms /\ ms = [MLine l1; MLine l2; MLine l3] /\
  dl_wires l1 = dl_wires l2 /\ dl_len l1 = dl_len l2 /\ dl_len l3 = 2000%R /\
  entry (dl_z l1) 0 0 = Some (to_metre (carson_self (per_mile 1) 1)) /\ entry (dl_z l2) 0 0 = Some (to_metre (carson_self 1 1)).
Proof. exact shared_differ. Qed.
Print Assumptions C109_units_once_refuted.
Example C109_same_line : nth_error (shared_objs cdA) 6 = Some ("l1", l_obj) /\ nth_error (shared_objs cdA) 7 = Some ("l2", l_obj).
Proof. split; reflexivity. Qed.

(** C110: overhead lines *)
Theorem C110_overhead : forall E sch objs ms, NoDup (map fst objs) -> read_store E sch objs = Ok ms ->
  exists parts, Forall2 (fun no part => contributes E sch (fst no) (snd no) part) objs parts /\ Forall2 same_model (concat parts) ms /\
    forall i name o part, nth_error objs i = Some (name, o) -> nth_error parts i = Some part -> go_class o = "overhead_line" -> overhead_ok E objs (firstn i objs) o part.
Proof. exact lines_overhead. Qed.
Print Assumptions C110_overhead.
Example C110_two_lines : exists ms, read_store line_prims [] (shared_objs cdA) = Ok ms /\
  overhead_data line_prims (shared_objs cdA) (firstn 6 (shared_objs cdA)) l_obj ["A"; "B"] (ab_r (per_mile 1)) (fun _ => 1%R) (fun _ _ => 2%R) /\
  overhead_data line_prims (shared_objs cdA) (firstn 7 (shared_objs cdA)) l_obj ["A"; "B"] (ab_r 1) (fun _ => 1%R) (fun _ _ => 2%R).
Proof. destruct shared_reads as (ms & H). exists ms. split; [exact H |]. split; apply ab_data; [left | right]; split; reflexivity. Qed.

(** C111: triplex lines *)
Theorem C111_triplex : forall E sch objs ms, NoDup (map fst objs) -> read_store E sch objs = Ok ms ->
  exists parts, Forall2 (fun no part => contributes E sch (fst no) (snd no) part) objs parts /\ Forall2 same_model (concat parts) ms /\
    forall i name o part, nth_error objs i = Some (name, o) -> nth_error parts i = Some part -> go_class o = "triplex_line" -> triplex_ok E objs o part.
Proof. exact lines_triplex. Qed.
Print Assumptions C111_triplex.
Example C111_one_line : exists ms, read_store line_prims [] (shared_objs cdA) = Ok ms /\ In ("t1", t_obj "2 km") (shared_objs cdA) /\
  triplex_data line_prims (shared_objs cdA) (t_obj "2 km") ["1"; "2"; "N"] (fun _ => 1%R) (fun _ => 1%R) ((1 + 2 * 2) / 12) ((1 + 2) / 12) /\
  inverts_neutral line_prims (carson_self 1 1).
Proof. destruct shared_reads as (ms & H). exists ms. split; [exact H |]. split; [cbn; tauto |]. split; [exact t_data | apply inv1_ok, self_nz]. Qed.

(** C112: a line without configuration *)
Theorem C112_inherits : forall E sch objs ms, NoDup (map fst objs) -> read_store E sch objs = Ok ms ->
  exists parts, Forall2 (fun no part => contributes E sch (fst no) (snd no) part) objs parts /\ Forall2 same_model (concat parts) ms /\
  forall i name o, nth_error objs i = Some (name, o) -> In (go_class o) line_classes -> silent o "configuration" ->
    exists j l l', last_configured objs i j /\ nth_error parts i = Some [MLine l] /\ nth_error parts j = Some [MLine l'] /\ dl_wires l = dl_wires l'.
Proof. exact file_inherit. Qed.
Print Assumptions C112_inherits.
Example C112_second_line : NoDup (map fst inherit_objs) /\ exists ms, read_store line_prims [] inherit_objs = Ok ms /\
  nth_error inherit_objs 3 = Some ("t2", bare_line) /\ silent bare_line "configuration" /\ configured_line (t_obj "2").
Proof.
  split; [exact inherit_keys |]. destruct inherit_reads as (ms & H). exists ms. split; [exact H |]. split; [reflexivity |]. split.
  - now apply bare_silent.
  - exact t_configured.
Qed.
