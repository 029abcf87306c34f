(** C158: a spacing with two places serves the two conductors it places and no others. *)
From Coq Require Import Reals String List.
From Verif Require Import PyExc GlmText LineImpedance ThreePhase GlmReader SpecReader SpecLineZ SpecReader2 LineZWitness ReaderWitness2 SpecTwo TwoProofs TwoFile.
Import ListNotations.
Local Open Scope string_scope.

Theorem C158_two : forall E o phases p q x, numeric E o -> just_two E o p q x ->
  ((exists r, overhead_spacing E o phases = Ok r) <-> incl phases [p; q]).
Proof. exact two_places. Qed.
Print Assumptions C158_two.
Example C158_two_nonvacuous : numeric line_prims ab_spacing /\ just_two line_prims ab_spacing "A" "B" 2%R /\
  (forall r, overhead_spacing line_prims ab_spacing ["A"; "C"] <> Ok r).
Proof. exact (conj ab_numeric (conj ab_two ab_refused)). Qed.

Theorem C158_heights : forall E o phases p q x hp hq, numeric E o -> two_high E o p q x hp hq ->
  ((exists r, overhead_spacing E o phases = Ok r) <-> phases = [] \/ (incl phases [p; q] /\ (Rabs (hp - hq) <= x)%R)).
Proof. exact two_heights. Qed.
Print Assumptions C158_heights.
Example C158_heights_nonvacuous : numeric line_prims high_spacing /\ two_high line_prims high_spacing "A" "B" 1%R 3%R (5 / 2)%R /\
  (exists r, overhead_spacing line_prims high_spacing ["A"; "B"] = Ok r).
Proof. exact (conj high_numeric (conj high_two high_accepted)). Qed.

Theorem C158_file : forall E sch objs ms name o c so ps p q x, NoDup (map fst objs) -> read_store E sch objs = Ok ms ->
  In (name, o) objs -> go_class o = "overhead_line" -> configured objs o c -> conductors_of c line_phases ps ->
  (exists n, says c "spacing" n /\ named objs n so) -> just_two E so p q x -> incl ps [p; q].
Proof. exact file_two. Qed.
Print Assumptions C158_file.
Theorem C158_file_heights : forall E sch objs ms name o c so ps p q x hp hq, NoDup (map fst objs) -> read_store E sch objs = Ok ms ->
  In (name, o) objs -> go_class o = "overhead_line" -> configured objs o c -> conductors_of c line_phases ps ->
  (exists n, says c "spacing" n /\ named objs n so) -> two_high E so p q x hp hq -> ps <> [] -> incl ps [p; q] /\ (Rabs (hp - hq) <= x)%R.
Proof. exact file_high. Qed.
Print Assumptions C158_file_heights.
Example C158_file_nonvacuous : NoDup (map fst (shared_objs cdA)) /\ (exists ms, read_store line_prims [] (shared_objs cdA) = Ok ms) /\
  configured (shared_objs cdA) l_obj ab_cfg /\ just_two line_prims ab_spacing "A" "B" 2%R.
Proof. exact (conj shared_keys (conj shared_reads (conj ab_configured ab_two))). Qed.
