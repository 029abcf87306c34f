(** Transformers and regulators of a file; the parts of file_turns. *)
From Coq Require Import Reals ZArith String Ascii List Bool Lia.
From Verif Require Import PyExc SpecComponents SpecUnbalanced Components UnbalancedLine GlmText SpecGlm LineImpedance ThreePhase GlmReader SpecReader ReaderBase ReaderStore ReaderFile ReaderTurns SpecLineZ SpecReader2 SpecReader3 XfmrFile RegFile.
Import ListNotations.
Local Open Scope string_scope.
Set Implicit Arguments.

Lemma file_xfmrs : forall E sch objs ms, NoDup (map fst objs) -> read_store E sch objs = Ok ms ->
  exists parts, Forall2 (fun no part => contributes E sch (fst no) (snd no) part) objs parts /\ Forall2 same_model (concat parts) ms /\
    forall i name o part, nth_error objs i = Some (name, o) -> nth_error parts i = Some part -> go_class o = "transformer" -> xfmr_ok E objs o part.
Proof.
  intros E sch objs ms ND H. destruct (@file_turns E sch objs ms ND H) as (parts & F & S & T). exists parts. split; [exact F |]. split; [exact S |].
  intros i name o part Ho Hp C. destruct (T i name o Ho) as (part' & s1 & s2 & o1 & Hp' & A). assert (part' = part) as -> by congruence. exact (@xfmr_part E sch _ _ _ _ _ _ _ _ A C).
Qed.
Lemma file_regs : forall E sch objs ms, NoDup (map fst objs) -> read_store E sch objs = Ok ms ->
  exists parts, Forall2 (fun no part => contributes E sch (fst no) (snd no) part) objs parts /\ Forall2 same_model (concat parts) ms /\
    forall i name o part, nth_error objs i = Some (name, o) -> nth_error parts i = Some part -> go_class o = "regulator" -> reg_ok E objs o part.
Proof.
  intros E sch objs ms ND H. destruct (@file_turns E sch objs ms ND H) as (parts & F & S & T). exists parts. split; [exact F |]. split; [exact S |].
  intros i name o part Ho Hp C. destruct (T i name o Ho) as (part' & s1 & s2 & o1 & Hp' & A). assert (part' = part) as -> by congruence. exact (@reg_part E sch _ _ _ _ _ _ _ _ A C).
Qed.
