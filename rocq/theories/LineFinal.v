(** The parts of file_lines. *)
From Coq Require Import Reals ZArith String Ascii List Bool Lia.
From Verif Require Import PyExc SpecComponents SpecUnbalanced Components UnbalancedLine GlmText SpecGlm LineImpedance ThreePhase GlmReader SpecReader SpecLineZ SpecReader2 ReaderBase ReaderStore LineFile KronProofs OverheadFile.
Import ListNotations.
Local Open Scope string_scope.
Set Implicit Arguments.

Lemma lines_length : forall E sch objs ms, NoDup (map fst objs) -> read_store E sch objs = Ok ms ->
  exists parts, Forall2 (fun no part => contributes E sch (fst no) (snd no) part) objs parts /\ Forall2 same_model (concat parts) ms /\
    forall i name o part, nth_error objs i = Some (name, o) -> nth_error parts i = Some part -> In (go_class o) line_classes -> length_ok E o part.
Proof.
  intros E sch objs ms ND H. destruct (@file_lines E sch objs ms ND H) as (parts & F & S & T). exists parts. split; [exact F |]. split; [exact S |].
  intros i name o part Ho Hp C. now apply (T i name o part Ho Hp).
Qed.
Lemma lines_overhead : forall E sch objs ms, NoDup (map fst objs) -> read_store E sch objs = Ok ms ->
  exists parts, Forall2 (fun no part => contributes E sch (fst no) (snd no) part) objs parts /\ Forall2 same_model (concat parts) ms /\
    forall i name o part, nth_error objs i = Some (name, o) -> nth_error parts i = Some part -> go_class o = "overhead_line" -> overhead_ok E objs (firstn i objs) o part.
Proof.
  intros E sch objs ms ND H. destruct (@file_lines E sch objs ms ND H) as (parts & F & S & T). exists parts. split; [exact F |]. split; [exact S |].
  intros i name o part Ho Hp C. now apply (T i name o part Ho Hp).
Qed.
Lemma lines_triplex : forall E sch objs ms, NoDup (map fst objs) -> read_store E sch objs = Ok ms ->
  exists parts, Forall2 (fun no part => contributes E sch (fst no) (snd no) part) objs parts /\ Forall2 same_model (concat parts) ms /\
    forall i name o part, nth_error objs i = Some (name, o) -> nth_error parts i = Some part -> go_class o = "triplex_line" -> triplex_ok E objs o part.
Proof.
  intros E sch objs ms ND H. destruct (@file_lines E sch objs ms ND H) as (parts & F & S & T). exists parts. split; [exact F |]. split; [exact S |].
  intros i name o part Ho Hp C. now apply (T i name o part Ho Hp).
Qed.

Definition said_z (ps : list string) (r g : string -> R) (d : string -> string -> R) (p q : string) : C :=
  if (GlmText.mem p ps && GlmText.mem q ps)%bool then if String.eqb p q then carson_self (r p) (g p) else carson_mutual (d p q) else C0.
Lemma said_z_ok : forall ps r g d, phase_z ps r g d (said_z ps r g d).
Proof.
  intros ps r g d. unfold said_z. split; [| split].
  - intros p I. apply mem_iff in I. now rewrite I, String.eqb_refl.
  - intros p q Ip Iq N. apply mem_iff in Ip, Iq. apply String.eqb_neq in N. now rewrite Ip, Iq, N.
  - intros p q N. rewrite <- mem_iff, not_true_iff_false in N. rewrite N, andb_false_r. split; reflexivity.
Qed.
Lemma says_fun : forall o k a b, says o k a -> says o k b -> a = b.
Proof. intros o k a b A B. apply gattr_says in A, B. congruence. Qed.
Lemma named_fun : forall objs n a b, named objs n a -> named objs n b -> a = b.
Proof. intros objs n a b A B. apply named_dget in A, B. congruence. Qed.
Lemma among_fun : forall E t x y, among E t x -> among E t y -> x = y.
Proof. intros E t x y A B. apply among_digits in A, B. congruence. Qed.
(** the second line with a conductor in ohms per kilometre takes the number as ohms per mile *)
Lemma later_use : forall E sch objs ms, NoDup (map fst objs) -> read_store E sch objs = Ok ms ->
  exists parts, Forall2 (fun no part => contributes E sch (fst no) (snd no) part) objs parts /\ Forall2 same_model (concat parts) ms /\
    forall i j n1 o1 n2 o2 c core ps r g D p n cd t y k, (i < j)%nat -> nth_error objs i = Some (n1, o1) -> nth_error objs j = Some (n2, o2) ->
      uses objs n o1 -> go_class o2 = "overhead_line" -> configured objs o2 c -> phase_core o2 core -> ~ In "N"%char (chars core) ->
      overhead_data E objs (firstn j objs) o2 ps r g D -> In p ps -> says c ("conductor_" ++ p) n -> named objs n cd ->
      says cd "resistance" t -> part_of "Ohm/km" t -> among E t y -> nth_error (abc_of (phase_letters core)) k = Some p ->
      exists l, nth_error parts j = Some [MLine l] /\ entry (dl_z l) k k = Some (to_metre (carson_self y (g p))).
Proof.
  intros E sch objs ms ND H. destruct (@file_lines E sch objs ms ND H) as (parts & F & S & T). exists parts. split; [exact F |]. split; [exact S |].
  intros i j n1 o1 n2 o2 c core ps r g D p n cd t y k Lt Hi Hj U C CF PC NN OD Ip Sc Nc St Pt At Hk.
  assert (R : r p = y).
  { destruct OD as (c' & so & m & CF' & _ & _ & CD & _). destruct (CD p Ip) as (n' & cd' & Sc' & Nc' & M & _).
    destruct CF as (cn & A1 & A2), CF' as (cn' & B1 & B2). assert (cn' = cn) as -> by (eapply says_fun; eauto). assert (c' = c) as -> by (eapply named_fun; eauto).
    assert (n' = n) as -> by (eapply says_fun; eauto). assert (cd' = cd) as -> by (eapply named_fun; eauto).
    destruct M as (t' & St' & M). assert (t' = t) as -> by (eapply says_fun; eauto). destruct M as [[X _] | (_ & y' & Ay & [[_ ->] | [X _]])]; [contradiction | eapply among_fun; eauto |].
    destruct X. left. exists n1, o1. split; [| exact U]. rewrite <- (firstn_skipn j objs) in Hi. rewrite nth_error_app1 in Hi; [eapply nth_error_In; eauto |].
    rewrite firstn_length. apply Nat.min_glb_lt; [exact Lt |]. etransitivity; [exact Lt |]. apply nth_error_Some. congruence. }
  destruct (nth_error parts j) as [part |] eqn:Hp.
  2: { apply nth_error_None in Hp. assert (List.length objs = List.length parts) by (clear - F; induction F; cbn; congruence). assert (j < List.length objs)%nat by (apply nth_error_Some; congruence). lia. }
  destruct (T j n2 o2 part Hj Hp) as (_ & O & _).
  destruct (O C core ps r g D (said_z ps r g D) false PC OD (said_z_ok _ _ _ _)) as (l & -> & _ & HZ); [split; [discriminate | intros X; contradiction] | discriminate |].
  exists l. split; [reflexivity |]. assert (Lk : (k < List.length (abc_of (phase_letters core)))%nat) by (apply nth_error_Some; congruence).
  rewrite (holds_entry HZ Lk Lk). pose proof (nth_error_nth _ _ "" Hk) as Q.
  assert (Z : forall q, q = p -> reduced false (said_z ps r g D) q q = carson_self y (g p)).
  { intros q ->. unfold reduced. rewrite <- R. now apply said_z_ok. }
  now rewrite (Z _ Q).
Qed.
