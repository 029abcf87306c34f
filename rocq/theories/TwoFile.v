(** Spacings with two places, from the file. *)
From Coq Require Import Reals ZArith String Ascii List Bool Lia Lra Arith.
From Verif Require Import PyExc SpecComponents SpecUnbalanced Components UnbalancedLine GlmText SpecGlm GlmBase LineImpedance ThreePhase GlmReader SpecReader ReaderBase ReaderLoadProofs ReaderFrame ReaderStore ReaderFile ReaderFrame2 ReaderVisit SpecLineZ KronProofs CarsonProofs SpacingProofs LineZFinal TriplexProofs SpecReader2 LineFile ReaderKeep ReaderWires ReaderTurns LineProofs OverheadFile SpecTwo TwoProofs.
Import ListNotations.
Local Open Scope string_scope.
Set Implicit Arguments.

Section Two.
Variables (E : prims) (sch : list (string * string)).
Lemma fill_phases : forall cws objs ws objs' ws', mfold (fill (oh_wire E)) cws (objs, ws) = Ok (objs', ws') ->
  map w_phase ws' = (map w_phase ws ++ map (fun cw => w_phase (snd cw)) cws)%list.
Proof.
  induction cws as [| cw cws IH]; intros objs ws objs' ws' H; cbn [mfold] in H.
  - injection H as <- <-. now rewrite app_nil_r.
  - apply bind_ok in H. destruct H as ([objs1 ws1] & H1 & H). apply IH in H. rewrite H. unfold fill in H1. do 2 inv H1. injection H1 as <- <-.
    unfold oh_wire in Hx0. do 5 inv Hx0. injection Hx0 as <-. rewrite map_app, <- app_assoc. reflexivity.
Qed.
Lemma just_rwl : forall o o' p q x, rwl o o' -> just_two E o p q x -> just_two E o' p q x.
Proof.
  intros o o' p q x R (A & B & C & D). split; [exact A |]. split; [exact B |]. split; [now apply (apart_rwl E _ _ _ R) |].
  intros a b y Y. apply (apart_rwl E _ _ _ R) in Y. eauto.
Qed.
Lemma high_rwl : forall o o' p q x hp hq, rwl o o' -> two_high E o p q x hp hq -> two_high E o' p q x hp hq.
Proof.
  intros o o' p q x hp hq R (A & B & C & D & F & G & H & I). apply (apart_rwl E _ _ _ R) in F, G, H.
  do 7 (split; [assumption |]).
  intros a b y Y. apply (apart_rwl E _ _ _ R) in Y. eauto.
Qed.
Lemma oh_two_places : forall objs o o1 s s' c so ps, untouched_before objs (r_objs s) -> rwl o o1 -> oh_config E o1 s = Ok s' ->
  configured objs o c -> conductors_of c line_phases ps -> (exists n, says c "spacing" n /\ named objs n so) ->
  exists so1 r, rwl so so1 /\ overhead_spacing E so1 ps = Ok r.
Proof.
  intros objs o o1 s s' c so ps UB R H (cn & Scn & Ncn) CO (sn & Ssn & Nsn).
  unfold oh_config in H. rewrite (@says_rwl o o1 "configuration" cn R ltac:(plain) Scn) in H. apply named_dget in Ncn, Nsn.
  destruct (UB _ _ Ncn) as (c1 & Dc1 & Rc). unfold obj_at in H at 1. rewrite Dc1 in H. cbn [pbind] in H. inv H. destruct x as [objs2 ws].
  unfold fill_all in Hx. change ["A"; "B"; "C"; "N"] with line_phases in Hx. rewrite (@wires_rwl c c1 line_phases Rc (or_introl (incl_refl _))) in Hx.
  rewrite (@says_rwl c c1 "spacing" sn Rc ltac:(plain) Ssn) in H. inv H. inv H.
  pose proof (conductors_filter CO) as PS. pose proof (wires_for_phases c line_phases) as WP. rewrite <- PS in WP.
  pose proof (fill_phases _ _ _ Hx) as PT. cbn [map List.app] in PT. rewrite WP in PT.
  apply obj_at_dget in Hx0.
  assert (Rs : rwl so x).
  { destruct (UB _ _ Nsn) as (so1 & Ds1 & Rs1). apply fill_rw in Hx; [| apply oh_wire_rw]. cbn [fst] in Hx. destruct (all_rw_dget _ Hx Ds1) as (so2 & Ds2 & Rs2).
    assert (so2 = x) as -> by congruence. eapply rwl_trans; [exact Rs1 | now apply rw_rwl]. }
  exists x, x0. split; [exact Rs |]. rewrite <- PT. exact Hx1.
Qed.
Lemma file_spacing : forall objs ms name o c so ps, NoDup (map fst objs) -> read_store E sch objs = Ok ms -> In (name, o) objs -> go_class o = "overhead_line" ->
  configured objs o c -> conductors_of c line_phases ps -> (exists n, says c "spacing" n /\ named objs n so) ->
  exists so1 r, rwl so so1 /\ overhead_spacing E so1 ps = Ok r.
Proof.
  intros objs ms name o c so ps ND H I C CF CO SP. destruct (@file_turns E sch objs ms ND H) as (parts & _ & _ & T). apply In_nth_error in I. destruct I as (i & I).
  destruct (T i name o I) as (part & s1 & s2 & o1 & _ & (H1 & H2 & D1 & R & UB & AK & SS)).
  assert (C1 : go_class o1 = "overhead_line") by (destruct R as [Q _]; congruence).
  destruct (@line_turn E sch s1 s2 name o1 "overhead_line" H2 D1 C1 ltac:(cbn; tauto)) as (pt & pi & Gp & Pp & (RO & _ & _)). specialize (RO eq_refl).
  unfold read_overhead in RO. do 3 inv RO.
  exact (@oh_two_places objs o o1 _ x0 c so ps (@set_length_untouched E objs name o1 s1 x UB D1 Hx) (rw_rwl R) Hx0 CF CO SP).
Qed.
Lemma file_two : forall objs ms name o c so ps p q x, NoDup (map fst objs) -> read_store E sch objs = Ok ms -> In (name, o) objs -> go_class o = "overhead_line" ->
  configured objs o c -> conductors_of c line_phases ps -> (exists n, says c "spacing" n /\ named objs n so) ->
  just_two E so p q x -> incl ps [p; q].
Proof.
  intros objs ms name o c so ps p q x ND H I C CF CO SP J. destruct (@file_spacing objs ms name o c so ps ND H I C CF CO SP) as (so1 & r & R & A).
  apply (proj1 (two_places ps (accepted_numeric E ps A) (just_rwl R J))). eauto.
Qed.
Lemma file_high : forall objs ms name o c so ps p q x hp hq, NoDup (map fst objs) -> read_store E sch objs = Ok ms -> In (name, o) objs -> go_class o = "overhead_line" ->
  configured objs o c -> conductors_of c line_phases ps -> (exists n, says c "spacing" n /\ named objs n so) ->
  two_high E so p q x hp hq -> ps <> [] -> incl ps [p; q] /\ (Rabs (hp - hq) <= x)%R.
Proof.
  intros objs ms name o c so ps p q x hp hq ND H I C CF CO SP J NE. destruct (@file_spacing objs ms name o c so ps ND H I C CF CO SP) as (so1 & r & R & A).
  destruct (proj1 (two_heights ps (accepted_numeric E ps A) (high_rwl R J))) as [X | X]; [eauto | contradiction | exact X].
Qed.
End Two.

(** *** the line of the demonstration file *)
From Verif Require Import ReaderWitness LineZWitness ReaderBare ReaderWitness2.
Lemma ab_two : just_two line_prims ab_spacing "A" "B" 2%R.
Proof.
  split; [discriminate |]. split; [lra |]. split; [| intros a b y; apply ab_said].
  destruct ab_gap as [G | G]; [exact G |]. apply ab_said in G. destruct G. discriminate.
Qed.
Lemma ab_numeric : numeric line_prims ab_spacing.
Proof.
  intros p q t t' B S N. destruct (before_in B) as [Hp Hq]. apply gattr_says in S. unfold gattr, ab_spacing, obj in S. cbn [go_attrs] in S.
  apply only_number_digits in N. subst t'.
  cbn in Hp, Hq. destruct Hp as [<- | [<- | [<- | [<- | [<- | []]]]]]; destruct Hq as [<- | [<- | [<- | [<- | [<- | []]]]]]; cbn in S; try discriminate S; injection S as <-; eexists; reflexivity.
Qed.
Lemma ab_refused : forall r, overhead_spacing line_prims ab_spacing ["A"; "C"] <> Ok r.
Proof.
  intros r H. assert (X : incl ["A"; "C"] ["A"; "B"]) by (apply (proj1 (two_places _ ab_numeric ab_two)); eauto).
  specialize (X "C" ltac:(cbn; tauto)). cbn in X. intuition discriminate.
Qed.
Definition high_spacing : gobj := obj "line_spacing" [("distance_AB", "1"); ("distance_AE", "3"); ("distance_BE", "2.5 ft")].
Lemma high_said : forall p q x, apart line_prims high_spacing p q x -> (p = "A" /\ q = "B") \/ (p = "A" /\ q = "E") \/ (p = "B" /\ q = "E").
Proof.
  intros p q x (B & t & t' & S & _). destruct (before_in B) as [Hp Hq]. apply gattr_says in S. unfold gattr, high_spacing, obj in S. cbn [go_attrs] in S.
  cbn in Hp, Hq. destruct Hp as [<- | [<- | [<- | [<- | [<- | []]]]]]; destruct Hq as [<- | [<- | [<- | [<- | [<- | []]]]]]; cbn in S; try discriminate S; tauto.
Qed.
Lemma high_two : two_high line_prims high_spacing "A" "B" 1%R 3%R (5 / 2)%R.
Proof.
  split; [discriminate |]. split; [lra |]. split; [lra |]. split; [lra |].
  split; [| split; [| split; [| exact high_said]]]; (split; [apply before_iff |]).
  - exists 0%nat, 1%nat. repeat split; lia.
  - exists "1", "1". split; [now apply says_dget |]. split; [reflexivity |]. split; [reflexivity | lra].
  - exists 0%nat, 4%nat. repeat split; lia.
  - exists "3", "3". split; [now apply says_dget |]. split; [reflexivity |]. split; [reflexivity | lra].
  - exists 1%nat, 4%nat. repeat split; lia.
  - exists "2.5 ft", "2.5". split; [now apply says_dget |]. split; [reflexivity |]. split; [reflexivity | lra].
Qed.
Lemma high_numeric : numeric line_prims high_spacing.
Proof.
  intros p q t t' B S N. destruct (before_in B) as [Hp Hq]. apply gattr_says in S. unfold gattr, high_spacing, obj in S. cbn [go_attrs] in S.
  apply only_number_digits in N. subst t'.
  cbn in Hp, Hq. destruct Hp as [<- | [<- | [<- | [<- | [<- | []]]]]]; destruct Hq as [<- | [<- | [<- | [<- | [<- | []]]]]]; cbn in S; try discriminate S; injection S as <-; eexists; reflexivity.
Qed.
Lemma high_accepted : exists r, overhead_spacing line_prims high_spacing ["A"; "B"] = Ok r.
Proof.
  apply (proj2 (two_heights _ high_numeric high_two)). right. split; [apply incl_refl |]. unfold Rabs. destruct (Rcase_abs (3 - 5 / 2)); lra.
Qed.
