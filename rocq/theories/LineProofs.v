(** Lines, from the file to the store. *)
From Coq Require Import Reals ZArith String Ascii List Bool Lia Lra Arith.
From Verif Require Import PyExc SpecComponents SpecUnbalanced Components UnbalancedLine GlmText SpecGlm GlmBase LineImpedance ThreePhase GlmReader SpecReader ReaderBase ReaderLoadProofs ReaderFrame ReaderStore ReaderFile ReaderFrame2 ReaderVisit SpecLineZ KronProofs CarsonProofs SpacingProofs LineZFinal TriplexProofs SpecReader2 LineFile ReaderKeep ReaderWires ReaderTurns.
Import ListNotations.
Local Open Scope string_scope.
Set Implicit Arguments.

Lemma gap_fun : forall E o p q x y, gap E o p q x -> gap E o p q y -> x = y.
Proof.
  intros E o p q x y A B. destruct (gap_spots A) as (i & j & Hi & Hj & N & -> & ->).
  destruct (Nat.lt_trichotomy i j) as [L | [L | L]]; [| lia |].
  - apply (gap_iff E o x L Hj) in A. apply (gap_iff E o y L Hj) in B. congruence.
  - apply gap_sym in A, B. apply (gap_iff E o x L Hi) in A. apply (gap_iff E o y L Hi) in B. congruence.
Qed.
Lemma measured_valued : forall E cd k (u : bool) used x, wkey k -> (u = true <-> used) ->
  measured E cd k (wunit k) (wfactor k) used x -> valued E k u (gattr cd k) = Some x.
Proof.
  intros E cd k u used x W U (t & S & M). apply gattr_says in S. rewrite S. cbn [valued]. destruct M as [[N F] | [P (y & A & M)]].
  - apply contains_not in N. now rewrite N.
  - apply contains_part in P. rewrite P. apply among_digits in A. rewrite A. cbn. destruct M as [[H ->] | [H ->]].
    + apply U in H. now rewrite H.
    + destruct u; [tauto | reflexivity].
Qed.
Lemma measured_ext : forall E cd k unit f f' used x, (forall y, f y = f' y) -> measured E cd k unit f used x -> measured E cd k unit f' used x.
Proof. intros E cd k unit f f' used x H (t & S & M). exists t. split; [exact S |]. destruct M as [M | [P (y & A & M)]]; [now left | right]. split; [exact P |]. exists y. now rewrite <- H. Qed.
Lemma measured_ohm : forall E cd (u : bool) used x, (u = true <-> used) -> measured E cd "resistance" "Ohm/km" per_mile used x ->
  valued E "resistance" u (gattr cd "resistance") = Some x.
Proof.
  intros E cd u used x U M. eapply measured_valued; [now left | exact U |]. eapply measured_ext; [| exact M]. intros y. unfold per_mile. cbn. lra.
Qed.
Lemma measured_cm : forall E cd (u : bool) used x, (u = true <-> used) -> measured E cd "geometric_mean_radius" "cm" cm_to_feet used x ->
  valued E "geometric_mean_radius" u (gattr cd "geometric_mean_radius") = Some x.
Proof.
  intros E cd u used x U M. eapply measured_valued; [now right | exact U |]. eapply measured_ext; [| exact M]. intros y. unfold cm_to_feet. cbn. lra.
Qed.
(** *** positions of wires *)
Lemma wires_split : forall c l i cw, nth_error (wires_for c l) i = Some cw ->
  exists l1 l2, l = (l1 ++ w_phase (snd cw) :: l2)%list /\ firstn i (wires_for c l) = wires_for c l1.
Proof.
  intros c l. induction l as [| p l IH]; intros i cw H; [destruct i; discriminate H |]. unfold wires_for in *. cbn [flat_map] in H.
  destruct (gattr c ("conductor_" ++ p)) as [m |] eqn:G; cbn [List.app] in H.
  - destruct i as [| i].
    + injection H as <-. exists [], l. split; reflexivity.
    + destruct (IH i cw H) as (l1 & l2 & -> & F). exists (p :: l1), l2. split; [reflexivity |]. cbn [flat_map]. rewrite G. cbn [List.app firstn]. now rewrite F.
  - destruct (IH i cw H) as (l1 & l2 & -> & F). exists (p :: l1), l2. split; [reflexivity |]. cbn [flat_map]. rewrite G. exact F.
Qed.
Lemma wires_names : forall c l n, In n (map fst (wires_for c l)) <-> exists q, In q l /\ says c ("conductor_" ++ q) n.
Proof.
  intros c l n. rewrite in_map_iff. split.
  - intros (cw & <- & I). destruct (wires_for_in _ _ _ I) as (Ip & G & _). exists (w_phase (snd cw)). split; [exact Ip | now apply gattr_says].
  - intros (q & I & S). apply gattr_says in S. exists (n, new_wire q). split; [reflexivity |]. unfold wires_for. apply in_flat_map. exists q. split; [exact I |].
    rewrite S. now left.
Qed.
Lemma before_prefix : forall l1 p l2 q, line_phases = (l1 ++ p :: l2)%list -> (In q l1 <-> In q line_phases /\ before q p).
Proof.
  intros l1 p l2 q H. split.
  - intros I. split; [rewrite H; apply in_or_app; now left |]. apply in_split in I. destruct I as (a & b & ->). exists a, b, (l2 ++ ["E"])%list.
    change spots with (line_phases ++ ["E"])%list. rewrite H. repeat (rewrite <- app_assoc; cbn [List.app]). reflexivity.
  - intros [_ B]. apply before_iff in B. destruct B as (i & j & L & Hj & -> & Q).
    assert (X : exists k, k < 4 /\ p = spot k /\ l1 = firstn k line_phases).
    { unfold line_phases in H.
      destruct l1 as [| a1 l1]; [injection H as <- _; exists 0; repeat split; lia |]. injection H as <- H.
      destruct l1 as [| a2 l1]; [injection H as <- _; exists 1; repeat split; lia |]. injection H as <- H.
      destruct l1 as [| a3 l1]; [injection H as <- _; exists 2; repeat split; lia |]. injection H as <- H.
      destruct l1 as [| a4 l1]; [injection H as <- _; exists 3; repeat split; lia |]. injection H as <- H. destruct l1; discriminate H. }
    destruct X as (k & Hk & Qk & ->). assert (j = k) as -> by (apply spot_inj; [lia | lia | congruence]).
    destruct k as [| [| [| [| k]]]]; try lia; destruct i as [| [| [| i]]]; try lia; cbn; tauto.
Qed.
Lemma used_match : forall objs pre c i cw, nth_error (wires_for c line_phases) i = Some cw ->
  ((usedb objs pre (fst cw) || GlmText.mem (fst cw) (map fst (firstn i (wires_for c line_phases))))%bool = true
   <-> used_before objs pre c (w_phase (snd cw)) (fst cw)).
Proof.
  intros objs pre c i cw H. destruct (wires_split _ _ _ H) as (l1 & l2 & Q & F). rewrite F, orb_true_iff, usedb_iff, mem_iff, wires_names. unfold used_before.
  split; (intros [A | (q & A)]; [now left | right; exists q]).
  - destruct A as [I S]. apply (@before_prefix _ _ _ q Q) in I. tauto.
  - destruct A as (I & B & S). split; [| exact S]. apply (@before_prefix _ _ _ q Q). tauto.
Qed.

Section Lines.
Variables (E : prims) (sch : list (string * string)).
Lemma says_rwl : forall o o1 k t, rwl o o1 -> ~ In k rewritten -> says o k t -> gattr o1 k = Some t.
Proof. intros o o1 k t R N S. rewrite (rwl_plain R) by exact N. now apply gattr_says. Qed.
Ltac plain := let Z := fresh in intros Z; cbn in Z; repeat (destruct Z as [Z | Z]; [discriminate Z |]); destruct Z.
(** *** ampacities *)
Lemma fill_amps : forall f, wire_frame f ->
  (forall p d i c r, f (insulate d i (new_wire p)) c = Ok r -> w_phase (snd r) = p /\ opt_number E c "rating.summer.emergency" (w_emerg (snd r))) ->
  forall objs objs1 c cws objs' ws', untouched_before objs objs1 -> all_kept objs objs1 ->
  (forall cw, In cw cws -> exists d i, snd cw = insulate d i (new_wire (w_phase (snd cw))) /\ says c ("conductor_" ++ w_phase (snd cw)) (fst cw)) ->
  mfold (fill f) cws (objs1, []) = Ok (objs', ws') ->
  Forall2 (fun cw w => w_phase w = w_phase (snd cw) /\ exists n cd, says c ("conductor_" ++ w_phase (snd cw)) n /\ named objs n cd /\
    opt_number E cd "rating.summer.emergency" (w_emerg w)) cws ws'.
Proof.
  intros f F V objs objs1 c cws objs' ws' UB AK New H.
  assert (EX : forall cw, In cw cws -> dget (fst cw) objs1 <> None).
  { clear - H. revert H. generalize (@nil wire) as ws0. revert objs1. induction cws as [| cw cws IH]; intros objs1 ws0 H x I; [destruct I |].
    cbn [mfold] in H. inv H. unfold fill in Hx. inv Hx. inv Hx. injection Hx as <-. apply obj_at_dget in Hx0. destruct I as [-> | I]; [congruence |].
    apply (IH _ _ H) in I. rewrite dget_dset in I. destruct (String.eqb_spec (fst x) (fst cw)) as [-> | _]; [congruence | exact I]. }
  set (P := fun (cw : string * wire) (c1 : gobj) => exists cd, dget (fst cw) objs = Some cd /\ rwl cd c1 /\ In cw cws).
  destruct (@fill_ok f (fun cw w => w_phase w = w_phase (snd cw) /\ exists n cd, says c ("conductor_" ++ w_phase (snd cw)) n /\ named objs n cd /\
    opt_number E cd "rating.summer.emergency" (w_emerg w)) P F) with (cws := cws) (objs := objs1) (ws0 := @nil wire) (objs' := objs') (ws' := ws') as (t & -> & T).
  - intros cw c1 c2 (cd & D & R & I) R2. exists cd. split; [exact D |]. split; [| exact I]. eapply rwl_trans; [exact R | now apply rw_rwl].
  - intros cw c1 r (cd & D & R & I) Hf. destruct (New cw I) as (d & i & Q & S). rewrite Q in Hf. destruct (V _ _ _ _ _ Hf) as [V1 V2]. split; [exact V1 |].
    exists (fst cw), cd. split; [exact S |]. split; [now apply named_dget |]. unfold opt_number, number in *.
    assert (K : gattr c1 "rating.summer.emergency" = gattr cd "rating.summer.emergency") by (apply (rwl_plain R); plain).
    destruct V2 as [[Si ->] | (x & (tx & Sx & Fx) & ->)]; [left | right].
    + split; [| reflexivity]. apply gattr_silent. apply gattr_silent in Si. congruence.
    + exists x. split; [| reflexivity]. exists tx. split; [| exact Fx]. apply gattr_says. apply gattr_says in Sx. congruence.
  - intros cw I. destruct (dget (fst cw) objs1) as [c1 |] eqn:D1; [| now destruct (EX cw I)]. destruct (kept_back _ AK D1) as (cd & D).
    destruct (UB _ _ D) as (c2 & D2 & R). assert (c2 = c1) as -> by congruence. exists c1. split; [reflexivity |]. exists cd. auto.
  - exact H.
  - exact T.
Qed.
End Lines.
