(** The conductors of underground lines during the loop over the objects. *)
From Coq Require Import Reals ZArith String Ascii List Bool Lia Arith.
From Verif Require GlmProofs.
From Verif Require Import PyExc SpecComponents SpecUnbalanced Components UnbalancedLine GlmText SpecGlm GlmBase LineImpedance ThreePhase GlmReader SpecReader ReaderBase ReaderLoadProofs ReaderFrame ReaderStore ReaderFile ReaderFrame2 ReaderVisit SpecLineZ SpecReader2 LineFile ReaderKeep ReaderWires ReaderTurns LineProofs CableKeep CableWires SpecCables SpecCableFile.
Import ListNotations.
Local Open Scope string_scope.
Set Implicit Arguments.

Section Turns.
Variables (E : prims) (sch : list (string * string)).
Definition buriedb (objs : objects) (n : string) (o : gobj) : bool :=
  (String.eqb (go_class o) "underground_line" &&
   match gattr o "configuration" with
   | Some cn => match dget cn objs with
                | Some c => existsb (fun p => match gattr c ("conductor_" ++ p) with Some m => String.eqb n m | None => false end) line_phases
                | None => false end
   | None => false end)%bool.
Definition cusedb (objs pre : objects) (n : string) : bool := existsb (fun no => buriedb objs n (snd no)) pre.
Lemma buriedb_iff : forall objs n o, buriedb objs n o = true <-> buried objs n o.
Proof.
  intros objs n o. unfold buriedb, buried, configured. rewrite andb_true_iff, String.eqb_eq. split.
  - intros [C H]. split; [exact C |]. destruct (gattr o "configuration") as [cn |] eqn:G; [| discriminate]. destruct (dget cn objs) as [c |] eqn:D; [| discriminate].
    apply existsb_exists in H. destruct H as (p & I & H). destruct (gattr c ("conductor_" ++ p)) as [m |] eqn:Gm; [| discriminate]. apply String.eqb_eq in H. subst m.
    exists c, p. split; [| split; [exact I | now apply gattr_says]]. exists cn. split; [now apply gattr_says | now apply named_dget].
  - intros [C (c & p & (cn & S & N) & I & Sm)]. split; [exact C |]. apply gattr_says in S, Sm. apply named_dget in N. rewrite S, N. apply existsb_exists. exists p.
    split; [exact I |]. rewrite Sm. apply String.eqb_refl.
Qed.
Lemma cusedb_iff : forall objs pre n, cusedb objs pre n = true <-> exists m o, In (m, o) pre /\ buried objs n o.
Proof.
  intros objs pre n. unfold cusedb. rewrite existsb_exists. split.
  - intros ((m & o) & I & H). exists m, o. split; [exact I | now apply buriedb_iff].
  - intros (m & o & I & H). exists (m, o). split; [exact I | now apply buriedb_iff].
Qed.
Lemma cused_match : forall objs pre c i cw, nth_error (wires_for c line_phases) i = Some cw ->
  ((cusedb objs pre (fst cw) || GlmText.mem (fst cw) (map fst (firstn i (wires_for c line_phases))))%bool = true
   <-> buried_before objs pre c (w_phase (snd cw)) (fst cw)).
Proof.
  intros objs pre c i cw H. destruct (wires_split _ _ _ H) as (l1 & l2 & Q & F). rewrite F, orb_true_iff, cusedb_iff, mem_iff, wires_names. unfold buried_before.
  split; (intros [A | (q & A)]; [now left | right; exists q]).
  - destruct A as [I S]. apply (@before_prefix _ _ _ q Q) in I. tauto.
  - destruct A as (I & B & S). split; [| exact S]. apply (@before_prefix _ _ _ q Q). tauto.
Qed.
Lemma ug_config_state : forall objs U o s s', cstate U objs (r_objs s) -> untouched_before objs (r_objs s) -> all_kept objs (r_objs s) ->
  ug_config E o s = Ok s' -> go_class o = "underground_line" -> cstate (fun n => U n || buriedb objs n o)%bool objs (r_objs s').
Proof.
  intros objs U o s s' S UB AK H C. unfold ug_config in H. unfold buriedb. rewrite C, String.eqb_refl. cbn [andb].
  destruct (gattr o "configuration") as [cn |]; [| injection H as <-; eapply cstate_ext; [| exact S]; intros n; now rewrite orb_false_r].
  inv H. apply obj_at_dget in Hx. destruct (kept_back _ AK Hx) as (c & Dc). rewrite Dc. destruct (UB _ _ Dc) as (c1 & Dc1 & R). assert (x = c1) as -> by congruence.
  inv H. destruct x as [objs2 ws]. unfold fill_all in Hx0. change ["A"; "B"; "C"; "N"] with line_phases in Hx0. rewrite (@wires_rwl c c1 line_phases R (or_introl (incl_refl _))) in Hx0.
  destruct (@ug_fill_state E (wires_for c line_phases) U objs (r_objs s) [] objs2 ws (new_wires c line_phases) S Hx0) as (S2 & _).
  assert (S3 : cstate (fun n => U n || existsb (fun p => match gattr c ("conductor_" ++ p) with Some m => String.eqb n m | None => false end) line_phases)%bool objs objs2).
  { eapply cstate_ext; [| exact S2]. intros n. cbv beta. now rewrite uses_wires. }
  destruct (gattr c1 "spacing") as [sn |]; [| injection H as <-; exact S3].
  inv H. destruct (all_some (map w_outer ws)) as [outer |]; [| injection H as <-; exact S3].
  inv H. injection H as <-. cbn. eapply cstate_keep; [exact S3 |]. apply obj_at_dget in Hx1. eapply all_ckeep_dset; [exact Hx1 |].
  unfold underground_spacing in Hx2. apply ug_pairs_ckeep in Hx2; [exact Hx2 | apply incl_refl].
Qed.
Lemma cable_loop : forall objs, (forall n o, In (n, o) objs -> dget n objs = Some o) -> forall pre s, incl pre objs ->
  mfold (read_object E sch) (map fst pre) (start objs) = Ok s -> cstate (cusedb objs pre) objs (r_objs s).
Proof.
  intros objs DG pre. induction pre as [| [n o] pre IH] using rev_ind; intros s I H.
  - injection H as <-. exact (cstate_start objs).
  - rewrite map_app in H. cbn [map fst] in H. apply mfold_split in H. destruct H as (s1 & H1 & H2). cbn [mfold] in H2. inv H2. injection H2 as <-.
    assert (Ip : incl pre objs) by (intros a Ha; apply I, in_or_app; now left).
    specialize (IH s1 Ip H1). assert (Do : dget n objs = Some o) by (apply DG, I, in_or_app; right; now left).
    assert (Ipre : forall n0 o0, In (n0, o0) pre -> dget n0 objs = Some o0) by (intros n0 o0 I0; apply DG, Ip, I0).
    destruct (@loop_ok E sch objs pre (start objs) s1 (all_kept_refl objs) Ipre H1) as (_ & _ & _ & A1).
    assert (UB : untouched_before objs (r_objs s1)) by (intros m om Dm; destruct (@loop_turns E sch _ _ _ H1 m om Dm) as (o3 & D3 & R3 & _); eauto).
    destruct (UB _ _ Do) as (o1 & D1 & R1).
    assert (X : forall m, (cusedb objs pre m || buriedb objs m o)%bool = cusedb objs (pre ++ [(n, o)])%list m).
    { intros m. unfold cusedb. rewrite existsb_app. cbn [existsb snd]. now rewrite orb_false_r. }
    eapply cstate_ext; [exact X |].
    destruct (string_dec (go_class o) "underground_line") as [C | NC].
    + assert (C1 : go_class o1 = "underground_line") by (destruct R1 as [Q _]; congruence).
      unfold read_object in Hx. inv Hx. apply obj_at_dget in Hx0. assert (x0 = o1) as -> by congruence.
      unfold class_of in Hx. rewrite C1 in Hx. cbn [GlmText.mem existsb shared_config_objects String.eqb Ascii.eqb Bool.eqb orb andb] in Hx. cbv zeta in Hx. do 2 inv Hx.
      cbn [String.eqb Ascii.eqb Bool.eqb orb] in Hx. unfold read_underground in Hx. do 8 inv Hx. injection Hx as <-. cbn.
      assert (RL : rwl o1 (fst x2)) by (eapply length_rwl; eauto).
      assert (UB2 : untouched_before objs (r_objs (set_length n (fst x2) s1))).
      { intros m om Dm. destruct (UB _ _ Dm) as (om1 & Dm1 & Rm). cbn. rewrite dget_dset. destruct (String.eqb_spec m n) as [-> | _]; [| eauto].
        assert (om1 = o1) as -> by congruence. exists (fst x2). split; [reflexivity | eapply rwl_trans; eauto]. }
      assert (AK2 : all_kept objs (r_objs (set_length n (fst x2) s1))).
      { eapply all_kept_trans; [exact A1 |]. cbn. eapply all_kept_dset; [exact Hx0 | eapply length_kept; eauto]. }
      assert (SS := @ug_config_state objs (cusedb objs pre) o1 (set_length n (fst x2) s1) x3 (cstate_keep IH (length_ckeep E n s1 Hx0 Hx3)) UB2 AK2 Hx4 C1).
      eapply cstate_ext; [| exact SS]. intros m. cbv beta. f_equal. unfold buriedb. rewrite C, C1.
      rewrite (@rwl_plain o o1 "configuration" R1); [reflexivity |]. intros Z. cbn in Z. repeat (destruct Z as [Z | Z]; [discriminate Z |]). destruct Z.
    + eapply cstate_keep; [| eapply read_ckeep; [exact Hx | exact D1 |]].
      * eapply cstate_ext; [| exact IH]. intros m. unfold buriedb. apply String.eqb_neq in NC. rewrite NC. cbn. now rewrite orb_false_r.
      * destruct R1 as [Q _]. congruence.
Qed.
End Turns.
