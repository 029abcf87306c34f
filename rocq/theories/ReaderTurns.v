(** Reader.parse object by object: position, turn and part of the store. *)
From Coq Require Import Reals ZArith String Ascii List Bool Lia Arith.
From Verif Require GlmProofs.
From Verif Require Import PyExc Components UnbalancedLine GlmText SpecGlm GlmBase LineImpedance ThreePhase GlmReader SpecReader ReaderBase ReaderLoadProofs ReaderFrame ReaderStore ReaderFile ReaderFrame2 ReaderVisit SpecLineZ SpecReader2 LineFile ReaderKeep ReaderWires.
Import ListNotations.
Local Open Scope string_scope.
Set Implicit Arguments.

Section Turns.
Variables (E : prims) (sch : list (string * string)).
(** the turn of the object after those of pre *)
Definition at_turn (objs pre : objects) (name : string) (o : gobj) (part : list dmodel) (s1 s2 : rstate) (o1 : gobj) : Prop :=
  mfold (read_object E sch) (map fst pre) (start objs) = Ok s1 /\ read_object E sch s1 name = Ok s2 /\
  dget name (r_objs s1) = Some o1 /\ rw o o1 /\ untouched_before objs (r_objs s1) /\ all_kept objs (r_objs s1) /\
  same_store (r_store s1 ++ part)%list (r_store s2).
Lemma turns_from : forall objs, NoDup (map fst objs) -> forall post pre s1 s', objs = (pre ++ post)%list ->
  mfold (read_object E sch) (map fst pre) (start objs) = Ok s1 -> mfold (read_object E sch) (map fst post) s1 = Ok s' ->
  exists parts, Forall2 (fun no part => contributes E sch (fst no) (snd no) part) post parts /\ same_store (r_store s1 ++ concat parts)%list (r_store s') /\
    forall i name o, nth_error post i = Some (name, o) -> exists part t1 t2 o1, nth_error parts i = Some part /\
      at_turn objs (pre ++ firstn i post)%list name o part t1 t2 o1.
Proof.
  intros objs ND. pose proof (@nodup_dget objs ND) as DG. induction post as [| [n o] post IH]; intros pre s1 s' EQ H1 H2.
  - injection H2 as <-. exists []. split; [constructor |]. cbn. rewrite app_nil_r. split; [apply same_store_refl |]. intros [| i] name o X; discriminate X.
  - cbn [map fst mfold] in H2. inv H2.
    assert (Do : dget n objs = Some o) by (apply DG; rewrite EQ; apply in_or_app; right; now left).
    assert (Np : ~ In n (map fst pre)).
    { rewrite EQ, map_app in ND. cbn [map fst] in ND. apply NoDup_remove_2 in ND. intros X. apply ND. apply in_or_app. now left. }
    destruct (@loop_turns E sch _ _ _ H1 n o Do) as (o1 & D1 & _ & W1).
    assert (Ipre : forall n0 o0, In (n0, o0) pre -> dget n0 objs = Some o0) by (intros n0 o0 I0; apply DG; rewrite EQ; apply in_or_app; now left).
    destruct (@loop_ok E sch objs pre (start objs) s1 (all_kept_refl objs) Ipre H1) as (_ & _ & _ & A1).
    destruct (read_object_ok _ _ _ _ Hx) as (o2 & part & N & C & St & SS). apply named_dget in N. assert (o2 = o1) as -> by congruence.
    destruct (IH (pre ++ [(n, o)])%list x s') as (parts & F & S' & T).
    + rewrite <- app_assoc. exact EQ.
    + rewrite map_app. cbn [map fst]. rewrite GlmProofs.mfold_app, H1. cbn. now rewrite Hx.
    + exact H2.
    + exists (part :: parts). split; [| split].
      * constructor; [| exact F]. cbn. destruct (all_kept_dget _ A1 Do) as (o3 & G & K). assert (o3 = o1) as -> by congruence. eapply kept_contributes; eauto.
      * cbn [concat]. rewrite app_assoc. eapply same_store_trans; [| exact S']. apply same_store_app; [exact SS | apply same_store_refl].
      * intros [| i] name o' Hi; cbn [nth_error] in Hi.
        -- injection Hi as <- <-. exists part, s1, x, o1. split; [reflexivity |]. cbn [firstn]. rewrite app_nil_r.
           split; [exact H1 |]. split; [exact Hx |]. split; [exact D1 |]. split; [now apply W1 |]. split; [| split; [exact A1 | exact SS]].
           intros m om Dm. destruct (@loop_turns E sch _ _ _ H1 m om Dm) as (o3 & D3 & R3 & _). eauto.
        -- destruct (T i name o' Hi) as (part' & t1 & t2 & o3 & P & A). exists part', t1, t2, o3. split; [exact P |].
           cbn [firstn]. rewrite <- app_assoc in A. exact A.
Qed.
Lemma file_turns : forall objs ms, NoDup (map fst objs) -> read_store E sch objs = Ok ms ->
  exists parts, Forall2 (fun no part => contributes E sch (fst no) (snd no) part) objs parts /\ Forall2 same_model (concat parts) ms /\
    forall i name o, nth_error objs i = Some (name, o) -> exists part t1 t2 o1, nth_error parts i = Some part /\
      at_turn objs (firstn i objs) name o part t1 t2 o1.
Proof.
  intros objs ms ND H. unfold read_store in H. inv H. injection H as <-.
  destruct (@turns_from objs ND objs [] (start objs) x eq_refl eq_refl Hx) as (parts & F & S & T). exists parts. auto.
Qed.
(** one appended model that is not a node is the part *)
Lemma part_one : forall a part m, (forall n, m <> MNode n) -> same_store (a ++ part)%list (a ++ [m])%list -> part = [m].
Proof.
  intros a part m N H. induction a as [| x a IH]; cbn in H.
  - unfold same_store in H. inversion H as [| y ? l ? S1 S2 E1 E2]. subst. inversion S2. subst. destruct S1 as [-> | (n & n' & _ & X & _)]; [reflexivity |]. now destruct (N n').
  - unfold same_store in H. inversion H; subst. auto.
Qed.
(** *** the texts of conductors *)
Definition usesb (objs : objects) (n : string) (o : gobj) : bool :=
  (String.eqb (go_class o) "overhead_line" &&
   match gattr o "configuration" with
   | Some cn => match dget cn objs with
                | Some c => existsb (fun p => match gattr c ("conductor_" ++ p) with Some m => String.eqb n m | None => false end) line_phases
                | None => false end
   | None => false end)%bool.
Definition usedb (objs pre : objects) (n : string) : bool := existsb (fun no => usesb objs n (snd no)) pre.
Lemma usesb_iff : forall objs n o, usesb objs n o = true <-> uses objs n o.
Proof.
  intros objs n o. unfold usesb, uses, configured. rewrite andb_true_iff, String.eqb_eq. split.
  - intros [C H]. split; [exact C |]. destruct (gattr o "configuration") as [cn |] eqn:G; [| discriminate]. destruct (dget cn objs) as [c |] eqn:D; [| discriminate].
    apply existsb_exists in H. destruct H as (p & I & H). destruct (gattr c ("conductor_" ++ p)) as [m |] eqn:Gm; [| discriminate]. apply String.eqb_eq in H. subst m.
    exists c, p. split; [| split; [exact I | now apply gattr_says]]. exists cn. split; [now apply gattr_says | now apply named_dget].
  - intros [C (c & p & (cn & S & N) & I & Sm)]. split; [exact C |]. apply gattr_says in S, Sm. apply named_dget in N. rewrite S, N. apply existsb_exists. exists p.
    split; [exact I |]. rewrite Sm. apply String.eqb_refl.
Qed.
Lemma usedb_iff : forall objs pre n, usedb objs pre n = true <-> exists m o, In (m, o) pre /\ uses objs n o.
Proof.
  intros objs pre n. unfold usedb. rewrite existsb_exists. split.
  - intros ((m & o) & I & H). exists m, o. split; [exact I | now apply usesb_iff].
  - intros (m & o & I & H). exists (m, o). split; [exact I | now apply usesb_iff].
Qed.
Lemma kept_back : forall l l' n o', all_kept l l' -> dget n l' = Some o' -> exists o, dget n l = Some o.
Proof.
  unfold all_kept. intros l l' n o' H. induction H as [| [k v] [k' v'] l l' [Q K] H IH]; cbn in *; [discriminate |]. subst k'.
  destruct (String.eqb_spec n k); [| apply IH]. eauto.
Qed.
Lemma cond_rwl : forall c c1 p, rwl c c1 -> In p line_phases \/ In p triplex_phases -> gattr c1 ("conductor_" ++ p) = gattr c ("conductor_" ++ p).
Proof.
  intros c c1 p R I. apply (rwl_plain R). intros X. cbn [In line_phases triplex_phases] in I.
  assert (Y : p <> "resistance") by (intros ->; destruct I as [I | I]; repeat (destruct I as [I | I]; [discriminate I |]); destruct I).
  destruct (cond_plain p) as [N | Q]; [tauto |]. apply Y. cbn in Q. now injection Q.
Qed.
Lemma wires_rwl : forall c c1 l, rwl c c1 -> incl l line_phases \/ incl l triplex_phases -> wires_for c1 l = wires_for c l.
Proof.
  intros c c1 l R I. unfold wires_for. rewrite !flat_map_concat_map. f_equal. apply map_ext_in. intros p Hp. rewrite (@cond_rwl c c1 p R); [reflexivity |].
  destruct I as [I | I]; [left | right]; now apply I.
Qed.
Lemma uses_wires : forall c n, GlmText.mem n (map fst (wires_for c line_phases)) =
  existsb (fun p => match gattr c ("conductor_" ++ p) with Some m => String.eqb n m | None => false end) line_phases.
Proof.
  intros c n. unfold wires_for. generalize line_phases. intros l. induction l as [| p l IH]; [reflexivity |]. cbn [flat_map existsb].
  destruct (gattr c ("conductor_" ++ p)); cbn [List.app map fst GlmText.mem existsb]; [now rewrite <- IH | exact IH].
Qed.
Lemma new_wires : forall c l cw, In cw (wires_for c l) -> snd cw = new_wire (w_phase (snd cw)).
Proof. intros c l cw I. now apply wires_for_in in I. Qed.
Lemma oh_config_state : forall objs U o s s', state U objs (r_objs s) -> untouched_before objs (r_objs s) -> all_kept objs (r_objs s) ->
  oh_config E o s = Ok s' -> go_class o = "overhead_line" -> state (fun n => U n || usesb objs n o)%bool objs (r_objs s').
Proof.
  intros objs U o s s' S UB AK H C. unfold oh_config in H. unfold usesb. rewrite C, String.eqb_refl. cbn [andb].
  destruct (gattr o "configuration") as [cn |]; [| injection H as <-; eapply state_ext; [| exact S]; intros n; now rewrite orb_false_r].
  inv H. apply obj_at_dget in Hx. destruct (kept_back _ AK Hx) as (c & Dc). rewrite Dc. destruct (UB _ _ Dc) as (c1 & Dc1 & R). assert (x = c1) as -> by congruence.
  inv H. destruct x as [objs2 ws]. unfold fill_all in Hx0. change ["A"; "B"; "C"; "N"] with line_phases in Hx0. rewrite (@wires_rwl c c1 line_phases R (or_introl (incl_refl _))) in Hx0.
  destruct (@fill_state E (wires_for c line_phases) U objs (r_objs s) [] objs2 ws (new_wires c line_phases) S Hx0) as (S2 & _).
  assert (S3 : state (fun n => U n || existsb (fun p => match gattr c ("conductor_" ++ p) with Some m => String.eqb n m | None => false end) line_phases)%bool objs objs2).
  { eapply state_ext; [| exact S2]. intros n. cbv beta. now rewrite uses_wires. }
  destruct (gattr c1 "spacing") as [sn |]; [| injection H as <-; exact S3].
  inv H. inv H. injection H as <-. cbn. eapply state_keep; [exact S3 |]. apply obj_at_dget in Hx1. eapply all_keep_dset; [exact Hx1 | eapply spacing_keep; eauto].
Qed.
Lemma loop_state : forall objs, (forall n o, In (n, o) objs -> dget n objs = Some o) -> forall pre s, incl pre objs ->
  mfold (read_object E sch) (map fst pre) (start objs) = Ok s -> state (usedb objs pre) objs (r_objs s).
Proof.
  intros objs DG pre. induction pre as [| [n o] pre IH] using rev_ind; intros s I H.
  - injection H as <-. exact (state_start objs).
  - rewrite map_app in H. cbn [map fst] in H. apply mfold_split in H. destruct H as (s1 & H1 & H2). cbn [mfold] in H2. inv H2. injection H2 as <-.
    assert (Ip : incl pre objs) by (intros a Ha; apply I, in_or_app; now left).
    specialize (IH s1 Ip H1). assert (Do : dget n objs = Some o) by (apply DG, I, in_or_app; right; now left).
    assert (Ipre : forall n0 o0, In (n0, o0) pre -> dget n0 objs = Some o0) by (intros n0 o0 I0; apply DG, Ip, I0).
    destruct (@loop_ok E sch objs pre (start objs) s1 (all_kept_refl objs) Ipre H1) as (_ & _ & _ & A1).
    assert (UB : untouched_before objs (r_objs s1)) by (intros m om Dm; destruct (@loop_turns E sch _ _ _ H1 m om Dm) as (o3 & D3 & R3 & _); eauto).
    destruct (UB _ _ Do) as (o1 & D1 & R1).
    assert (X : forall m, (usedb objs pre m || usesb objs m o)%bool = usedb objs (pre ++ [(n, o)])%list m).
    { intros m. unfold usedb. rewrite existsb_app. cbn [existsb snd]. now rewrite orb_false_r. }
    eapply state_ext; [exact X |].
    destruct (string_dec (go_class o) "overhead_line") as [C | NC].
    + assert (C1 : go_class o1 = "overhead_line") by (destruct R1 as [Q _]; congruence).
      unfold read_object in Hx. inv Hx. apply obj_at_dget in Hx0. assert (x0 = o1) as -> by congruence.
      unfold class_of in Hx. rewrite C1 in Hx. cbn [GlmText.mem existsb shared_config_objects String.eqb Ascii.eqb Bool.eqb orb andb] in Hx. cbv zeta in Hx. do 2 inv Hx.
      cbn [String.eqb Ascii.eqb Bool.eqb orb] in Hx. unfold read_overhead in Hx. do 8 inv Hx. injection Hx as <-. cbn.
      assert (RL : rwl o1 (fst x2)) by (eapply length_rwl; eauto).
      assert (Q : go_class (fst x2) = "overhead_line") by (destruct RL as [Q _]; congruence).
      assert (UB2 : untouched_before objs (r_objs (set_length n (fst x2) s1))).
      { intros m om Dm. destruct (UB _ _ Dm) as (om1 & Dm1 & Rm). cbn. rewrite dget_dset. destruct (String.eqb_spec m n) as [-> | _]; [| eauto].
        assert (om1 = o1) as -> by congruence. exists (fst x2). split; [reflexivity | eapply rwl_trans; eauto]. }
      assert (AK2 : all_kept objs (r_objs (set_length n (fst x2) s1))).
      { eapply all_kept_trans; [exact A1 |]. cbn. eapply all_kept_dset; [exact Hx0 | eapply length_kept; eauto]. }
      assert (SS := @oh_config_state objs (usedb objs pre) o1 (set_length n (fst x2) s1) x3 (state_keep IH (length_keep E n s1 Hx0 Hx3)) UB2 AK2 Hx4 C1).
      eapply state_ext; [| exact SS]. intros m. cbv beta. f_equal. unfold usesb. rewrite C, C1.
      rewrite (@rwl_plain o o1 "configuration" R1); [reflexivity |]. intros Z. cbn in Z. repeat (destruct Z as [Z | Z]; [discriminate Z |]). destruct Z.
    + eapply state_keep; [| eapply read_keep; [exact Hx | exact D1 |]].
      * eapply state_ext; [| exact IH]. intros m. unfold usesb. apply String.eqb_neq in NC. rewrite NC. cbn. now rewrite orb_false_r.
      * destruct R1 as [Q _]. congruence.
Qed.
End Turns.
