(** The turn of one object in the loop of Reader.parse. *)
From Coq Require Import Reals ZArith String Ascii List Bool Lia Arith.
From Verif Require Import PyExc Components UnbalancedLine GlmText SpecGlm GlmBase LineImpedance ThreePhase GlmReader SpecReader ReaderBase ReaderLoadProofs ReaderFrame ReaderStore ReaderFile ReaderFrame2.
Import ListNotations.
Local Open Scope string_scope.
Set Implicit Arguments.

(** the same up to rewritten texts and the length *)
Definition rwl (o o' : gobj) : Prop :=
  go_class o = go_class o' /\ forall k, k <> "length" ->
    (gattr o k = None -> gattr o' k = None) /\
    (forall t, gattr o k = Some t -> gattr o' k = Some t \/ allowed k t /\ gattr o' k = Some (digits t)).
Lemma rw_rwl : forall o o', rw o o' -> rwl o o'.
Proof. intros o o' [C R]. split; [exact C |]. intros k _. apply R. Qed.
Lemma rwl_refl : forall o, rwl o o.
Proof. intros o. apply rw_rwl, rw_refl. Qed.
Lemma rwl_trans : forall a b c, rwl a b -> rwl b c -> rwl a c.
Proof.
  intros a b c [E1 R1] [E2 R2]. split; [congruence |]. intros k Nk. destruct (R1 k Nk) as [N1 S1]. destruct (R2 k Nk) as [N2 S2]. split; [auto |].
  intros t H. destruct (S1 t H) as [G | [A G]]; [now apply S2 |].
  destruct (S2 _ G) as [G' | [_ G']]; right; (split; [exact A |]); [exact G' | now rewrite digits_idem in G'].
Qed.
Lemma length_rwl : forall E o r, line_length E o = Ok r -> rwl o (fst r).
Proof.
  intros E o r H. unfold line_length in H. destruct (gattr o "length") as [s |] eqn:G; [| discriminate].
  destruct (contains "km" s); inv H; injection H as <-; [| apply rwl_refl]. cbn. split; [reflexivity |]. intros k N. rewrite gattr_set.
  apply String.eqb_neq in N. rewrite N. split; [auto | intros t' H'; now left].
Qed.
Section Visit.
Variables (E : prims) (sch : list (string * string)).
(** one turn: the object itself and the others *)
Definition turn (name : string) (objs objs' : objects) : Prop := forall n o, dget n objs = Some o ->
  exists o', dget n objs' = Some o' /\ rwl o o' /\ (n <> name -> rw o o').
Lemma turn_rw : forall name objs objs', all_rw objs objs' -> turn name objs objs'.
Proof. intros name objs objs' A n o D. destruct (all_rw_dget _ A D) as (o' & D' & R). exists o'. split; [exact D' |]. split; [now apply rw_rwl | auto]. Qed.
Lemma turn_length : forall name o s r objs', dget name (r_objs s) = Some o -> line_length E o = Ok r ->
  all_rw (r_objs (set_length name (fst r) s)) objs' -> turn name (r_objs s) objs'.
Proof.
  intros name o s r objs' G L A n o1 D. cbn in A. destruct (String.eqb_spec n name) as [-> | N].
  - assert (o1 = o) as -> by congruence. assert (D2 : dget name (dset name (fst r) (r_objs s)) = Some (fst r)) by now rewrite dget_dset, String.eqb_refl.
    destruct (all_rw_dget _ A D2) as (o' & D' & R). exists o'. split; [exact D' |]. split; [| congruence].
    eapply rwl_trans; [eapply length_rwl; eauto | now apply rw_rwl].
  - assert (D2 : dget n (dset name (fst r) (r_objs s)) = Some o1) by (rewrite dget_dset; apply String.eqb_neq in N; now rewrite N).
    destruct (all_rw_dget _ A D2) as (o' & D' & R). exists o'. split; [exact D' |]. split; [now apply rw_rwl | auto].
Qed.
Lemma read_turn : forall s name s', read_object E sch s name = Ok s' -> turn name (r_objs s) (r_objs s').
Proof.
  intros s name s' H. unfold read_object in H. inv H. rename x into o. apply obj_at_dget in Hx.
  assert (SAME : r_objs s' = r_objs s -> turn name (r_objs s) (r_objs s')) by (intros ->; apply turn_rw, all_rw_refl).
  destruct (GlmText.mem (go_class o) shared_config_objects); [injection H as <-; now apply SAME |].
  cbv zeta in H. do 2 inv H.
  destruct (_ || _)%bool; [inv H; injection H as <-; now apply SAME |].
  destruct (_ || _)%bool; [inv H; injection H as <-; now apply SAME |].
  destruct (String.eqb (class_of o) "transformer").
  { unfold read_xfmr in H. inv H. injection H as <-. cbn. apply turn_rw.
    destruct (gattr o "configuration") as [cn |]; [| injection Hx2 as <-; apply all_rw_refl].
    destruct (dget cn (r_objs s)) as [c |] eqn:G; [| injection Hx2 as <-; apply all_rw_refl].
    inv Hx2. injection Hx2 as <-. cbn. eapply all_rw_dset; [exact G | eapply xconf_rw; eauto]. }
  destruct (_ || _)%bool; [inv H; injection H as <-; now apply SAME |].
  destruct (String.eqb (class_of o) "fuse"); [inv H; injection H as <-; now apply SAME |].
  destruct (_ || _)%bool; [injection H as <-; now apply SAME |].
  destruct (String.eqb (class_of o) "overhead_line").
  { unfold read_overhead in H. do 8 inv H. injection H as <-. apply oh_config_rw in Hx3. destruct Hx3 as [A _]. cbn. eapply turn_length; eauto. }
  destruct (String.eqb (class_of o) "triplex_line").
  { unfold read_triplex_line in H. do 6 inv H. injection H as <-. apply tp_config_rw in Hx3. destruct Hx3 as [A _]. cbn. eapply turn_length; eauto. }
  destruct (String.eqb (class_of o) "underground_line").
  { unfold read_underground in H. do 8 inv H. injection H as <-. apply ug_config_rw in Hx3. destruct Hx3 as [A _]. cbn. eapply turn_length; eauto. }
  destruct (String.eqb (class_of o) "capacitor"); [inv H; injection H as <-; now apply SAME |].
  destruct (String.eqb (class_of o) "regulator"); [| discriminate].
  unfold read_reg in H. do 15 inv H. injection H as <-. now apply SAME.
Qed.
(** every other model stays in the store *)
Definition stays (ms ms' : list dmodel) : Prop := forall m, In m ms -> (forall n, m <> MNode n) -> In m ms'.
Lemma same_store_stays : forall a b c, same_store (a ++ b)%list c -> stays a c.
Proof.
  intros a b c H m I N. apply Forall2_app_inv_l in H. destruct H as (c1 & c2 & H & _ & ->). apply in_or_app. left. clear b c2.
  induction H as [| x y a c1 S H IH]; [destruct I |]. destruct I as [-> | I]; [left | right; now apply IH].
  destruct S as [<- | (n & n' & -> & _)]; [reflexivity | now destruct (N n)].
Qed.
Lemma loop_stays : forall objs l s s', all_kept objs (r_objs s) -> (forall n o, In (n, o) l -> dget n objs = Some o) ->
  mfold (read_object E sch) (map fst l) s = Ok s' -> stays (r_store s) (r_store s').
Proof. intros objs l s s' A D H. destruct (loop_ok _ _ _ _ A D H) as (parts & _ & S & _). eapply same_store_stays; eauto. Qed.
Lemma mfold_split : forall S X (f : S -> X -> pres S) a b s r, mfold f (a ++ b) s = Ok r -> exists s1, mfold f a s = Ok s1 /\ mfold f b s1 = Ok r.
Proof.
  intros S X f a. induction a as [| x a IH]; intros b s r H; [exists s; split; [reflexivity | exact H] |].
  cbn in *. inv H. destruct (IH _ _ _ H) as (s1 & H1 & H2). exists s1. rewrite Hx. split; [exact H1 | exact H2].
Qed.
Definition untouched_before (objs objs1 : objects) : Prop := forall n o, dget n objs = Some o -> exists o1, dget n objs1 = Some o1 /\ rwl o o1.
Lemma loop_turns : forall names s s', mfold (read_object E sch) names s = Ok s' ->
  forall n o, dget n (r_objs s) = Some o -> exists o', dget n (r_objs s') = Some o' /\ rwl o o' /\ (~ In n names -> rw o o').
Proof.
  induction names as [| name names IH]; intros s s' H n o D.
  - injection H as <-. exists o. split; [exact D |]. split; [apply rwl_refl | intros _; apply rw_refl].
  - cbn in H. inv H. destruct (read_turn _ _ Hx _ D) as (o1 & D1 & R1 & W1). destruct (IH _ _ H _ _ D1) as (o2 & D2 & R2 & W2).
    exists o2. split; [exact D2 |]. split; [eapply rwl_trans; eauto |]. cbn. intros N. apply (rw_trans (W1 ltac:(intros ->; tauto)) (W2 ltac:(tauto))).
Qed.
Lemma visit : forall objs s' name o, NoDup (map fst objs) -> mfold (read_object E sch) (map fst objs) (start objs) = Ok s' -> In (name, o) objs ->
  exists pre post s1 s2 o1, objs = (pre ++ (name, o) :: post)%list /\ mfold (read_object E sch) (map fst pre) (start objs) = Ok s1 /\
    read_object E sch s1 name = Ok s2 /\ mfold (read_object E sch) (map fst post) s2 = Ok s' /\
    dget name (r_objs s1) = Some o1 /\ rw o o1 /\ untouched_before objs (r_objs s1) /\ stays (r_store s2) (r_store s').
Proof.
  intros objs s' name o ND H I. apply in_split in I. destruct I as (pre & post & EQ). exists pre, post.
  pose proof H as H0. rewrite EQ in H at 1. rewrite map_app in H. apply mfold_split in H. destruct H as (s1 & H1 & H2). cbn [map fst mfold] in H2. inv H2.
  pose proof (@nodup_dget objs ND) as DG. assert (Do : dget name objs = Some o) by (apply DG; rewrite EQ; apply in_or_app; right; now left).
  assert (Np : ~ In name (map fst pre)).
  { rewrite EQ, map_app in ND. cbn [map fst] in ND. apply NoDup_remove_2 in ND. intros X. apply ND. apply in_or_app. now left. }
  destruct (loop_turns _ _ H1 name Do) as (o1 & D1 & _ & W1).
  exists s1, x, o1. split; [exact EQ |]. split; [exact H1 |]. split; [exact Hx |]. split; [exact H2 |]. split; [exact D1 |]. split; [now apply W1 |]. split.
  - intros n on Dn. destruct (loop_turns _ _ H1 n Dn) as (o2 & D2 & R2 & _). eauto.
  - assert (DG' : forall l, incl l objs -> forall n0 o0, In (n0, o0) l -> dget n0 objs = Some o0) by (intros l Hl n0 o0 I0; apply DG, Hl, I0).
    assert (Ipre : incl pre objs) by (rewrite EQ; intros a Ha; apply in_or_app; now left).
    assert (Iat : incl [(name, o)] objs) by (rewrite EQ; intros a [<- | []]; apply in_or_app; right; now left).
    assert (Ipost : incl post objs) by (rewrite EQ; intros a Ha; apply in_or_app; right; now right).
    destruct (@loop_ok E sch objs pre (start objs) s1 (all_kept_refl objs) (DG' pre Ipre) H1) as (_ & _ & _ & A1).
    assert (Hx' : mfold (read_object E sch) (map fst [(name, o)]) s1 = Ok x) by (cbn; now rewrite Hx).
    destruct (@loop_ok E sch objs [(name, o)] s1 x A1 (DG' _ Iat) Hx') as (_ & _ & _ & A2).
    eapply loop_stays; [exact A2 | exact (DG' post Ipost) | exact H2].
Qed.
End Visit.
