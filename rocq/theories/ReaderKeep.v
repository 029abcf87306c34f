(** Resistance and radius of conductors: only overhead lines rewrite them. *)
From Coq Require Import Reals ZArith String Ascii List Bool Lia Arith.
From Verif Require Import PyExc Components UnbalancedLine GlmText SpecGlm GlmBase LineImpedance ThreePhase GlmReader SpecReader ReaderBase ReaderLoadProofs ReaderFrame ReaderStore ReaderFile ReaderFrame2 ReaderVisit.
Import ListNotations.
Local Open Scope string_scope.
Set Implicit Arguments.

Definition wkey (k : string) : Prop := k = "resistance" \/ k = "geometric_mean_radius".
Definition keep (o o' : gobj) : Prop := forall k, wkey k -> gattr o' k = gattr o k.
Lemma keep_refl : forall o, keep o o.
Proof. intros o k _. reflexivity. Qed.
Lemma keep_trans : forall a b c, keep a b -> keep b c -> keep a c.
Proof. intros a b c H K k W. now rewrite K, H. Qed.
Lemma keep_set : forall o k t, ~ wkey k -> keep o (gset_raw o k t).
Proof. intros o k t N k' W. rewrite gattr_set. destruct (String.eqb_spec k' k) as [-> | _]; [tauto | reflexivity]. Qed.
Definition all_keep (objs objs' : objects) : Prop := forall n o, dget n objs = Some o -> exists o', dget n objs' = Some o' /\ keep o o'.
Lemma all_keep_refl : forall l, all_keep l l.
Proof. intros l n o D. exists o. split; [exact D | apply keep_refl]. Qed.
Lemma all_keep_trans : forall a b c, all_keep a b -> all_keep b c -> all_keep a c.
Proof. intros a b c H K n o D. destruct (H n o D) as (o1 & D1 & K1). destruct (K n o1 D1) as (o2 & D2 & K2). eauto using keep_trans. Qed.
Lemma all_keep_dset : forall l n o o', dget n l = Some o -> keep o o' -> all_keep l (dset n o' l).
Proof.
  intros l n o o' D K m om Dm. rewrite dget_dset. destruct (String.eqb_spec m n) as [-> | _].
  - exists o'. split; [reflexivity |]. assert (om = o) as -> by congruence. exact K.
  - exists om. split; [exact Dm | apply keep_refl].
Qed.
Ltac nokey := intros [X | X]; discriminate X.

Section Keep.
Variables (E : prims) (sch : list (string * string)).
Ltac inv H := apply bind_ok in H; let x := fresh "x" in let Hx := fresh "Hx" in destruct H as (x & Hx & H).
Lemma rating_keep : forall c k r, ~ wkey k -> rating E c k = Ok r -> keep c (fst r).
Proof.
  intros c k r I H. unfold rating in H. destruct (gattr c k) as [s |] eqn:G; [| injection H as <-; apply keep_refl].
  destruct (contains "kVA" s) eqn:C; inv H; injection H as <-; [| apply keep_refl]. now apply keep_set.
Qed.
Lemma three_keep : forall c r, three_ratings E c = Ok r -> keep c (fst r).
Proof.
  intros c r H. unfold three_ratings in H. inv H. inv H. inv H. injection H as <-. cbn.
  apply rating_keep in Hx; [| nokey]. apply rating_keep in Hx0; [| nokey]. apply rating_keep in Hx1; [| nokey].
  eauto using keep_trans.
Qed.
Lemma total_keep : forall c r, total_rating E c = Ok r -> keep c (fst r).
Proof.
  intros c r H. unfold total_rating in H. destruct (gattr c "power_rating") as [s |] eqn:G; [| injection H as <-; apply keep_refl].
  inv H. injection H as <-. apply keep_set. nokey.
Qed.
Lemma rated_keep : forall tap c r, rated E tap c = Ok r -> keep c (fst r).
Proof.
  intros tap c r H. unfold rated in H. inv H.
  assert (K : keep c x).
  { destruct tap; [| injection Hx as <-; apply keep_refl]. apply bind_ok in Hx. destruct Hx as (y & Hy & Hx). injection Hx as <-. eapply three_keep; eauto. }
  inv H. apply total_keep in Hx0. apply (keep_trans K) in Hx0. destruct (snd x0).
  - now injection H as <-.
  - apply three_keep in H. eauto using keep_trans.
Qed.
Lemma xconf_keep : forall c r, read_xconf E c = Ok r -> keep c (fst r).
Proof. intros c r H. unfold read_xconf in H. cbv zeta in H. do 6 inv H. injection H as <-. cbn. eapply rated_keep; eauto. Qed.
Definition wire_keep (f : wire -> gobj -> pres (gobj * wire)) : Prop := forall w c r, f w c = Ok r -> keep c (fst r).
Lemma tp_wire_keep : wire_keep (tp_wire E).
Proof. intros w c r H. unfold tp_wire in H. do 4 inv H. injection H as <-. apply keep_refl. Qed.
Lemma ug_wire_keep : wire_keep (ug_wire E).
Proof.
  intros w c r H. unfold ug_wire in H. do 10 inv H. injection H as <-. cbn. clear - Hx4. unfold unit_attr in Hx4.
  destruct (gattr c "conductor_resistance") as [s |]; [| injection Hx4 as <-; apply keep_refl].
  destruct (contains "Ohm/km" s); inv Hx4; injection Hx4 as <-; [apply keep_set; nokey | apply keep_refl].
Qed.
Lemma fill_keep : forall f cws s s', wire_keep f -> mfold (fill f) cws s = Ok s' -> all_keep (fst s) (fst s').
Proof.
  intros f cws. induction cws as [| cw cws IH]; intros s s' F H.
  - injection H as <-. apply all_keep_refl.
  - cbn in H. inv H. apply (IH x s' F) in H. eapply all_keep_trans; [| exact H].
    unfold fill in Hx. destruct s as [objs ws]. inv Hx. inv Hx. injection Hx as <-. cbn.
    apply obj_at_dget in Hx0. eapply all_keep_dset; [exact Hx0 | eapply F; eauto].
Qed.
Lemma dname_key : forall ij, In ij pairs5 -> ~ wkey (dname (fst ij) (snd ij)).
Proof. intros [i j] H. cbn in H. repeat (destruct H as [H | H]; [injection H as <- <-; nokey |]). destruct H. Qed.
Lemma oh_pairs_keep : forall l s s', incl l pairs5 -> mfold (oh_pair E) l s = Ok s' -> keep (fst (fst s)) (fst (fst s')).
Proof.
  induction l as [| ij l IH]; intros s s' I H.
  - injection H as <-. apply keep_refl.
  - cbn in H. inv H. apply IH in H; [| intros a Ha; apply I; cbn; tauto]. eapply keep_trans; [| exact H]. clear IH H.
    pose proof (@dname_key ij (I ij (or_introl eq_refl))) as A. destruct ij as [i j]. destruct s as [[o d] mx]. unfold oh_pair in Hx. cbn [fst snd] in *.
    change (dget (dname i j) (go_attrs o)) with (gattr o (dname i j)) in Hx.
    destruct (gattr o (dname i j)) as [t |] eqn:G; [| injection Hx as <-; apply keep_refl].
    inv Hx. destruct (reqb x0 0); injection Hx as <-; cbn; now apply keep_set.
Qed.
Lemma ug_pairs_keep : forall outer l s s', incl l pairs5 -> mfold (ug_pair E outer) l s = Ok s' -> keep (fst s) (fst s').
Proof.
  induction l as [| ij l IH]; intros s s' I H.
  - injection H as <-. apply keep_refl.
  - cbn in H. inv H. apply IH in H; [| intros a Ha; apply I; cbn; tauto]. eapply keep_trans; [| exact H]. clear IH H.
    pose proof (@dname_key ij (I ij (or_introl eq_refl))) as A. destruct ij as [i j]. destruct s as [o d]. unfold ug_pair in Hx. cbn [fst snd] in *.
    change (dget (dname i j) (go_attrs o)) with (gattr o (dname i j)) in Hx.
    destruct (gattr o (dname i j)) as [t |] eqn:G; [| injection Hx as <-; apply keep_refl].
    inv Hx. inv Hx. injection Hx as <-. now apply keep_set.
Qed.
Lemma spacing_keep : forall o ph r, overhead_spacing E o ph = Ok r -> keep o (fst r).
Proof.
  intros o ph r H. unfold overhead_spacing in H. inv H. apply oh_pairs_keep in Hx; [| apply incl_refl].
  destruct x as [[o' d] mx]. inv H. injection H as <-. exact Hx.
Qed.
Lemma tp_config_keep : forall o s s', tp_config E o s = Ok s' -> all_keep (r_objs s) (r_objs s').
Proof.
  intros o s s' H. unfold tp_config in H. destruct (gattr o "configuration") as [cn |]; [| injection H as <-; apply all_keep_refl].
  do 4 inv H. injection H as <-. apply fill_keep in Hx2; [| exact tp_wire_keep]. exact Hx2.
Qed.
Lemma ug_config_keep : forall o s s', ug_config E o s = Ok s' -> all_keep (r_objs s) (r_objs s').
Proof.
  intros o s s' H. unfold ug_config in H. destruct (gattr o "configuration") as [cn |]; [| injection H as <-; apply all_keep_refl].
  inv H. inv H. destruct x0 as [objs ws]. apply fill_keep in Hx0; [| exact ug_wire_keep]. cbn in Hx0.
  destruct (gattr x "spacing") as [sn |]; [| injection H as <-; exact Hx0].
  inv H. destruct (all_some (map w_outer ws)) as [outer |]; [| injection H as <-; exact Hx0].
  inv H. injection H as <-. cbn. eapply all_keep_trans; [exact Hx0 |].
  apply obj_at_dget in Hx1. eapply all_keep_dset; [exact Hx1 |]. unfold underground_spacing in Hx2. apply ug_pairs_keep in Hx2; [exact Hx2 | apply incl_refl].
Qed.
Lemma length_keep : forall name o s r, dget name (r_objs s) = Some o -> line_length E o = Ok r -> all_keep (r_objs s) (r_objs (set_length name (fst r) s)).
Proof.
  intros name o s r D H. cbn. eapply all_keep_dset; [exact D |]. unfold line_length in H. destruct (gattr o "length") as [t |]; [| discriminate].
  destruct (contains "km" t); inv H; injection H as <-; [apply keep_set; nokey | apply keep_refl].
Qed.
(** every class but overhead_line keeps them *)
Lemma read_keep : forall s name s' o, read_object E sch s name = Ok s' -> dget name (r_objs s) = Some o -> go_class o <> "overhead_line" ->
  all_keep (r_objs s) (r_objs s').
Proof.
  intros s name s' o H D N. unfold read_object in H. inv H. apply obj_at_dget in Hx. assert (x = o) as -> by congruence.
  assert (SAME : r_objs s' = r_objs s -> all_keep (r_objs s) (r_objs s')) by (intros ->; apply all_keep_refl).
  destruct (GlmText.mem (go_class o) shared_config_objects); [injection H as <-; now apply SAME |].
  cbv zeta in H. do 2 inv H.
  destruct (_ || _)%bool; [inv H; injection H as <-; now apply SAME |].
  destruct (_ || _)%bool; [inv H; injection H as <-; now apply SAME |].
  destruct (String.eqb (class_of o) "transformer").
  { unfold read_xfmr in H. inv H. injection H as <-. cbn.
    destruct (gattr o "configuration") as [cn |]; [| injection Hx2 as <-; apply all_keep_refl].
    destruct (dget cn (r_objs s)) as [c |] eqn:G; [| injection Hx2 as <-; apply all_keep_refl].
    inv Hx2. injection Hx2 as <-. cbn. eapply all_keep_dset; [exact G | eapply xconf_keep; eauto]. }
  destruct (_ || _)%bool; [inv H; injection H as <-; now apply SAME |].
  destruct (String.eqb (class_of o) "fuse"); [inv H; injection H as <-; now apply SAME |].
  destruct (_ || _)%bool; [injection H as <-; now apply SAME |].
  destruct (String.eqb_spec (class_of o) "overhead_line") as [C | _].
  { exfalso. apply N. apply class_other in C; [tauto | discriminate]. }
  destruct (String.eqb (class_of o) "triplex_line").
  { unfold read_triplex_line in H. do 6 inv H. injection H as <-. cbn. eapply all_keep_trans; [eapply length_keep; eauto | eapply tp_config_keep; eauto]. }
  destruct (String.eqb (class_of o) "underground_line").
  { unfold read_underground in H. do 8 inv H. injection H as <-. cbn. eapply all_keep_trans; [eapply length_keep; eauto | eapply ug_config_keep; eauto]. }
  destruct (String.eqb (class_of o) "capacitor"); [inv H; injection H as <-; now apply SAME |].
  destruct (String.eqb (class_of o) "regulator"); [| discriminate].
  unfold read_reg in H. do 15 inv H. injection H as <-. now apply SAME.
Qed.
End Keep.
