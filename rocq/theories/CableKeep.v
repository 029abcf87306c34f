(** The resistance of cables: only underground lines rewrite it. *)
From Coq Require Import Reals ZArith String Ascii List Bool Lia Arith.
From Verif Require Import PyExc Components UnbalancedLine GlmText SpecGlm GlmBase LineImpedance ThreePhase GlmReader SpecReader ReaderBase ReaderLoadProofs ReaderFrame ReaderStore ReaderFile ReaderFrame2 ReaderVisit.
Import ListNotations.
Local Open Scope string_scope.
Set Implicit Arguments.

Definition ckeep (o o' : gobj) : Prop := gattr o' "conductor_resistance" = gattr o "conductor_resistance".
Lemma ckeep_refl : forall o, ckeep o o.
Proof. intros o. reflexivity. Qed.
Lemma ckeep_trans : forall a b c, ckeep a b -> ckeep b c -> ckeep a c.
Proof. unfold ckeep. congruence. Qed.
Lemma ckeep_set : forall o k t, k <> "conductor_resistance" -> ckeep o (gset_raw o k t).
Proof. intros o k t N. unfold ckeep. rewrite gattr_set. destruct (String.eqb_spec "conductor_resistance" k) as [<- | _]; [now destruct N | reflexivity]. Qed.
Definition all_ckeep (objs objs' : objects) : Prop := forall n o, dget n objs = Some o -> exists o', dget n objs' = Some o' /\ ckeep o o'.
Lemma all_ckeep_refl : forall l, all_ckeep l l.
Proof. intros l n o D. exists o. split; [exact D | apply ckeep_refl]. Qed.
Lemma all_ckeep_trans : forall a b c, all_ckeep a b -> all_ckeep b c -> all_ckeep a c.
Proof. intros a b c H K n o D. destruct (H n o D) as (o1 & D1 & K1). destruct (K n o1 D1) as (o2 & D2 & K2). eauto using ckeep_trans. Qed.
Lemma all_ckeep_dset : forall l n o o', dget n l = Some o -> ckeep o o' -> all_ckeep l (dset n o' l).
Proof.
  intros l n o o' D K m om Dm. rewrite dget_dset. destruct (String.eqb_spec m n) as [-> | _].
  - exists o'. split; [reflexivity |]. assert (om = o) as -> by congruence. exact K.
  - exists om. split; [exact Dm | apply ckeep_refl].
Qed.
Section Keep.
Variables (E : prims) (sch : list (string * string)).
Ltac inv H := apply bind_ok in H; let x := fresh "x" in let Hx := fresh "Hx" in destruct H as (x & Hx & H).
Lemma rating_ckeep : forall c k r, k <> "conductor_resistance" -> rating E c k = Ok r -> ckeep c (fst r).
Proof.
  intros c k r I H. unfold rating in H. destruct (gattr c k) as [s |] eqn:G; [| injection H as <-; apply ckeep_refl].
  destruct (contains "kVA" s) eqn:C; inv H; injection H as <-; [| apply ckeep_refl]. now apply ckeep_set.
Qed.
Lemma three_ckeep : forall c r, three_ratings E c = Ok r -> ckeep c (fst r).
Proof.
  intros c r H. unfold three_ratings in H. inv H. inv H. inv H. injection H as <-. cbn.
  apply rating_ckeep in Hx; [| discriminate]. apply rating_ckeep in Hx0; [| discriminate]. apply rating_ckeep in Hx1; [| discriminate].
  eauto using ckeep_trans.
Qed.
Lemma total_ckeep : forall c r, total_rating E c = Ok r -> ckeep c (fst r).
Proof.
  intros c r H. unfold total_rating in H. destruct (gattr c "power_rating") as [s |] eqn:G; [| injection H as <-; apply ckeep_refl].
  inv H. injection H as <-. apply ckeep_set. discriminate.
Qed.
Lemma rated_ckeep : forall tap c r, rated E tap c = Ok r -> ckeep c (fst r).
Proof.
  intros tap c r H. unfold rated in H. inv H.
  assert (K : ckeep c x).
  { destruct tap; [| injection Hx as <-; apply ckeep_refl]. apply bind_ok in Hx. destruct Hx as (y & Hy & Hx). injection Hx as <-. eapply three_ckeep; eauto. }
  inv H. apply total_ckeep in Hx0. apply (ckeep_trans K) in Hx0. destruct (snd x0).
  - now injection H as <-.
  - apply three_ckeep in H. eauto using ckeep_trans.
Qed.
Lemma xconf_ckeep : forall c r, read_xconf E c = Ok r -> ckeep c (fst r).
Proof. intros c r H. unfold read_xconf in H. cbv zeta in H. do 6 inv H. injection H as <-. cbn. eapply rated_ckeep; eauto. Qed.
Definition wire_ckeep (f : wire -> gobj -> pres (gobj * wire)) : Prop := forall w c r, f w c = Ok r -> ckeep c (fst r).
Lemma tp_wire_ckeep : wire_ckeep (tp_wire E).
Proof. intros w c r H. unfold tp_wire in H. do 4 inv H. injection H as <-. apply ckeep_refl. Qed.
Lemma oh_wire_ckeep : wire_ckeep (oh_wire E).
Proof.
  assert (U : forall c k u f r, k <> "conductor_resistance" -> unit_attr E c k u f = Ok r -> ckeep c (fst r)).
  { intros c k u f r N H. unfold unit_attr in H. destruct (gattr c k) as [s |]; [| injection H as <-; apply ckeep_refl].
    destruct (contains u s); inv H; injection H as <-; [now apply ckeep_set | apply ckeep_refl]. }
  intros w c r H. unfold oh_wire in H. do 5 inv H. injection H as <-. cbn. apply U in Hx0; [| discriminate]. apply U in Hx1; [| discriminate]. eauto using ckeep_trans.
Qed.
Lemma fill_ckeep : forall f cws s s', wire_ckeep f -> mfold (fill f) cws s = Ok s' -> all_ckeep (fst s) (fst s').
Proof.
  intros f cws. induction cws as [| cw cws IH]; intros s s' F H.
  - injection H as <-. apply all_ckeep_refl.
  - cbn in H. inv H. apply (IH x s' F) in H. eapply all_ckeep_trans; [| exact H].
    unfold fill in Hx. destruct s as [objs ws]. inv Hx. inv Hx. injection Hx as <-. cbn.
    apply obj_at_dget in Hx0. eapply all_ckeep_dset; [exact Hx0 | eapply F; eauto].
Qed.
Lemma dname_key : forall ij, In ij pairs5 -> dname (fst ij) (snd ij) <> "conductor_resistance".
Proof. intros [i j] H. cbn in H. repeat (destruct H as [H | H]; [injection H as <- <-; discriminate |]). destruct H. Qed.
Lemma oh_pairs_ckeep : forall l s s', incl l pairs5 -> mfold (oh_pair E) l s = Ok s' -> ckeep (fst (fst s)) (fst (fst s')).
Proof.
  induction l as [| ij l IH]; intros s s' I H.
  - injection H as <-. apply ckeep_refl.
  - cbn in H. inv H. apply IH in H; [| intros a Ha; apply I; cbn; tauto]. eapply ckeep_trans; [| exact H]. clear IH H.
    pose proof (@dname_key ij (I ij (or_introl eq_refl))) as A. destruct ij as [i j]. destruct s as [[o d] mx]. unfold oh_pair in Hx. cbn [fst snd] in *.
    change (dget (dname i j) (go_attrs o)) with (gattr o (dname i j)) in Hx.
    destruct (gattr o (dname i j)) as [t |] eqn:G; [| injection Hx as <-; apply ckeep_refl].
    inv Hx. destruct (reqb x0 0); injection Hx as <-; cbn; now apply ckeep_set.
Qed.
Lemma ug_pairs_ckeep : forall outer l s s', incl l pairs5 -> mfold (ug_pair E outer) l s = Ok s' -> ckeep (fst s) (fst s').
Proof.
  induction l as [| ij l IH]; intros s s' I H.
  - injection H as <-. apply ckeep_refl.
  - cbn in H. inv H. apply IH in H; [| intros a Ha; apply I; cbn; tauto]. eapply ckeep_trans; [| exact H]. clear IH H.
    pose proof (@dname_key ij (I ij (or_introl eq_refl))) as A. destruct ij as [i j]. destruct s as [o d]. unfold ug_pair in Hx. cbn [fst snd] in *.
    change (dget (dname i j) (go_attrs o)) with (gattr o (dname i j)) in Hx.
    destruct (gattr o (dname i j)) as [t |] eqn:G; [| injection Hx as <-; apply ckeep_refl].
    inv Hx. inv Hx. injection Hx as <-. now apply ckeep_set.
Qed.
Lemma spacing_ckeep : forall o ph r, overhead_spacing E o ph = Ok r -> ckeep o (fst r).
Proof.
  intros o ph r H. unfold overhead_spacing in H. inv H. apply oh_pairs_ckeep in Hx; [| apply incl_refl].
  destruct x as [[o' d] mx]. inv H. injection H as <-. exact Hx.
Qed.
Lemma tp_config_ckeep : forall o s s', tp_config E o s = Ok s' -> all_ckeep (r_objs s) (r_objs s').
Proof.
  intros o s s' H. unfold tp_config in H. destruct (gattr o "configuration") as [cn |]; [| injection H as <-; apply all_ckeep_refl].
  do 4 inv H. injection H as <-. apply fill_ckeep in Hx2; [| exact tp_wire_ckeep]. exact Hx2.
Qed.
Lemma oh_config_ckeep : forall o s s', oh_config E o s = Ok s' -> all_ckeep (r_objs s) (r_objs s').
Proof.
  intros o s s' H. unfold oh_config in H. destruct (gattr o "configuration") as [cn |]; [| injection H as <-; apply all_ckeep_refl].
  inv H. inv H. destruct x0 as [objs ws]. apply fill_ckeep in Hx0; [| exact oh_wire_ckeep]. cbn in Hx0.
  destruct (gattr x "spacing") as [sn |]; [| injection H as <-; exact Hx0].
  inv H. inv H. injection H as <-. cbn. eapply all_ckeep_trans; [exact Hx0 |].
  apply obj_at_dget in Hx1. eapply all_ckeep_dset; [exact Hx1 | eapply spacing_ckeep; eauto].
Qed.
Lemma length_ckeep : forall name o s r, dget name (r_objs s) = Some o -> line_length E o = Ok r -> all_ckeep (r_objs s) (r_objs (set_length name (fst r) s)).
Proof.
  intros name o s r D H. cbn. eapply all_ckeep_dset; [exact D |]. unfold line_length in H. destruct (gattr o "length") as [t |]; [| discriminate].
  destruct (contains "km" t); inv H; injection H as <-; [apply ckeep_set; discriminate | apply ckeep_refl].
Qed.
(** every class but underground_line keeps it *)
Lemma read_ckeep : forall s name s' o, read_object E sch s name = Ok s' -> dget name (r_objs s) = Some o -> go_class o <> "underground_line" ->
  all_ckeep (r_objs s) (r_objs s').
Proof.
  intros s name s' o H D N. unfold read_object in H. inv H. apply obj_at_dget in Hx. assert (x = o) as -> by congruence.
  assert (SAME : r_objs s' = r_objs s -> all_ckeep (r_objs s) (r_objs s')) by (intros ->; apply all_ckeep_refl).
  destruct (GlmText.mem (go_class o) shared_config_objects); [injection H as <-; now apply SAME |].
  cbv zeta in H. do 2 inv H.
  destruct (_ || _)%bool; [inv H; injection H as <-; now apply SAME |].
  destruct (_ || _)%bool; [inv H; injection H as <-; now apply SAME |].
  destruct (String.eqb (class_of o) "transformer").
  { unfold read_xfmr in H. inv H. injection H as <-. cbn.
    destruct (gattr o "configuration") as [cn |]; [| injection Hx2 as <-; apply all_ckeep_refl].
    destruct (dget cn (r_objs s)) as [c |] eqn:G; [| injection Hx2 as <-; apply all_ckeep_refl].
    inv Hx2. injection Hx2 as <-. cbn. eapply all_ckeep_dset; [exact G | eapply xconf_ckeep; eauto]. }
  destruct (_ || _)%bool; [inv H; injection H as <-; now apply SAME |].
  destruct (String.eqb (class_of o) "fuse"); [inv H; injection H as <-; now apply SAME |].
  destruct (_ || _)%bool; [injection H as <-; now apply SAME |].
  destruct (String.eqb (class_of o) "overhead_line").
  { unfold read_overhead in H. do 8 inv H. injection H as <-. cbn. eapply all_ckeep_trans; [eapply length_ckeep; eauto | eapply oh_config_ckeep; eauto]. }
  destruct (String.eqb (class_of o) "triplex_line").
  { unfold read_triplex_line in H. do 6 inv H. injection H as <-. cbn. eapply all_ckeep_trans; [eapply length_ckeep; eauto | eapply tp_config_ckeep; eauto]. }
  destruct (String.eqb_spec (class_of o) "underground_line") as [C | _].
  { exfalso. apply N. apply class_other in C; [tauto | discriminate]. }
  destruct (String.eqb (class_of o) "capacitor"); [inv H; injection H as <-; now apply SAME |].
  destruct (String.eqb (class_of o) "regulator"); [| discriminate].
  unfold read_reg in H. do 15 inv H. injection H as <-. now apply SAME.
Qed.
End Keep.
