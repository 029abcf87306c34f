(** Reading changes nothing of the objects but the texts of a few attributes. *)
From Coq Require Import Reals ZArith String Ascii List Bool Lia Arith.
From Verif Require Import PyExc Components UnbalancedLine GlmText SpecGlm GlmBase LineImpedance ThreePhase GlmReader SpecReader ReaderBase.
Import ListNotations.
Local Open Scope string_scope.
Set Implicit Arguments.

Lemma numchar_spec : forall c, numchar c = number_char c.
Proof. intros [[] [] [] [] [] [] [] []]; vm_compute; reflexivity. Qed.
Lemma only_digits : forall t, only_number t (digits t).
Proof.
  unfold only_number. induction t as [| c t IH]; [reflexivity |]. cbn [digits]. unfold chars in *. cbn [list_ascii_of_string filter].
  rewrite <- numchar_spec. destruct (numchar c); cbn [list_ascii_of_string]; now rewrite IH.
Qed.
Lemma only_number_digits : forall t t', only_number t t' -> t' = digits t.
Proof. intros t t' H. apply chars_inj. rewrite H. symmetry. apply only_digits. Qed.
Lemma kept_refl : forall o, kept o o.
Proof. intros o. split; [reflexivity |]. split; [tauto |]. split; [tauto |]. intros. now left. Qed.
Lemma kept_trans : forall a b c, kept a b -> kept b c -> kept a c.
Proof.
  intros a b c (K1 & K2 & K3 & K4) (L1 & L2 & L3 & L4). split; [congruence |]. split; [| split].
  - intros k t H. rewrite K2 by exact H. now apply L2.
  - intros k. rewrite K3. apply L3.
  - intros k t H. destruct (K4 k t H) as [B | (t' & B & N)].
    + now apply L4.
    + destruct (L4 k t' B) as [C | (t2 & C & N2)]; [right; eauto |]. right. exists t2. split; [exact C |].
      apply only_number_digits in N, N2. subst. rewrite digits_idem. apply only_digits.
Qed.
Lemma gattr_not_silent : forall o k t, gattr o k = Some t -> ~ silent o k.
Proof. intros o k t H S. apply gattr_silent in S. congruence. Qed.
Lemma kept_set : forall o k t, In k rewritten -> gattr o k = Some t -> kept o (gset_raw o k (digits t)).
Proof.
  intros o k t I G. split; [reflexivity |]. split; [| split].
  - intros k' t' N. rewrite <- !gattr_says, gattr_set. destruct (String.eqb_spec k' k); [subst; tauto | tauto].
  - intros k'. rewrite <- !gattr_silent, gattr_set. destruct (String.eqb_spec k' k); [subst; rewrite G; split; discriminate | tauto].
  - intros k' t' H. rewrite <- gattr_says in H. destruct (string_dec k' k) as [-> | n].
    + right. exists (digits t). rewrite <- gattr_says, gattr_set, String.eqb_refl. split; [reflexivity |].
      assert (t' = t) as -> by congruence. apply only_digits.
    + left. rewrite <- gattr_says, gattr_set. apply String.eqb_neq in n. now rewrite n.
Qed.
Lemma all_kept_refl : forall l, all_kept l l.
Proof. unfold all_kept. induction l; constructor; auto using kept_refl. Qed.
Lemma all_kept_trans : forall a b c, all_kept a b -> all_kept b c -> all_kept a c.
Proof.
  unfold all_kept. intros a b c H. revert c. induction H as [| x y a b [E K] H IH]; intros c H'; inversion H' as [| ? z ? c' [E' K'] H2]; subst; constructor.
  - split; [congruence |]. eapply kept_trans; eauto.
  - now apply IH.
Qed.
Lemma all_kept_dset : forall l n o o', dget n l = Some o -> kept o o' -> all_kept l (dset n o' l).
Proof.
  unfold all_kept. induction l as [| [k v] l IH]; intros n o o' H K; cbn in *; [discriminate |].
  destruct (String.eqb_spec n k).
  - injection H as ->. constructor; [auto |]. apply all_kept_refl.
  - constructor; [split; [reflexivity | apply kept_refl] |]. eapply IH; eauto.
Qed.
Lemma all_kept_dget : forall l l' n o, all_kept l l' -> dget n l = Some o -> exists o', dget n l' = Some o' /\ kept o o'.
Proof.
  unfold all_kept. intros l l' n o H. induction H as [| [k v] [k' v'] l l' [E K] H IH]; cbn in *; [discriminate |]. subst k'.
  destruct (String.eqb_spec n k); [| apply IH]. intros h. injection h as ->. eauto.
Qed.
Lemma all_kept_keys : forall l l', all_kept l l' -> map fst l = map fst l'.
Proof. unfold all_kept. intros l l' H. induction H as [| x y l l' [E _] H IH]; [reflexivity |]. cbn. now rewrite E, IH. Qed.

Section Frame.
Variables (E : prims) (sch : list (string * string)).
Ltac inv H := apply bind_ok in H; let x := fresh "x" in let Hx := fresh "Hx" in destruct H as (x & Hx & H).
Lemma rating_kept : forall c k r, In k rewritten -> rating E c k = Ok r -> kept c (fst r).
Proof.
  intros c k r I H. unfold rating in H. destruct (gattr c k) as [s |] eqn:G; [| injection H as <-; apply kept_refl].
  destruct (contains "kVA" s); inv H; injection H as <-; [now apply kept_set | apply kept_refl].
Qed.
Lemma three_kept : forall c r, three_ratings E c = Ok r -> kept c (fst r).
Proof.
  intros c r H. unfold three_ratings in H. inv H. inv H. inv H. injection H as <-. cbn.
  apply rating_kept in Hx; [| cbn; tauto]. apply rating_kept in Hx0; [| cbn; tauto]. apply rating_kept in Hx1; [| cbn; tauto].
  eauto using kept_trans.
Qed.
Lemma total_kept : forall c r, total_rating E c = Ok r -> kept c (fst r).
Proof.
  intros c r H. unfold total_rating in H. destruct (gattr c "power_rating") as [s |] eqn:G; [| injection H as <-; apply kept_refl].
  inv H. injection H as <-. apply kept_set; [cbn; tauto | exact G].
Qed.
Lemma rated_kept : forall tap c r, rated E tap c = Ok r -> kept c (fst r).
Proof.
  intros tap c r H. unfold rated in H. inv H.
  assert (K : kept c x).
  { destruct tap; [| injection Hx as <-; apply kept_refl]. apply bind_ok in Hx. destruct Hx as (y & Hy & Hx). injection Hx as <-. eapply three_kept; eauto. }
  inv H. apply total_kept in Hx0. apply (kept_trans K) in Hx0. destruct (snd x0).
  - now injection H as <-.
  - apply three_kept in H. eauto using kept_trans.
Qed.
Lemma xconf_kept : forall c r, read_xconf E c = Ok r -> kept c (fst r).
Proof. intros c r H. unfold read_xconf in H. cbv zeta in H. do 6 inv H. injection H as <-. cbn. eapply rated_kept; eauto. Qed.
Lemma length_kept : forall o r, line_length E o = Ok r -> kept o (fst r).
Proof.
  intros o r H. unfold line_length in H. destruct (gattr o "length") as [s |] eqn:G; [| discriminate].
  destruct (contains "km" s); inv H; injection H as <-; [apply kept_set; [cbn; tauto | exact G] | apply kept_refl].
Qed.
Lemma unit_kept : forall c k u f r, In k rewritten -> unit_attr E c k u f = Ok r -> kept c (fst r).
Proof.
  intros c k u f r I H. unfold unit_attr in H. destruct (gattr c k) as [s |] eqn:G; [| injection H as <-; apply kept_refl].
  destruct (contains u s); inv H; injection H as <-; [now apply kept_set | apply kept_refl].
Qed.
Definition wire_frame (f : wire -> gobj -> pres (gobj * wire)) : Prop := forall w c r, f w c = Ok r -> kept c (fst r).
Lemma oh_wire_kept : wire_frame (oh_wire E).
Proof.
  intros w c r H. unfold oh_wire in H. do 5 inv H. injection H as <-. cbn.
  apply unit_kept in Hx0; [| cbn; tauto]. apply unit_kept in Hx1; [| cbn; tauto]. eauto using kept_trans.
Qed.
Lemma tp_wire_kept : wire_frame (tp_wire E).
Proof. intros w c r H. unfold tp_wire in H. do 4 inv H. injection H as <-. apply kept_refl. Qed.
Lemma ug_wire_kept : wire_frame (ug_wire E).
Proof. intros w c r H. unfold ug_wire in H. do 10 inv H. injection H as <-. cbn. apply unit_kept in Hx4; [exact Hx4 | cbn; tauto]. Qed.
Lemma fill_kept : forall f cws s s', wire_frame f -> mfold (fill f) cws s = Ok s' -> all_kept (fst s) (fst s').
Proof.
  intros f cws. induction cws as [| cw cws IH]; intros s s' F H.
  - injection H as <-. apply all_kept_refl.
  - cbn in H. inv H. apply (IH x s' F) in H. eapply all_kept_trans; [| exact H].
    unfold fill in Hx. destruct s as [objs ws]. inv Hx. inv Hx. injection Hx as <-. cbn.
    unfold obj_at in Hx0. destruct (dget (fst cw) objs) eqn:G; [| discriminate]. injection Hx0 as ->.
    eapply all_kept_dset; [exact G | eapply F; eauto].
Qed.
Lemma dname_rewritten : forall ij, In ij pairs5 -> In (dname (fst ij) (snd ij)) rewritten.
Proof.
  intros [i j] H. cbn in H. repeat (destruct H as [H | H]; [injection H as <- <-; cbn; tauto |]). destruct H.
Qed.
Lemma oh_pair_kept : forall ij s s', In ij pairs5 -> oh_pair E s ij = Ok s' -> kept (fst (fst s)) (fst (fst s')).
Proof.
  intros [i j] [[o d] mx] s' I H. apply dname_rewritten in I. cbn [fst snd] in *. unfold oh_pair in H.
  change (dget (dname i j) (go_attrs o)) with (gattr o (dname i j)) in H.
  destruct (gattr o (dname i j)) as [t |] eqn:G; [| injection H as <-; apply kept_refl].
  inv H. destruct (reqb x 0); injection H as <-; cbn; apply kept_set; auto.
Qed.
Lemma oh_pairs_kept : forall l s s', incl l pairs5 -> mfold (oh_pair E) l s = Ok s' -> kept (fst (fst s)) (fst (fst s')).
Proof.
  induction l as [| ij l IH]; intros s s' I H.
  - injection H as <-. apply kept_refl.
  - cbn in H. inv H. apply oh_pair_kept in Hx; [| apply I; cbn; tauto]. apply IH in H; [| intros a Ha; apply I; cbn; tauto].
    eauto using kept_trans.
Qed.
Lemma ug_pairs_kept : forall outer l s s', incl l pairs5 -> mfold (ug_pair E outer) l s = Ok s' -> kept (fst s) (fst s').
Proof.
  induction l as [| ij l IH]; intros s s' I H.
  - injection H as <-. apply kept_refl.
  - cbn in H. inv H. apply IH in H; [| intros a Ha; apply I; cbn; tauto]. eapply kept_trans; [| exact H]. clear IH H.
    assert (D := @dname_rewritten ij (I ij (or_introl eq_refl))). destruct ij as [i j]. destruct s as [o d]. unfold ug_pair in Hx. cbn [fst snd] in *.
    change (dget (dname i j) (go_attrs o)) with (gattr o (dname i j)) in Hx.
    destruct (gattr o (dname i j)) as [t |] eqn:G; [| injection Hx as <-; apply kept_refl].
    inv Hx. inv Hx. injection Hx as <-. apply kept_set; auto.
Qed.
Lemma spacing_kept : forall o ph r, overhead_spacing E o ph = Ok r -> kept o (fst r).
Proof.
  intros o ph r H. unfold overhead_spacing in H. inv H. apply oh_pairs_kept in Hx; [| apply incl_refl].
  destruct x as [[o' d] mx]. inv H. injection H as <-. exact Hx.
Qed.
Lemma ug_spacing_kept : forall outer o r, underground_spacing E outer o = Ok r -> kept o (fst r).
Proof. intros outer o r H. apply ug_pairs_kept in H; [exact H | apply incl_refl]. Qed.
Lemma obj_at_dget : forall objs n o, obj_at objs n = Ok o <-> dget n objs = Some o.
Proof. intros objs n o. unfold obj_at. destruct (dget n objs); split; congruence. Qed.
Lemma oh_config_kept : forall o s s', oh_config E o s = Ok s' -> all_kept (r_objs s) (r_objs s') /\ r_store s' = r_store s.
Proof.
  intros o s s' H. unfold oh_config in H. destruct (gattr o "configuration") as [cn |]; [| injection H as <-; split; [apply all_kept_refl | reflexivity]].
  inv H. inv H. destruct x0 as [objs ws]. apply fill_kept in Hx0; [| exact oh_wire_kept]. cbn in Hx0.
  destruct (gattr x "spacing") as [sn |]; [| injection H as <-; split; [exact Hx0 | reflexivity]].
  inv H. inv H. injection H as <-. split; [| reflexivity]. cbn. eapply all_kept_trans; [exact Hx0 |].
  apply obj_at_dget in Hx1. eapply all_kept_dset; [exact Hx1 | eapply spacing_kept; eauto].
Qed.
Lemma tp_config_kept : forall o s s', tp_config E o s = Ok s' -> all_kept (r_objs s) (r_objs s') /\ r_store s' = r_store s.
Proof.
  intros o s s' H. unfold tp_config in H. destruct (gattr o "configuration") as [cn |]; [| injection H as <-; split; [apply all_kept_refl | reflexivity]].
  do 4 inv H. injection H as <-. apply fill_kept in Hx2; [| exact tp_wire_kept]. split; [exact Hx2 | reflexivity].
Qed.
Lemma ug_config_kept : forall o s s', ug_config E o s = Ok s' -> all_kept (r_objs s) (r_objs s') /\ r_store s' = r_store s.
Proof.
  intros o s s' H. unfold ug_config in H. destruct (gattr o "configuration") as [cn |]; [| injection H as <-; split; [apply all_kept_refl | reflexivity]].
  inv H. inv H. destruct x0 as [objs ws]. apply fill_kept in Hx0; [| exact ug_wire_kept]. cbn in Hx0.
  destruct (gattr x "spacing") as [sn |]; [| injection H as <-; split; [exact Hx0 | reflexivity]].
  inv H. destruct (all_some (map w_outer ws)) as [outer |]; [| injection H as <-; split; [exact Hx0 | reflexivity]].
  inv H. injection H as <-. split; [| reflexivity]. cbn. eapply all_kept_trans; [exact Hx0 |].
  apply obj_at_dget in Hx1. eapply all_kept_dset; [exact Hx1 | eapply ug_spacing_kept; eauto].
Qed.
(** a line: one more Line in the store *)
Definition adds (s s' : rstate) (ms : list dmodel) : Prop := all_kept (r_objs s) (r_objs s') /\ r_store s' = (r_store s ++ ms)%list.
Lemma set_length_kept : forall name o s r, dget name (r_objs s) = Some o -> line_length E o = Ok r ->
  all_kept (r_objs s) (r_objs (set_length name (fst r) s)).
Proof. intros name o s r G H. eapply all_kept_dset; [exact G | eapply length_kept; eauto]. Qed.
Ltac chain := eapply all_kept_trans; [eapply set_length_kept; eauto | eassumption].
Lemma overhead_adds : forall name o pi s s', dget name (r_objs s) = Some o -> read_overhead E name o pi s = Ok s' ->
  exists l, adds s s' [MLine l].
Proof.
  intros name o pi s s' G H. unfold read_overhead in H. do 8 inv H. injection H as <-. apply oh_config_kept in Hx0. destruct Hx0 as [K St].
  eexists. split; [chain |]. cbn. rewrite St. reflexivity.
Qed.
Lemma triplex_adds : forall name o s s', dget name (r_objs s) = Some o -> read_triplex_line E name o s = Ok s' -> exists l, adds s s' [MLine l].
Proof.
  intros name o s s' G H. unfold read_triplex_line in H. do 6 inv H. injection H as <-. apply tp_config_kept in Hx0. destruct Hx0 as [K St].
  eexists. split; [chain |]. cbn. rewrite St. reflexivity.
Qed.
Lemma underground_adds : forall name o pi s s', dget name (r_objs s) = Some o -> read_underground E name o pi s = Ok s' -> exists l, adds s s' [MLine l].
Proof.
  intros name o pi s s' G H. unfold read_underground in H. do 8 inv H. injection H as <-. apply ug_config_kept in Hx0. destruct Hx0 as [K St].
  eexists. split; [chain |]. cbn. rewrite St. reflexivity.
Qed.
Lemma xfmr_adds : forall name o pi s s', read_xfmr E name o pi s = Ok s' -> exists x, adds s s' [MXfmr x].
Proof.
  intros name o pi s s' H. unfold read_xfmr in H. inv H. injection H as <-. eexists. 
  assert (K : all_kept (r_objs s) (r_objs (fst x)) /\ r_store (fst x) = r_store s).
  { destruct (gattr o "configuration") as [cn |]; [| injection Hx as <-; split; [apply all_kept_refl | reflexivity]].
    destruct (dget cn (r_objs s)) as [c |] eqn:G; [| injection Hx as <-; split; [apply all_kept_refl | reflexivity]].
    apply bind_ok in Hx. destruct Hx as (y & Hy & Hx). injection Hx as <-. cbn. split; [| reflexivity].
    eapply all_kept_dset; [exact G | eapply xconf_kept; eauto]. }
  destruct K as [K St]. split; [exact K |]. cbn. rewrite St. reflexivity.
Qed.
Lemma reg_adds : forall o pi s s', read_reg E o pi s = Ok s' -> exists r, adds s s' [MReg r].
Proof.
  intros o pi s s' H. unfold read_reg in H. do 15 inv H. injection H as <-. eexists. split; [apply all_kept_refl | reflexivity].
Qed.
End Frame.
