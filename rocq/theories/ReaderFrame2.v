(** Which texts reading rewrites: those with a unit, the ratings power_rating and the distances; a length only in the turn of its line. *)
From Coq Require Import Reals ZArith String Ascii List Bool Lia Arith.
From Verif Require Import PyExc Components UnbalancedLine GlmText SpecGlm GlmBase LineImpedance ThreePhase GlmReader SpecReader ReaderBase ReaderLoadProofs ReaderFrame ReaderStore ReaderFile.
Import ListNotations.
Local Open Scope string_scope.
Set Implicit Arguments.

(** a text of attribute k that may be rewritten *)
Definition unit_of (k : string) : option string :=
  if GlmText.mem k ["powerA_rating"; "powerB_rating"; "powerC_rating"] then Some "kVA"
  else if GlmText.mem k ["resistance"; "conductor_resistance"] then Some "Ohm/km"
  else if String.eqb k "geometric_mean_radius" then Some "cm" else None.
Definition allowed (k t : string) : Prop :=
  In k rewritten /\ k <> "length" /\ forall u, unit_of k = Some u -> contains u t = true.
Definition rw (o o' : gobj) : Prop :=
  go_class o = go_class o' /\ forall k,
    (gattr o k = None -> gattr o' k = None) /\
    (forall t, gattr o k = Some t -> gattr o' k = Some t \/ allowed k t /\ gattr o' k = Some (digits t)).
Lemma rw_refl : forall o, rw o o.
Proof. intros o. split; [reflexivity |]. intros k. split; [auto | intros t H; now left]. Qed.
Lemma rw_trans : forall a b c, rw a b -> rw b c -> rw a c.
Proof.
  intros a b c [E1 R1] [E2 R2]. split; [congruence |]. intros k. destruct (R1 k) as [N1 S1]. destruct (R2 k) as [N2 S2]. split; [auto |].
  intros t H. destruct (S1 t H) as [G | [A G]]; [now apply S2 |].
  destruct (S2 _ G) as [G' | [_ G']]; right; (split; [exact A |]); [exact G' | now rewrite digits_idem in G'].
Qed.
Lemma rw_set : forall o k t, allowed k t -> gattr o k = Some t -> rw o (gset_raw o k (digits t)).
Proof.
  intros o k t A G. split; [reflexivity |]. intros k'. rewrite gattr_set. destruct (String.eqb_spec k' k) as [-> | n].
  - split; [congruence |]. intros t' H. right. assert (t' = t) as -> by congruence. auto.
  - split; [auto | intros t' H; now left].
Qed.
Definition all_rw (objs objs' : list (string * gobj)) : Prop := Forall2 (fun a b => fst a = fst b /\ rw (snd a) (snd b)) objs objs'.
Lemma all_rw_refl : forall l, all_rw l l.
Proof. unfold all_rw. induction l; constructor; auto using rw_refl. Qed.
Lemma all_rw_trans : forall a b c, all_rw a b -> all_rw b c -> all_rw a c.
Proof.
  unfold all_rw. intros a b c H. revert c. induction H as [| x y a b [E K] H IH]; intros c H'; inversion H' as [| ? z ? c' [E' K'] H2]; subst; constructor.
  - split; [congruence |]. eapply rw_trans; eauto.
  - now apply IH.
Qed.
Lemma all_rw_dset : forall l n o o', dget n l = Some o -> rw o o' -> all_rw l (dset n o' l).
Proof.
  unfold all_rw. induction l as [| [k v] l IH]; intros n o o' H K; cbn in *; [discriminate |].
  destruct (String.eqb_spec n k).
  - injection H as ->. constructor; [auto |]. apply all_rw_refl.
  - constructor; [split; [reflexivity | apply rw_refl] |]. eapply IH; eauto.
Qed.
Lemma all_rw_dget : forall l l' n o, all_rw l l' -> dget n l = Some o -> exists o', dget n l' = Some o' /\ rw o o'.
Proof.
  unfold all_rw. intros l l' n o H. induction H as [| [k v] [k' v'] l l' [E K] H IH]; cbn in *; [discriminate |]. subst k'.
  destruct (String.eqb_spec n k); [| apply IH]. intros h. injection h as ->. eauto.
Qed.

Section Frame2.
Variables (E : prims) (sch : list (string * string)).
Ltac inv H := apply bind_ok in H; let x := fresh "x" in let Hx := fresh "Hx" in destruct H as (x & Hx & H).
Lemma rating_rw : forall c k r, In k ["powerA_rating"; "powerB_rating"; "powerC_rating"] -> rating E c k = Ok r -> rw c (fst r).
Proof.
  intros c k r I H. unfold rating in H. destruct (gattr c k) as [s |] eqn:G; [| injection H as <-; apply rw_refl].
  destruct (contains "kVA" s) eqn:C; inv H; injection H as <-; [| apply rw_refl]. apply rw_set; [| exact G].
  cbn in I. destruct I as [<- | [<- | [<- | []]]]; (split; [cbn; tauto |]; split; [discriminate |]; intros u U; cbn in U; injection U as <-; exact C).
Qed.
Lemma three_rw : forall c r, three_ratings E c = Ok r -> rw c (fst r).
Proof.
  intros c r H. unfold three_ratings in H. inv H. inv H. inv H. injection H as <-. cbn.
  apply rating_rw in Hx; [| cbn; tauto]. apply rating_rw in Hx0; [| cbn; tauto]. apply rating_rw in Hx1; [| cbn; tauto].
  eauto using rw_trans.
Qed.
Lemma total_rw : forall c r, total_rating E c = Ok r -> rw c (fst r).
Proof.
  intros c r H. unfold total_rating in H. destruct (gattr c "power_rating") as [s |] eqn:G; [| injection H as <-; apply rw_refl].
  inv H. injection H as <-. apply rw_set; [split; [cbn; tauto |]; split; [discriminate |]; intros u U; discriminate U | exact G].
Qed.
Lemma rated_rw : forall tap c r, rated E tap c = Ok r -> rw c (fst r).
Proof.
  intros tap c r H. unfold rated in H. inv H.
  assert (K : rw c x).
  { destruct tap; [| injection Hx as <-; apply rw_refl]. apply bind_ok in Hx. destruct Hx as (y & Hy & Hx). injection Hx as <-. eapply three_rw; eauto. }
  inv H. apply total_rw in Hx0. apply (rw_trans K) in Hx0. destruct (snd x0).
  - now injection H as <-.
  - apply three_rw in H. eauto using rw_trans.
Qed.
Lemma xconf_rw : forall c r, read_xconf E c = Ok r -> rw c (fst r).
Proof. intros c r H. unfold read_xconf in H. cbv zeta in H. do 6 inv H. injection H as <-. cbn. eapply rated_rw; eauto. Qed.
Lemma unit_rw : forall c k u f r, In k rewritten -> k <> "length" -> unit_of k = Some u -> unit_attr E c k u f = Ok r -> rw c (fst r).
Proof.
  intros c k u f r I N U H. unfold unit_attr in H. destruct (gattr c k) as [s |] eqn:G; [| injection H as <-; apply rw_refl].
  destruct (contains u s) eqn:C; inv H; injection H as <-; [| apply rw_refl]. apply rw_set; [| exact G].
  split; [exact I |]. split; [exact N |]. intros u' U'. rewrite U in U'. injection U' as <-. exact C.
Qed.
Definition wire_frame (f : wire -> gobj -> pres (gobj * wire)) : Prop := forall w c r, f w c = Ok r -> rw c (fst r).
Lemma oh_wire_rw : wire_frame (oh_wire E).
Proof.
  intros w c r H. unfold oh_wire in H. do 5 inv H. injection H as <-. cbn.
  apply unit_rw in Hx0; [| cbn; tauto | discriminate | reflexivity]. apply unit_rw in Hx1; [| cbn; tauto | discriminate | reflexivity]. eauto using rw_trans.
Qed.
Lemma tp_wire_rw : wire_frame (tp_wire E).
Proof. intros w c r H. unfold tp_wire in H. do 4 inv H. injection H as <-. apply rw_refl. Qed.
Lemma ug_wire_rw : wire_frame (ug_wire E).
Proof. intros w c r H. unfold ug_wire in H. do 10 inv H. injection H as <-. cbn. apply unit_rw in Hx4; [exact Hx4 | cbn; tauto | discriminate | reflexivity]. Qed.
Lemma fill_rw : forall f cws s s', wire_frame f -> mfold (fill f) cws s = Ok s' -> all_rw (fst s) (fst s').
Proof.
  intros f cws. induction cws as [| cw cws IH]; intros s s' F H.
  - injection H as <-. apply all_rw_refl.
  - cbn in H. inv H. apply (IH x s' F) in H. eapply all_rw_trans; [| exact H].
    unfold fill in Hx. destruct s as [objs ws]. inv Hx. inv Hx. injection Hx as <-. cbn.
    unfold obj_at in Hx0. destruct (dget (fst cw) objs) eqn:G; [| discriminate]. injection Hx0 as ->.
    eapply all_rw_dset; [exact G | eapply F; eauto].
Qed.
Lemma dname_allowed : forall ij t, In ij pairs5 -> allowed (dname (fst ij) (snd ij)) t.
Proof.
  intros [i j] t H. cbn in H.
  repeat (destruct H as [H | H]; [injection H as <- <-; split; [cbn; tauto |]; split; [discriminate |]; intros u U; discriminate U |]). destruct H.
Qed.
Lemma oh_pair_rw : forall ij s s', In ij pairs5 -> oh_pair E s ij = Ok s' -> rw (fst (fst s)) (fst (fst s')).
Proof.
  intros [i j] [[o d] mx] s' I H. pose proof (fun t => @dname_allowed (i, j) t I) as A. cbn [fst snd] in *. unfold oh_pair in H.
  change (dget (dname i j) (go_attrs o)) with (gattr o (dname i j)) in H.
  destruct (gattr o (dname i j)) as [t |] eqn:G; [| injection H as <-; apply rw_refl].
  inv H. destruct (reqb x 0); injection H as <-; cbn; apply rw_set; auto.
Qed.
Lemma oh_pairs_rw : forall l s s', incl l pairs5 -> mfold (oh_pair E) l s = Ok s' -> rw (fst (fst s)) (fst (fst s')).
Proof.
  induction l as [| ij l IH]; intros s s' I H.
  - injection H as <-. apply rw_refl.
  - cbn in H. inv H. apply oh_pair_rw in Hx; [| apply I; cbn; tauto]. apply IH in H; [| intros a Ha; apply I; cbn; tauto].
    eauto using rw_trans.
Qed.
Lemma ug_pairs_rw : forall outer l s s', incl l pairs5 -> mfold (ug_pair E outer) l s = Ok s' -> rw (fst s) (fst s').
Proof.
  induction l as [| ij l IH]; intros s s' I H.
  - injection H as <-. apply rw_refl.
  - cbn in H. inv H. apply IH in H; [| intros a Ha; apply I; cbn; tauto]. eapply rw_trans; [| exact H]. clear IH H.
    pose proof (fun t => @dname_allowed ij t (I ij (or_introl eq_refl))) as A. destruct ij as [i j]. destruct s as [o d]. unfold ug_pair in Hx. cbn [fst snd] in *.
    change (dget (dname i j) (go_attrs o)) with (gattr o (dname i j)) in Hx.
    destruct (gattr o (dname i j)) as [t |] eqn:G; [| injection Hx as <-; apply rw_refl].
    inv Hx. inv Hx. injection Hx as <-. apply rw_set; auto.
Qed.
Lemma spacing_rw : forall o ph r, overhead_spacing E o ph = Ok r -> rw o (fst r).
Proof.
  intros o ph r H. unfold overhead_spacing in H. inv H. apply oh_pairs_rw in Hx; [| apply incl_refl].
  destruct x as [[o' d] mx]. inv H. injection H as <-. exact Hx.
Qed.
Lemma ug_spacing_rw : forall outer o r, underground_spacing E outer o = Ok r -> rw o (fst r).
Proof. intros outer o r H. apply ug_pairs_rw in H; [exact H | apply incl_refl]. Qed.
Lemma oh_config_rw : forall o s s', oh_config E o s = Ok s' -> all_rw (r_objs s) (r_objs s') /\ r_store s' = r_store s.
Proof.
  intros o s s' H. unfold oh_config in H. destruct (gattr o "configuration") as [cn |]; [| injection H as <-; split; [apply all_rw_refl | reflexivity]].
  inv H. inv H. destruct x0 as [objs ws]. apply fill_rw in Hx0; [| exact oh_wire_rw]. cbn in Hx0.
  destruct (gattr x "spacing") as [sn |]; [| injection H as <-; split; [exact Hx0 | reflexivity]].
  inv H. inv H. injection H as <-. split; [| reflexivity]. cbn. eapply all_rw_trans; [exact Hx0 |].
  apply obj_at_dget in Hx1. eapply all_rw_dset; [exact Hx1 | eapply spacing_rw; eauto].
Qed.
Lemma tp_config_rw : forall o s s', tp_config E o s = Ok s' -> all_rw (r_objs s) (r_objs s') /\ r_store s' = r_store s.
Proof.
  intros o s s' H. unfold tp_config in H. destruct (gattr o "configuration") as [cn |]; [| injection H as <-; split; [apply all_rw_refl | reflexivity]].
  do 4 inv H. injection H as <-. apply fill_rw in Hx2; [| exact tp_wire_rw]. split; [exact Hx2 | reflexivity].
Qed.
Lemma ug_config_rw : forall o s s', ug_config E o s = Ok s' -> all_rw (r_objs s) (r_objs s') /\ r_store s' = r_store s.
Proof.
  intros o s s' H. unfold ug_config in H. destruct (gattr o "configuration") as [cn |]; [| injection H as <-; split; [apply all_rw_refl | reflexivity]].
  inv H. inv H. destruct x0 as [objs ws]. apply fill_rw in Hx0; [| exact ug_wire_rw]. cbn in Hx0.
  destruct (gattr x "spacing") as [sn |]; [| injection H as <-; split; [exact Hx0 | reflexivity]].
  inv H. destruct (all_some (map w_outer ws)) as [outer |]; [| injection H as <-; split; [exact Hx0 | reflexivity]].
  inv H. injection H as <-. split; [| reflexivity]. cbn. eapply all_rw_trans; [exact Hx0 |].
  apply obj_at_dget in Hx1. eapply all_rw_dset; [exact Hx1 | eapply ug_spacing_rw; eauto].
Qed.
End Frame2.
