(** Regulators and nominal voltages, from the file to the store. *)
From Coq Require Import Reals ZArith String Ascii List Bool Lia Lra Arith.
From Verif Require Import PyExc SpecComponents SpecUnbalanced Components UnbalancedLine GlmText SpecGlm GlmBase LineImpedance ThreePhase GlmReader SpecReader ReaderBase ReaderLoadProofs ReaderFrame ReaderStore ReaderFile ReaderFrame2 ReaderVisit SpecLineZ SpecReader2 LineFile ReaderTurns OverheadFile SpecReader3 XfmrFile.
Import ListNotations.
Local Open Scope string_scope.
Set Implicit Arguments.

Section Reg.
Variables (E : prims) (sch : list (string * string)).
Definition setting_step (c : gobj) (pre : string) (ps : list string) (p : string) : list string :=
  match gattr c (pre ++ p) with Some _ => if GlmText.mem p ps then ps else (ps ++ [p])%list | None => ps end.
Definition setting_of (k : string) (p : string) : Prop := k = "tap_pos_" ++ p \/ k = "compensator_r_setting_" ++ p \/ k = "compensator_x_setting_" ++ p.
Lemma ext_step : forall c k p ks ps qs, setting_of k p -> In p ["A"; "B"; "C"] ->
  extended c ks (match gattr c k with Some _ => if GlmText.mem p ps then ps else (ps ++ [p])%list | None => ps end) qs -> extended c (k :: ks) ps qs.
Proof.
  intros c k p ks ps qs S I X. destruct (gattr c k) as [t |] eqn:G.
  - destruct (GlmText.mem p ps) eqn:M.
    + apply mem_iff in M. eapply ext_old; eauto.
    + apply (@ext_new c k ks p); try assumption; [intros N; apply gattr_silent in N; congruence |]. intros Z. apply mem_iff in Z. congruence.
  - apply gattr_silent in G. eapply ext_old; eauto.
Qed.
Lemma reg_extended : forall c ps, extended c settings ps (reg_phases c ps).
Proof.
  intros c ps. unfold reg_phases, setting_phases, settings.
  apply (@ext_step c _ "A"); [left; reflexivity | cbn; tauto |]. apply (@ext_step c _ "B"); [left; reflexivity | cbn; tauto |]. apply (@ext_step c _ "C"); [left; reflexivity | cbn; tauto |].
  apply (@ext_step c _ "A"); [right; left; reflexivity | cbn; tauto |]. apply (@ext_step c _ "B"); [right; left; reflexivity | cbn; tauto |]. apply (@ext_step c _ "C"); [right; left; reflexivity | cbn; tauto |].
  apply (@ext_step c _ "A"); [right; right; reflexivity | cbn; tauto |]. apply (@ext_step c _ "B"); [right; right; reflexivity | cbn; tauto |]. apply (@ext_step c _ "C"); [right; right; reflexivity | cbn; tauto |].
  apply ext_nil.
Qed.
Lemma iattr_ok : forall o k r, iattr E o k = Ok r -> (r = None /\ silent o k) \/ exists v, r = Some v /\ integer E o k v.
Proof.
  intros o k r H. unfold iattr in H. destruct (gattr o k) as [t |] eqn:G.
  - inv H. injection H as <-. right. exists x. split; [reflexivity |]. exists t. split; [now apply gattr_says |]. unfold it in Hx. destruct (p_int E t); [| discriminate Hx]. now injection Hx as ->.
  - injection H as <-. left. split; [reflexivity | now apply gattr_silent].
Qed.
Lemma must_ok : forall A (x : pres (option A)) a, must x = Ok a -> x = Ok (Some a).
Proof. intros A [[y |] |] a H; cbn in H; try discriminate. now injection H as ->. Qed.
Lemma must_number : forall o k v, must (fattr E o k) = Ok v -> number E o k v.
Proof. intros o k v H. apply must_ok, fattr_ok in H. destruct H as [[X _] | (y & X & N)]; [discriminate |]. now injection X as ->. Qed.
Lemma must_integer : forall o k v, must (iattr E o k) = Ok v -> integer E o k v.
Proof. intros o k v H. apply must_ok, iattr_ok in H. destruct H as [[X _] | (y & X & N)]; [discriminate |]. now injection X as ->. Qed.
Lemma taps_all : forall c (l : list string) (s x : unit), mfold (fun _ p => do _ <- iattr E c ("tap_pos_" ++ p); Ok tt) l s = Ok x -> forall p, In p l -> exists r, iattr E c ("tap_pos_" ++ p) = Ok r.
Proof.
  intros c l. induction l as [| q l IH]; intros s x H p I; [destruct I |]. cbn [mfold] in H. inv H. inv Hx. destruct I as [<- | I]; [eauto |]. exact (IH _ _ H p I).
Qed.
Lemma texts_taps : forall c u, reg_texts E c = Ok u -> forall p, In p ["A"; "B"; "C"] -> exists r, iattr E c ("tap_pos_" ++ p) = Ok r.
Proof. intros c u H. unfold reg_texts in H. inv H. exact (@taps_all c _ _ _ Hx).
Qed.
Section Back.
Variables (c c' : gobj).
Hypothesis R : rwl c c'.
Lemma number_back : forall k v, ~ In k rewritten -> number E c' k v -> number E c k v.
Proof. intros k v N (t & S & F). exists t. split; [now apply (says_back R) | exact F]. Qed.
Lemma integer_back : forall k v, ~ In k rewritten -> integer E c' k v -> integer E c k v.
Proof. intros k v N (t & S & F). exists t. split; [now apply (says_back R) | exact F]. Qed.
Lemma extended_back : forall ks ps qs, extended c' ks ps qs -> extended c ks ps qs.
Proof.
  intros ks ps qs X. induction X as [| k ks p ps qs S I N M X IH | k ks p ps qs S I N X IH]; [constructor | |].
  - apply (@ext_new c k ks p); try assumption. intros Z. apply N. apply (rwl_silent R); [| exact Z]. intros ->. destruct S as [S | [S | S]]; discriminate S.
  - apply (@ext_old c k ks p); try assumption. destruct N as [N | N]; [left | now right]. apply (silent_back R); [| exact N].
    destruct S as [-> | [-> | ->]]; cbn in I; destruct I as [<- | [<- | [<- | []]]]; key.
Qed.
End Back.
Lemma reg_part : forall objs pre name o part s1 s2 o1, at_turn E sch objs pre name o part s1 s2 o1 -> go_class o = "regulator" -> reg_ok E objs o part.
Proof.
  intros objs pre name o part s1 s2 o1 (H1 & H2 & D1 & R & UB & AK & SS) C.
  assert (C1 : go_class o1 = "regulator") by (destruct R as [Q _]; congruence).
  destruct (@reg_turn E sch s1 s2 name o1 H2 D1 C1) as (pt & pi & Gp & Pp & RX).
  assert (PL : forall core, phase_core o core -> pi_phases pi = phase_letters core).
  { intros core PC. now destruct (@core_letters o1 pt pi Gp Pp core (rw_core R PC)) as (P1 & _). }
  apply rw_rwl in R. destruct (config_turn s1 R UB AK) as [_ B]. unfold read_reg in RX.
  inv RX. inv RX. apply attr_ok in Hx0. inv RX. apply obj_at_dget in Hx1. destruct (B _ _ Hx0 Hx1) as (c & K & Rc). clear B.
  inv RX. inv RX. inv RX. inv RX. inv RX. inv RX. inv RX. inv RX. inv RX. inv RX. inv RX. inv RX. cbv zeta in RX. injection RX as <-. cbn [GlmReader.append with_store scanned r_store] in SS.
  apply part_one in SS; [| discriminate]. exists c. eexists. split; [exact K |]. split; [exact SS |].
  cbn [dr_nwindings dr_phases1 dr_phases2 dr_conn1 dr_conn2 dr_from dr_to dr_regulation dr_high dr_low dr_type dr_ctrl dr_center dr_width dr_raise dr_lower dr_creg dr_tap].
  apply attr_ok in Hx13. split; [reflexivity |]. split.
  { destruct (gattr x1 "connect_type") as [t |] eqn:G.
    - apply check_ok in Hx3. destruct Hx3 as [T Hx3]. injection Hx3 as <-. right. split; [| auto]. exists t.
      split; [apply (says_back Rc); [key | now apply gattr_says] |]. apply orb_true_iff in T. rewrite !String.eqb_eq in T. cbn. destruct T as [-> | ->]; auto.
    - injection Hx3 as <-. left. split; [| auto]. apply (silent_back Rc); [key | now apply gattr_silent]. }
  split; [intros core PC; split; [| reflexivity]; rewrite <- (PL core PC); apply (extended_back Rc), reg_extended |].
  split; [apply (number_back Rc); [key | now apply must_number] |]. split; [apply (number_back Rc); [key | now apply must_number] |].
  split; [apply (number_back Rc); [key | now apply must_number] |]. split; [reflexivity |].
  split; [apply (integer_back Rc); [key | now apply must_integer] |]. split; [apply (integer_back Rc); [key | now apply must_integer] |].
  split; [reflexivity |]. split; [reflexivity |]. split; [| split; [| split]].
  - destruct (gattr x1 "Type") as [t |] eqn:G; [right; apply (says_back Rc); [key | now apply gattr_says] | left; split; [apply (silent_back Rc); [key | now apply gattr_silent] | reflexivity]].
  - apply (says_back Rc); [key | now apply gattr_says].
  - intros p z. assert (NK : ~ In ("tap_pos_" ++ p) rewritten) by key. change (match gattr x1 ("tap_pos_" ++ p) with Some t => p_int E t | None => None end = Some z <-> integer E c ("tap_pos_" ++ p) z).
    rewrite (rwl_plain Rc NK). split.
    + destruct (gattr c ("tap_pos_" ++ p)) as [t |] eqn:G; [intros T | discriminate]. exists t. split; [now apply gattr_says | exact T].
    + intros (t & S & T). apply gattr_says in S. now rewrite S.
  - intros p I. assert (NK : ~ In ("tap_pos_" ++ p) rewritten) by (cbn in I; destruct I as [<- | [<- | [<- | []]]]; key).
    destruct (@texts_taps x1 _ Hx2 p I) as (r & T).
    apply iattr_ok in T. destruct T as [[-> S] | (v & -> & t & S & F)].
    + left. split; [now apply (silent_back Rc) |]. apply gattr_silent in S. change (match gattr x1 ("tap_pos_" ++ p) with Some t => p_int E t | None => None end = None). now rewrite S.
    + right. exists v. split; [apply (integer_back Rc); [exact NK | exists t; auto] |]. apply gattr_says in S.
      change (match gattr x1 ("tap_pos_" ++ p) with Some t => p_int E t | None => None end = Some v). now rewrite S.
Qed.
End Reg.
