(** The wires of underground lines: the unit of a cable's resistance counts once. *)
From Coq Require Import Reals ZArith String Ascii List Bool Lia Lra Arith.
From Verif Require Import PyExc Components UnbalancedLine GlmText SpecGlm GlmBase LineImpedance ThreePhase GlmReader SpecReader ReaderBase ReaderLoadProofs ReaderFrame ReaderStore ReaderFile ReaderFrame2 ReaderVisit SpecLineZ SpecReader2 LineFile ReaderKeep ReaderWires CableKeep.
Import ListNotations.
Local Open Scope string_scope.
Set Implicit Arguments.

Definition ccur (used : bool) (t : string) : string := if (used && contains "Ohm/km" t)%bool then digits t else t.
Definition cstate (U : string -> bool) (objs objs1 : objects) : Prop := forall n o, dget n objs = Some o ->
  exists o1, dget n objs1 = Some o1 /\ gattr o1 "conductor_resistance" = option_map (ccur (U n)) (gattr o "conductor_resistance").
Lemma cstate_start : forall objs, cstate (fun _ => false) objs objs.
Proof. intros objs n o D. exists o. split; [exact D |]. destruct (gattr o "conductor_resistance"); reflexivity. Qed.
Lemma cstate_keep : forall U objs a b, cstate U objs a -> all_ckeep a b -> cstate U objs b.
Proof.
  intros U objs a b S K n o D. destruct (S n o D) as (o1 & D1 & G). destruct (K n o1 D1) as (o2 & D2 & K2). exists o2. split; [exact D2 |].
  now rewrite K2.
Qed.
Lemma cstate_ext : forall U V objs a, (forall n, U n = V n) -> cstate U objs a -> cstate V objs a.
Proof. intros U V objs a X S n o D. destruct (S n o D) as (o1 & D1 & G). exists o1. split; [exact D1 |]. now rewrite <- X. Qed.

Section Wires.
Variable E : prims.
Definition cvalued (used : bool) (g : option string) : option R :=
  match g with
  | None => None
  | Some t => if contains "Ohm/km" t then option_map (fun y => if used then y else y * (1609344 / 1000000))%R (p_float E (digits t)) else p_float E t
  end.
Lemma cunit_value : forall c u g r, gattr c "conductor_resistance" = option_map (ccur u) g ->
  unit_attr E c "conductor_resistance" "Ohm/km" (fun y => y * (1609344 / 1000000))%R = Ok r ->
  snd r = cvalued u g /\ gattr (fst r) "conductor_resistance" = option_map (ccur true) g.
Proof.
  intros c u g r G H. unfold unit_attr in H. rewrite G in H. destruct g as [t |]; cbn [option_map] in *; [| injection H as <-; auto].
  assert (ND : contains "Ohm/km" (digits t) = false) by (apply contains_digits; reflexivity).
  unfold ccur in *. unfold cvalued. destruct (contains "Ohm/km" t) eqn:Ct; [destruct u |]; cbn [andb] in *.
  - rewrite ND in H. inv H. injection H as <-. apply fl_ok in Hx. cbn. now rewrite Hx, G.
  - rewrite Ct in H. inv H. injection H as <-. apply fl_ok in Hx. cbn [fst snd]. rewrite Hx, gattr_set, String.eqb_refl. auto.
  - rewrite andb_false_r in *. rewrite Ct in H. inv H. injection H as <-. apply fl_ok in Hx. cbn. now rewrite Hx, G.
Qed.
Lemma ug_wire_state : forall p c u (o : gobj) r, ug_wire E (new_wire p) c = Ok r ->
  gattr c "conductor_resistance" = option_map (ccur u) (gattr o "conductor_resistance") ->
  w_phase (snd r) = p /\ w_res (snd r) = cvalued u (gattr o "conductor_resistance") /\
  gattr (fst r) "conductor_resistance" = option_map (ccur true) (gattr o "conductor_resistance").
Proof.
  intros p c u o r H S. unfold ug_wire in H. do 10 inv H. injection H as <-. cbn [fst snd w_phase w_res new_wire].
  destruct (@cunit_value c u (gattr o "conductor_resistance") x4 S Hx4) as [V1 T1]. split; [reflexivity |]. split; [| exact T1].
  rewrite V1. unfold or_else. now destruct (cvalued _ _).
Qed.
Lemma ug_fill_state : forall cws U objs objs1 ws0 objs' ws', (forall cw, In cw cws -> snd cw = new_wire (w_phase (snd cw))) ->
  cstate U objs objs1 -> mfold (fill (ug_wire E)) cws (objs1, ws0) = Ok (objs', ws') ->
  cstate (fun n => U n || GlmText.mem n (map fst cws))%bool objs objs' /\
  exists t, ws' = (ws0 ++ t)%list /\ map w_phase t = map (fun cw => w_phase (snd cw)) cws /\
    forall i cw w o, nth_error cws i = Some cw -> nth_error t i = Some w -> dget (fst cw) objs = Some o ->
      w_res w = cvalued (U (fst cw) || GlmText.mem (fst cw) (map fst (firstn i cws)))%bool (gattr o "conductor_resistance").
Proof.
  induction cws as [| [n w0] cws IH]; intros U objs objs1 ws0 objs' ws' New S H.
  - injection H as <- <-. split; [eapply cstate_ext; [| exact S]; intros n; cbn; now rewrite orb_false_r |].
    exists []. split; [now rewrite app_nil_r |]. split; [reflexivity |]. intros [| i] cw w o Hn; discriminate Hn.
  - cbn [mfold] in H. inv H. unfold fill in Hx. inv Hx. inv Hx. injection Hx as <-. cbn [fst snd] in *. apply obj_at_dget in Hx0.
    pose proof (New _ (or_introl eq_refl)) as Nw. cbn [snd] in Nw. rewrite Nw in Hx1.
    assert (S1 : cstate (fun m => U m || String.eqb m n)%bool objs (dset n (fst x1) objs1)).
    { intros m om D. destruct (S m om D) as (o1 & D1 & G). rewrite dget_dset. destruct (String.eqb_spec m n) as [-> | Nm].
      - exists (fst x1). split; [reflexivity |]. rewrite orb_true_r. assert (o1 = x0) as -> by congruence.
        eapply ug_wire_state; eauto.
      - exists o1. split; [exact D1 |]. rewrite orb_false_r. exact G. }
    destruct (IH (fun m => U m || String.eqb m n)%bool objs (dset n (fst x1) objs1) (ws0 ++ [snd x1])%list objs' ws') as (S' & t & -> & P & V);
      [intros cw I; apply New; now right | exact S1 | exact H |].
    split; [eapply cstate_ext; [| exact S']; intros m; cbn [map fst GlmText.mem existsb]; now rewrite <- orb_assoc |].
    exists (snd x1 :: t). rewrite <- app_assoc. split; [reflexivity |].
    split. { cbn [map snd]. rewrite P. f_equal. unfold ug_wire in Hx1. do 10 inv Hx1. now injection Hx1 as <-. }
    intros [| i] cw w o Hc Hw D; cbn [nth_error] in Hc, Hw.
    + injection Hc as <-. injection Hw as <-. cbn [fst firstn map GlmText.mem existsb] in *. rewrite orb_false_r. destruct (S n o D) as (o1 & D1 & G).
      assert (o1 = x0) as -> by congruence. destruct (@ug_wire_state _ _ _ _ _ Hx1 G) as (_ & V1 & _). auto.
    + specialize (V i cw w o Hc Hw D). cbn [firstn map fst GlmText.mem existsb]. now rewrite orb_assoc.
Qed.
(** *** the other numbers of a cable *)
Definition cable_numbers (cd : gobj) (w : wire) : Prop :=
  opt_number E cd "outer_diameter" (w_outer w) /\ opt_number E cd "neutral_diameter" (w_cnd w) /\
  (exists x, opt_number E cd "neutral_strands" x /\ w_k w = option_map trunc x) /\ opt_number E cd "conductor_diameter" (w_cdiam w) /\
  opt_number E cd "conductor_gmr" (w_gmr w) /\ opt_number E cd "neutral_gmr" (w_cgmr w) /\ opt_number E cd "neutral_resistance" (w_cres w) /\
  opt_number E cd "rating.summer.emergency" (w_emerg w).
Lemma or_none : forall A (x : option A), or_else x None = x.
Proof. intros A []; reflexivity. Qed.
Lemma ug_wire_numbers : forall p c r, ug_wire E (new_wire p) c = Ok r -> w_phase (snd r) = p /\ cable_numbers c (snd r).
Proof.
  intros p c r H. unfold ug_wire in H. do 10 inv H. injection H as <-. unfold cable_numbers. cbn [snd w_phase w_outer w_cnd w_k w_cdiam w_gmr w_cgmr w_cres w_emerg new_wire].
  rewrite !or_none. repeat match goal with X : fattr _ _ _ = Ok _ |- _ => apply fattr_opt in X end. split; [reflexivity |]. repeat (split; [eassumption || eauto |]). assumption.
Qed.
Lemma opt_plain : forall o o1 k v, rwl o o1 -> ~ In k rewritten -> opt_number E o1 k v -> opt_number E o k v.
Proof.
  intros o o1 k v R N H. pose proof (rwl_plain R N) as G. destruct H as [[S ->] | (x & (t & T & F) & ->)]; [left | right].
  - split; [| reflexivity]. apply gattr_silent. apply gattr_silent in S. congruence.
  - exists x. split; [| reflexivity]. exists t. split; [| exact F]. apply gattr_says. apply gattr_says in T. congruence.
Qed.
Ltac plain := let Z := fresh in intros Z; cbn in Z; repeat (destruct Z as [Z | Z]; [discriminate Z |]); destruct Z.
Lemma numbers_plain : forall o o1 w, rwl o o1 -> cable_numbers o1 w -> cable_numbers o w.
Proof.
  intros o o1 w R (A & B & (x & C & K) & D & G & H & I & J). unfold cable_numbers.
  repeat (split; [solve [eapply opt_plain; [exact R | plain | eassumption]] || (exists x; split; [eapply opt_plain; [exact R | plain | eassumption] | exact K]) |]).
  eapply opt_plain; [exact R | plain | eassumption].
Qed.
Lemma opt_is : forall o k v x, opt_number E o k v -> number E o k x -> v = Some x.
Proof.
  intros o k v x [[S ->] | (y & (t & T & F) & ->)] (t' & T' & F').
  - apply gattr_silent in S. apply gattr_says in T'. congruence.
  - apply gattr_says in T, T'. congruence.
Qed.
Lemma ug_fill_numbers : forall objs objs1 cws objs' ws', untouched_before objs objs1 ->
  (forall cw, In cw cws -> snd cw = new_wire (w_phase (snd cw)) /\ exists cd, dget (fst cw) objs = Some cd) ->
  mfold (fill (ug_wire E)) cws (objs1, []) = Ok (objs', ws') ->
  Forall2 (fun cw w => w_phase w = w_phase (snd cw) /\ exists cd, named objs (fst cw) cd /\ cable_numbers cd w) cws ws'.
Proof.
  intros objs objs1 cws objs' ws' UB New H.
  destruct (@fill_ok (ug_wire E) (fun cw w => w_phase w = w_phase (snd cw) /\ exists cd, named objs (fst cw) cd /\ cable_numbers cd w)
    (fun cw c1 => exists cd, dget (fst cw) objs = Some cd /\ rwl cd c1 /\ In cw cws) (@ug_wire_rw E)) with (cws := cws) (objs := objs1) (ws0 := @nil wire) (objs' := objs') (ws' := ws') as (t & -> & T).
  - intros cw c1 c2 (cd & D & R & I) R2. exists cd. split; [exact D |]. split; [| exact I]. eapply rwl_trans; [exact R | now apply rw_rwl].
  - intros cw c1 r (cd & D & R & I) Hf. destruct (New cw I) as (Q & _). rewrite Q in Hf. destruct (ug_wire_numbers _ _ Hf) as [V1 V2]. split; [exact V1 |].
    exists cd. split; [now apply named_dget |]. eapply numbers_plain; eauto.
  - intros cw I. destruct (New cw I) as (_ & cd & D). destruct (UB _ _ D) as (c1 & D1 & R). exists c1. split; [exact D1 |]. exists cd. auto.
  - exact H.
  - exact T.
Qed.
End Wires.
