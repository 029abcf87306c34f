(** Resistance and radius of the wires of overhead lines: the unit of a conductor's text counts once. *)
From Coq Require Import Reals ZArith String Ascii List Bool Lia Arith.
From Verif Require Import PyExc Components UnbalancedLine GlmText SpecGlm GlmBase LineImpedance ThreePhase GlmReader SpecReader ReaderBase ReaderLoadProofs ReaderFrame ReaderStore ReaderFile ReaderFrame2 ReaderVisit SpecLineZ SpecReader2 LineFile ReaderKeep.
Import ListNotations.
Local Open Scope string_scope.
Set Implicit Arguments.

Definition wunit (k : string) : string := if String.eqb k "resistance" then "Ohm/km" else "cm".
Definition wfactor (k : string) : R -> R := if String.eqb k "resistance" then (fun y => y * (1609344 / 1000000))%R else (fun y => y / (3048 / 100))%R.
(** the text after the conductor has been used *)
Definition cur (k : string) (used : bool) (t : string) : string := if (used && contains (wunit k) t)%bool then digits t else t.
Definition state (U : string -> bool) (objs objs1 : objects) : Prop := forall n o, dget n objs = Some o ->
  exists o1, dget n objs1 = Some o1 /\ forall k, wkey k -> gattr o1 k = option_map (cur k (U n)) (gattr o k).
Lemma state_start : forall objs, state (fun _ => false) objs objs.
Proof. intros objs n o D. exists o. split; [exact D |]. intros k _. destruct (gattr o k); reflexivity. Qed.
Lemma state_keep : forall U objs a b, state U objs a -> all_keep a b -> state U objs b.
Proof.
  intros U objs a b S K n o D. destruct (S n o D) as (o1 & D1 & G). destruct (K n o1 D1) as (o2 & D2 & K2). exists o2. split; [exact D2 |].
  intros k W. rewrite K2 by exact W. now apply G.
Qed.
Lemma state_ext : forall U V objs a, (forall n, U n = V n) -> state U objs a -> state V objs a.
Proof. intros U V objs a X S n o D. destruct (S n o D) as (o1 & D1 & G). exists o1. split; [exact D1 |]. now rewrite <- X. Qed.

Section Wires.
Variables (E : prims) (sch : list (string * string)).
(** the value a wire gets *)
Definition valued (k : string) (used : bool) (g : option string) : option R :=
  match g with
  | None => None
  | Some t => if contains (wunit k) t then option_map (fun y => if used then y else wfactor k y) (p_float E (digits t)) else p_float E t
  end.
Lemma no_unit_digits : forall k t, wkey k -> contains (wunit k) (digits t) = false.
Proof. intros k t [-> | ->]; apply contains_digits; reflexivity. Qed.
Lemma unit_value : forall k c u g r, wkey k -> gattr c k = option_map (cur k u) g -> unit_attr E c k (wunit k) (wfactor k) = Ok r ->
  snd r = valued k u g /\ gattr (fst r) k = option_map (cur k true) g.
Proof.
  intros k c u g r W G H. unfold unit_attr in H. rewrite G in H. destruct g as [t |]; cbn [option_map] in *; [| injection H as <-; auto].
  unfold cur in *. unfold valued. destruct (contains (wunit k) t) eqn:Ct; [destruct u |]; cbn [andb] in *.
  - rewrite (no_unit_digits t W) in H. inv H. injection H as <-. apply fl_ok in Hx. cbn. now rewrite Hx, G.
  - rewrite Ct in H. inv H. injection H as <-. apply fl_ok in Hx. cbn [fst snd]. rewrite Hx, gattr_set, String.eqb_refl. auto.
  - rewrite andb_false_r in *. rewrite Ct in H. inv H. injection H as <-. apply fl_ok in Hx. cbn. now rewrite Hx, G.
Qed.
Lemma unit_other : forall k k' c f u r, k <> k' -> unit_attr E c k u f = Ok r -> gattr (fst r) k' = gattr c k'.
Proof.
  intros k k' c f u r N H. unfold unit_attr in H. destruct (gattr c k) as [t |]; [| now injection H as <-].
  destruct (contains u t); inv H; injection H as <-; [| reflexivity]. cbn [fst]. rewrite gattr_set. apply String.eqb_neq in N. now rewrite String.eqb_sym, N.
Qed.
Lemma oh_wire_state : forall p c u (o : gobj) r, oh_wire E (new_wire p) c = Ok r ->
  (forall k, wkey k -> gattr c k = option_map (cur k u) (gattr o k)) ->
  w_phase (snd r) = p /\ w_res (snd r) = valued "resistance" u (gattr o "resistance") /\
  w_gmr (snd r) = valued "geometric_mean_radius" u (gattr o "geometric_mean_radius") /\
  forall k, wkey k -> gattr (fst r) k = option_map (cur k true) (gattr o k).
Proof.
  intros p c u o r H S. unfold oh_wire in H. do 5 inv H. injection H as <-. cbn [fst snd w_phase w_res w_gmr new_wire].
  destruct (@unit_value "geometric_mean_radius" c u (gattr o "geometric_mean_radius") x0 (or_intror eq_refl) (S _ (or_intror eq_refl)) Hx0) as [V1 T1].
  assert (S1 : gattr (fst x0) "resistance" = option_map (cur "resistance" u) (gattr o "resistance")).
  { rewrite (@unit_other "geometric_mean_radius" "resistance" _ _ _ _ ltac:(discriminate) Hx0). apply S. now left. }
  destruct (@unit_value "resistance" (fst x0) u (gattr o "resistance") x1 (or_introl eq_refl) S1 Hx1) as [V2 T2].
  split; [reflexivity |]. rewrite V1, V2. split; [| split].
  - clear. unfold or_else. now destruct (valued _ _ _).
  - clear. unfold or_else. now destruct (valued _ _ _).
  - intros k [-> | ->]; [exact T2 |]. rewrite (@unit_other "resistance" "geometric_mean_radius" _ _ _ _ ltac:(discriminate) Hx1). exact T1.
Qed.
Lemma fill_state : forall cws U objs objs1 ws0 objs' ws', (forall cw, In cw cws -> snd cw = new_wire (w_phase (snd cw))) ->
  state U objs objs1 -> mfold (fill (oh_wire E)) cws (objs1, ws0) = Ok (objs', ws') ->
  state (fun n => U n || GlmText.mem n (map fst cws))%bool objs objs' /\
  exists t, ws' = (ws0 ++ t)%list /\ map w_phase t = map (fun cw => w_phase (snd cw)) cws /\
    forall i cw w o, nth_error cws i = Some cw -> nth_error t i = Some w -> dget (fst cw) objs = Some o ->
      let u := (U (fst cw) || GlmText.mem (fst cw) (map fst (firstn i cws)))%bool in
      w_res w = valued "resistance" u (gattr o "resistance") /\ w_gmr w = valued "geometric_mean_radius" u (gattr o "geometric_mean_radius").
Proof.
  induction cws as [| [n w0] cws IH]; intros U objs objs1 ws0 objs' ws' New S H.
  - injection H as <- <-. split; [eapply state_ext; [| exact S]; intros n; cbn; now rewrite orb_false_r |].
    exists []. split; [now rewrite app_nil_r |]. split; [reflexivity |]. intros [| i] cw w o Hn; discriminate Hn.
  - cbn [mfold] in H. inv H. unfold fill in Hx. inv Hx. inv Hx. injection Hx as <-. cbn [fst snd] in *. apply obj_at_dget in Hx0.
    pose proof (New _ (or_introl eq_refl)) as Nw. cbn [snd] in Nw. rewrite Nw in Hx1.
    assert (S1 : state (fun m => U m || String.eqb m n)%bool objs (dset n (fst x1) objs1)).
    { intros m om D. destruct (S m om D) as (o1 & D1 & G). rewrite dget_dset. destruct (String.eqb_spec m n) as [-> | Nm].
      - exists (fst x1). split; [reflexivity |]. rewrite orb_true_r. assert (o1 = x0) as -> by congruence.
        eapply oh_wire_state; eauto.
      - exists o1. split; [exact D1 |]. rewrite orb_false_r. exact G. }
    destruct (IH (fun m => U m || String.eqb m n)%bool objs (dset n (fst x1) objs1) (ws0 ++ [snd x1])%list objs' ws') as (S' & t & -> & P & V);
      [intros cw I; apply New; now right | exact S1 | exact H |].
    split; [eapply state_ext; [| exact S']; intros m; cbn [map fst GlmText.mem existsb]; now rewrite <- orb_assoc |].
    exists (snd x1 :: t). rewrite <- app_assoc. split; [reflexivity |].
    split. { cbn [map snd]. rewrite P. f_equal. unfold oh_wire in Hx1. do 5 inv Hx1. now injection Hx1 as <-. }
    intros [| i] cw w o Hc Hw D; cbn [nth_error] in Hc, Hw.
    + injection Hc as <-. injection Hw as <-. cbn [fst firstn map GlmText.mem existsb] in *. rewrite orb_false_r. destruct (S n o D) as (o1 & D1 & G).
      assert (o1 = x0) as -> by congruence. destruct (@oh_wire_state _ _ _ _ _ Hx1 G) as (_ & V1 & V2 & _). auto.
    + specialize (V i cw w o Hc Hw D). cbn [firstn map fst GlmText.mem existsb]. cbv zeta in *. now rewrite orb_assoc.
Qed.
End Wires.
