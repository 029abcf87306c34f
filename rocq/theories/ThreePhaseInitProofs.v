(** Initial voltages after element creation: only capacitors change them. *)
From Coq Require Import Reals ZArith String Ascii Bool Lia Lra Arith List.
From Verif Require Import PyExc Components Devices UnbalancedLine ThreePhase SpecThreePhase SpecThreeElems ThreePhaseBase ThreePhaseBusProofs ThreePhaseElemProofs ThreePhaseXfmrProofs.
Import ListNotations.
Local Open Scope R_scope.

Section Init.
Variable ms : list dmodel.
(** the buses of [n] in [n'], and the capacitors added in between *)
Definition keeps (n n' : net) : Prop :=
  exists t, nt_caps n' = nt_caps n ++ t /\
  forall i b, nth_error (nt_buses n) i = Some b -> exists b', nth_error (nt_buses n') i = Some b' /\
    (b' = b /\ ~ In i (map tc_bus t) \/ In i (map tc_bus t) /\ ident b' = ident b /\ cap_voltage ms b').
Lemma keeps_refl n : keeps n n.
Proof. exists []. rewrite app_nil_r. split; [reflexivity|]. intros i b E. exists b. split; [exact E|]. left. split; [reflexivity|intros []]. Qed.
Lemma keeps_trans a b c : keeps a b -> keeps b c -> keeps a c.
Proof.
  intros (t & E1 & H1) (u & E2 & H2). exists (t ++ u). split; [now rewrite E2, E1, app_assoc|].
  intros i x E. destruct (H1 _ _ E) as (y & Ey & Hy). destruct (H2 _ _ Ey) as (z & Ez & Hz). exists z. split; [exact Ez|].
  rewrite map_app, in_app_iff. destruct Hz as [[-> N2]|(I2 & D2 & V2)].
  - destruct Hy as [[-> N1]|(I1 & D1 & V1)]; [left; tauto|right; auto].
  - right. split; [auto|]. split; [|exact V2]. destruct Hy as [[-> _]|(_ & D1 & _)]; [exact D2|congruence].
Qed.
Lemma keeps_same n n' : nt_caps n' = nt_caps n -> (exists l, nt_buses n' = nt_buses n ++ l) -> keeps n n'.
Proof.
  intros C [l E]. exists []. rewrite app_nil_r. split; [exact C|]. intros i b Hb. exists b. rewrite E. split.
  - rewrite nth_error_app1; [exact Hb|]. apply nth_error_Some. congruence.
  - left. split; [reflexivity|intros []].
Qed.
Lemma keeps_create n vm va name p v : keeps n (fst (create_bus n vm va name p v)).
Proof. apply keeps_same; [reflexivity|]. eexists. reflexivity. Qed.
Lemma keeps_add n e : e_caps e = [] -> keeps n (add_elems n e).
Proof. intros E. apply keeps_same; [cbn; now rewrite E, app_nil_r|]. exists []. cbn. now rewrite app_nil_r. Qed.
Lemma keeps_create_add n n1 j vm va name p v e : create_bus n vm va name p v = (n1, j) -> e_caps e = [] -> keeps n (add_elems n1 e).
Proof.
  intros E H. eapply keeps_trans; [|now apply keeps_add]. pose proof (keeps_create n vm va name p v) as K. rewrite E in K. exact K.
Qed.
Lemma mfold_keeps A (f : net -> A -> pres net) l : (forall n x n', In x l -> f n x = Ok n' -> keeps n n') -> forall n n', mfold f l n = Ok n' -> keeps n n'.
Proof. intros H. apply (mfold_ext _ _ f keeps l keeps_refl keeps_trans). exact H. Qed.
(** like [mfold_keeps], but the table stays well-formed on the way *)
Lemma mfold_keeps_wf A (f : net -> A -> pres net) l : (forall n x n', In x l -> wf n -> f n x = Ok n' -> keeps n n' /\ wf n') ->
  forall n n', wf n -> mfold f l n = Ok n' -> keeps n n' /\ wf n'.
Proof.
  induction l as [|x l IH]; intros H n n' W E; cbn in E.
  - injection E as <-. split; [apply keeps_refl|exact W].
  - apply bind_ok in E as (n1 & E1 & E2). destruct (H n x n1 (or_introl eq_refl) W E1) as [K1 W1].
    destruct (IH (fun a b c Hb => H a b c (or_intror Hb)) n1 n' W1 E2) as [K2 W2]. split; [eapply keeps_trans; eauto|exact W2].
Qed.
Lemma phcap_keeps c n pc n' : In (MCap c) ms -> In pc (dc_phases c) -> wf n -> create_phcap c n pc = Ok n' -> keeps n n' /\ wf n'.
Proof.
  intros HC HP W E. unfold create_phcap in E. destruct pc as [p var]. destruct (mem p (dc_connected c)) eqn:M; cbn [negb] in E.
  2:{ injection E as <-. split; [apply keeps_refl|exact W]. }
  apply bind_ok in E as (ctl & E1 & E). apply bind_ok in E as (m0 & E2 & E). cbv zeta in E.
  apply bind_ok in E as (par & E3 & E). apply bind_ok in E as (b & E4 & E). apply bind_ok in E as (v & E5 & E).
  apply bind_ok in E as (ang & E6 & E). apply bind_ok in E as (B & E7 & E). apply bind_ok in E as (sw & E8 & E).
  injection E as <-. apply attr_ok in E5. destruct (phase_angle p) as [ang'|] eqn:EA; [|discriminate]. injection E6 as ->. apply angle_standard in EA. subst ang.
  split; [|exact (wf_set_init _ _ _ _ W)].
  eexists. split; [reflexivity|]. intros i x Hx. cbn [add_elems nt_buses set_init set_buses].
  rewrite nth_error_map, Hx. cbn [option_map]. eexists. split; [reflexivity|]. cbn [one_cap e_caps map tc_bus In].
  rewrite (wf_nth _ _ _ W Hx). destruct (Nat.eqb_spec i b) as [->|NE].
  - right. split; [auto|]. split; [unfold ident; cbn; now rewrite (wf_nth _ _ _ W Hx)|]. exists c, p, v. split; [exact HC|]. split.
    { apply in_map_iff. exists (p, var). split; [reflexivity|]. unfold cap_items. apply filter_In. auto. }
    split; [exact E5|]. cbn. auto.
  - left. split; [reflexivity|]. intros [Q|[]]. congruence.
Qed.
Lemma element_keeps inv cap n m n' : In m ms -> good n -> Forall known (element_phases m) -> create_element inv cap n m = Ok n' -> keeps n n'.
Proof.
  intros HM G K E. unfold create_element in E. destruct m as [nd|x|c|r|l|l| |]; try discriminate; try (injection E as <-; apply keeps_refl).
  - unfold create_xfmr in E. destruct (dx_tap x).
    + unfold create_ct in E. destruct (dx_phases x) as [|ph phs]; [discriminate|].
      destruct (dx_windings x) as [|w0 [|w1 [|w2 ws]]]; try discriminate. destruct (dx_reactances x) as [|x0 [|x1 [|x2 xs]]]; try discriminate.
      do 5 (apply bind_ok in E as (? & _ & E)).
      destruct (create_bus n (1/10) (1/10) (dx_name x ++ "_primary") ph true) as [n1 pri] eqn:B1.
      destruct (create_bus n1 (1/10) (1/10) (dx_name x ++ "_sending_1") ph true) as [n2 s1] eqn:B2.
      apply bind_ok in E as (? & _ & E).
      destruct (create_bus n2 (1/10) (1/10) (dx_name x ++ "_sending_2") ph true) as [n3 s2] eqn:B3.
      do 7 (apply bind_ok in E as (? & _ & E)). injection E as <-.
      pose proof (keeps_create n (1/10) (1/10) (dx_name x ++ "_primary") ph true) as K1. rewrite B1 in K1.
      pose proof (keeps_create n1 (1/10) (1/10) (dx_name x ++ "_sending_1") ph true) as K2. rewrite B2 in K2.
      eapply keeps_trans; [exact K1|]. eapply keeps_trans; [exact K2|]. eapply keeps_create_add; [exact B3|reflexivity].
    + destruct (dx_windings x) as [|w1 [|w2 [|]]]; try discriminate.
      destruct (three_raw _ _ _ _ _ E) as (r2 & vp & vs & us & _ & _ & _ & _ & -> & _). now apply keeps_add.
  - unfold create_cap in E. refine (proj1 (mfold_keeps_wf _ (create_phcap c) (dc_phases c) _ n n' (proj1 G) E)).
    intros a pc b Hpc W Es. eapply phcap_keeps; eauto.
  - unfold create_reg in E. do 7 (apply bind_ok in E as (? & _ & E)). revert E. apply mfold_keeps.
    intros a p b _ Es. unfold create_phreg in Es. do 3 (apply bind_ok in Es as (? & _ & Es)).
    destruct (create_bus _ _ _ _ _ _) as [n1 cur] eqn:EB in Es. do 2 (apply bind_ok in Es as (? & _ & Es)). injection Es as <-.
    eapply keeps_create_add; [exact EB|reflexivity].
  - unfold create_line in E. destruct (dl_fuse l); [|destruct (dl_switch l)].
    + revert E. apply mfold_keeps. intros a w b _ Es. unfold create_fuse in Es. do 4 (apply bind_ok in Es as (? & _ & Es)).
      destruct (create_bus _ _ _ _ _ _) as [n1 cur] eqn:EB in Es. injection Es as <-. eapply keeps_create_add; [exact EB|reflexivity].
    + revert E. apply mfold_keeps. intros a w b _ Es. unfold create_switch in Es. apply bind_ok in Es as (ps & _ & Es).
      destruct (negb (mem (wi_phase w) ps)); [injection Es as <-; apply keeps_refl|]. do 2 (apply bind_ok in Es as (? & _ & Es)). injection Es as <-. now apply keeps_add.
    + destruct (new_unbalanced _ _ _ _) as [[z y]|]; [|discriminate]. injection E as <-. now apply keeps_add.
  - unfold create_load in E. destruct (do_name l) as [name|]; [|discriminate]. revert E. apply mfold_keeps.
    intros a pl b _ Es. unfold create_phload in Es. do 2 (apply bind_ok in Es as (? & _ & Es)). injection Es as <-. now apply keeps_add.
Qed.
End Init.
Lemma elements_keep inv cap ms : forall ms' n n', incl ms' ms -> Forall (fun m => Forall known (element_phases m)) ms' -> good n ->
  mfold (create_element inv cap) ms' n = Ok n' -> keeps ms n n'.
Proof.
  induction ms' as [|m ms' IH]; intros n n' I K G E; cbn in E.
  - injection E as <-. apply keeps_refl.
  - apply bind_ok in E as (n1 & E1 & E2). inversion K; subst.
    destruct (element_step _ _ _ _ _ H1 G E1) as (_ & G1 & _).
    eapply keeps_trans; [eapply element_keeps; eauto; apply I; left; reflexivity|].
    apply IH; auto. intros z Hz. apply I. now right.
Qed.
Lemma parse_inits inv cap ms n' : Forall (fun m => Forall known (element_phases m)) ms -> parse_three inv cap ms = Ok n' ->
  exists n, create_buses ms = Ok n /\ forall i b, nth_error (nt_buses n) i = Some b -> exists b', nth_error (nt_buses n') i = Some b' /\
    (~ In i (map tc_bus (nt_caps n')) -> b' = b) /\
    (In i (map tc_bus (nt_caps n')) -> ident b' = ident b /\ cap_voltage ms b').
Proof.
  intros K E. unfold parse_three in E. apply bind_ok in E as (n & E1 & E2). destruct (bare_buses _ _ E1) as [G GR].
  destruct (elements_keep inv cap ms ms n n' (incl_refl _) K G E2) as (t & T & H). exists n. split; [exact E1|].
  destruct GR as (_ & _ & C & _). cbn in C. rewrite C in T. cbn in T. rewrite T.
  intros i b Hb. destruct (H i b Hb) as (b' & N & Q). exists b'. split; [exact N|]. destruct Q as [[-> Q]|(Q1 & Q2)]; split; tauto.
Qed.
