(** Proofs about voltage limiting (C21, C22). *)
From Coq Require Import List Bool Arith Reals Lra Lia.
From Verif Require Import VLimit SpecVLimit.
Import ListNotations.
Local Open Scope R_scope.

Lemma set_true_spec : forall l i l', set_true l i = Some l' ->
  length l' = length l /\ (i < length l)%nat /\ forall j, nth j l' false = true <-> nth j l false = true \/ j = i.
Proof.
  induction l as [|b l IH]; intros i l' H; [discriminate|]. destruct i as [|i]; simpl in H.
  - injection H as <-. simpl. split; [auto|]. split; [lia|]. intros j. split.
    + intros Hj. destruct j; [auto|]. left. exact Hj.
    + destruct j; [auto|]. intros [Hj|Hj]; [exact Hj|discriminate].
  - destruct (set_true l i) as [r|] eqn:E; [|discriminate]. injection H as <-. destruct (IH _ _ E) as [A [B C]].
    simpl. split; [lia|]. split; [lia|]. intros [|j]; simpl; [split; [auto|intros [X|X]; [auto|lia]]|].
    rewrite C. split; intros [X|X]; auto; try (right; lia). 
Qed.
Lemma set_true_some : forall l i, (i < length l)%nat -> exists l', set_true l i = Some l'.
Proof.
  induction l as [|b l IH]; intros i H; simpl in H; [lia|]. destruct i; simpl; [eauto|].
  destruct (IH i ltac:(lia)) as [l' ->]. simpl. eauto.
Qed.

Definition mark (acc : option (list bool)) (b : nat * nat) : option (list bool) :=
  match acc with
  | None => None
  | Some m => match set_true m (fst b) with None => None | Some m' => set_true m' (snd b) end
  end.
Lemma mark_none : forall bs, fold_left mark bs None = None.
Proof. induction bs; simpl; auto. Qed.

Lemma mask_spec : forall bs m m', fold_left mark bs (Some m) = Some m' ->
  length m' = length m /\ (forall b, In b bs -> (fst b < length m /\ snd b < length m)%nat) /\
  forall j, nth j m' false = true <-> nth j m false = true \/ is_bus_index bs j.
Proof.
  induction bs as [|b bs IH]; intros m m' H; simpl in H.
  - injection H as <-. split; [auto|]. split; [intros b []|]. intros j. split; auto. intros [X|[b [[] _]]]. auto.
  - destruct (set_true m (fst b)) as [m1|] eqn:E1; [|rewrite mark_none in H; discriminate].
    destruct (set_true m1 (snd b)) as [m2|] eqn:E2; [|rewrite mark_none in H; discriminate].
    destruct (set_true_spec _ _ _ E1) as [A1 [B1 C1]]. destruct (set_true_spec _ _ _ E2) as [A2 [B2 C2]].
    destruct (IH _ _ H) as [A [B C]]. split; [lia|]. split.
    + intros c [<-|Hc]; [lia|]. specialize (B c Hc). lia.
    + intros j. rewrite C, C2, C1. unfold is_bus_index. split.
      * intros [[[X| ->]| ->]|[c [Hc Hj]]]; auto; right; [exists b|exists b|exists c]; simpl; auto.
      * intros [X|[c [[<-|Hc] [Hj|Hj]]]]; subst; auto; right; exists c; auto.
Qed.
Lemma mask_some : forall bs m, (forall b, In b bs -> (fst b < length m /\ snd b < length m)%nat) -> exists m', fold_left mark bs (Some m) = Some m'.
Proof.
  induction bs as [|b bs IH]; intros m H; simpl; [eauto|].
  destruct (H b (or_introl eq_refl)) as [H1 H2].
  destruct (set_true_some m (fst b) H1) as [m1 E1]. rewrite E1. destruct (set_true_spec _ _ _ E1) as [A1 _].
  destruct (set_true_some m1 (snd b) ltac:(lia)) as [m2 E2]. rewrite E2. destruct (set_true_spec _ _ _ E2) as [A2 _].
  apply IH. intros c Hc. specialize (H c (or_intror Hc)). lia.
Qed.

Lemma nth_repeat_false : forall n j, nth j (repeat false n) false = false.
Proof. induction n; destruct j; simpl; auto. Qed.

Definition limited (p x : R) : R := clip (p + clip (x - p) (- V_DIFF_MAX) V_DIFF_MAX) V_MIN V_MAX.

Lemma limit_vec_spec : forall m x p y, limit_vec m x p = Some y ->
  length y = length x /\ length m = length x /\ length p = length x /\
  forall i, (i < length x)%nat -> nth i y 0 = if nth i m false then limited (nth i p 0) (nth i x 0) else nth i x 0.
Proof.
  induction m as [|b m IH]; intros x p y H; destruct x as [|x0 x], p as [|p0 p]; simpl in H; try discriminate.
  - injection H as <-. simpl. repeat split; auto. lia.
  - destruct (limit_vec m x p) as [r|] eqn:E; [|discriminate]. injection H as <-.
    destruct (IH _ _ _ E) as [A [B [C D]]]. simpl. repeat split; try lia. intros [|i] Hi; [reflexivity|]. apply D. lia.
Qed.
Lemma limit_vec_some : forall m x p, length m = length x -> length p = length x -> exists y, limit_vec m x p = Some y.
Proof.
  induction m as [|b m IH]; intros x p H1 H2; destruct x, p; simpl in *; try discriminate; [eauto|].
  destruct (IH x p ltac:(lia) ltac:(lia)) as [y ->]. simpl. eauto.
Qed.

Lemma limited_closest : forall p x, -2 <= p <= 2 -> closest_allowed p x (limited p x).
Proof.
  intros p x Hp. unfold closest_allowed, limited, clip, V_DIFF_MAX, V_MIN, V_MAX. 
  unfold Rmin, Rmax; repeat destruct Rle_dec; (split; [lra|]); (split; [unfold Rabs; destruct Rcase_abs; lra|]);
   intros z Hz Hzp; unfold Rabs in *; repeat destruct Rcase_abs; lra.
Qed.
Lemma limited_band : forall p x, -2 <= limited p x <= 2.
Proof. intros. unfold limited, clip, V_DIFF_MAX, V_MIN, V_MAX, Rmin, Rmax; repeat destruct Rle_dec; lra. Qed.
Lemma limited_same : forall p x, -2 <= x <= 2 -> Rabs (x - p) <= 1 -> limited p x = x.
Proof.
  intros p x Hx H. assert (-1 <= x - p <= 1) by (unfold Rabs in H; destruct Rcase_abs; lra).
  unfold limited, clip, V_DIFF_MAX, V_MIN, V_MAX, Rmin, Rmax; repeat destruct Rle_dec; lra.
Qed.
Lemma limited_outside : forall p x, (3 < Rabs p -> 1 < Rabs (limited p x - p)) /\ (2 < Rabs p -> limited p p <> p).
Proof.
  intros p x. pose proof (limited_band p x). pose proof (limited_band p p). split; intros Hp.
  - unfold Rabs in *. repeat destruct Rcase_abs; lra.
  - intros E. rewrite E in *. unfold Rabs in Hp. destruct Rcase_abs; lra.
Qed.

Lemma limiting_spec : forall n buses x p y, apply_limiting n buses x p = Some y ->
  length y = length x /\ forall i, (i < length x)%nat ->
    (is_bus_index buses i -> nth i y 0 = limited (nth i p 0) (nth i x 0)) /\ (~ is_bus_index buses i -> nth i y 0 = nth i x 0).
Proof.
  intros n buses x p y H. unfold apply_limiting, create_mask in H. fold mark in H.
  change (fold_left _ buses (Some (repeat false n))) with (fold_left mark buses (Some (repeat false n))) in H.
  destruct (fold_left mark buses (Some (repeat false n))) as [m|] eqn:E; [|discriminate].
  destruct (mask_spec _ _ _ E) as [A [B C]]. destruct (limit_vec_spec _ _ _ _ H) as [L1 [L2 [L3 L4]]].
  split; [exact L1|]. intros i Hi. rewrite L4 by auto. specialize (C i). rewrite nth_repeat_false in C.
  split; intros Hb.
  - replace (nth i m false) with true; auto. symmetry. apply C. auto.
  - destruct (nth i m false); auto. exfalso. destruct (proj1 C eq_refl); [discriminate|auto].
Qed.

Lemma limiting_result : forall n buses x p y, apply_limiting n buses x p = Some y ->
  length y = length x /\
  forall i, (i < length x)%nat ->
    (~ is_bus_index buses i -> nth i y 0 = nth i x 0) /\
    (is_bus_index buses i ->
       -2 <= nth i y 0 <= 2 /\
       (-2 <= nth i p 0 <= 2 -> closest_allowed (nth i p 0) (nth i x 0) (nth i y 0)) /\
       (-2 <= nth i x 0 <= 2 -> Rabs (nth i x 0 - nth i p 0) <= 1 -> nth i y 0 = nth i x 0)).
Proof.
  intros n buses x p y H. destruct (limiting_spec _ _ _ _ _ H) as [A B]. split; auto. intros i Hi. destruct (B i Hi) as [B1 B2].
  split; auto. intros Hb. rewrite (B1 Hb). split; [apply limited_band|]. split; [apply limited_closest|apply limited_same].
Qed.

Lemma limiting_defined : forall n buses x p,
  (exists y, apply_limiting n buses x p = Some y) <->
  (length x = n /\ length p = n /\ forall i, is_bus_index buses i -> (i < n)%nat).
Proof.
  intros n buses x p. unfold apply_limiting, create_mask.
  change (fold_left _ buses (Some (repeat false n))) with (fold_left mark buses (Some (repeat false n))). split.
  - intros [y H]. destruct (fold_left mark buses (Some (repeat false n))) as [m|] eqn:E; [|discriminate].
    destruct (mask_spec _ _ _ E) as [A [B C]]. destruct (limit_vec_spec _ _ _ _ H) as [L1 [L2 [L3 L4]]].
    rewrite repeat_length in *. split; [lia|]. split; [lia|]. intros i [b [Hb Hi]]. specialize (B b Hb). lia.
  - intros [H1 [H2 H3]]. destruct (mask_some buses (repeat false n)) as [m E].
    { intros b Hb. rewrite repeat_length. split; apply H3; exists b; auto. }
    rewrite E. destruct (mask_spec _ _ _ E) as [A _]. rewrite repeat_length in A. apply limit_vec_some; lia.
Qed.

Lemma limiting_outside : forall n buses x p y i, apply_limiting n buses x p = Some y -> (i < length x)%nat -> is_bus_index buses i ->
  (3 < Rabs (nth i p 0) -> 1 < Rabs (nth i y 0 - nth i p 0)) /\
  (2 < Rabs (nth i p 0) -> nth i x 0 = nth i p 0 -> nth i y 0 <> nth i x 0).
Proof.
  intros n buses x p y i H Hi Hb. destruct (limiting_spec _ _ _ _ _ H) as [A B]. destruct (B i Hi) as [B1 _]. rewrite (B1 Hb).
  destruct (limited_outside (nth i p 0) (nth i x 0)) as [O1 O2]. split; auto. intros Hp E. rewrite E. auto.
Qed.
