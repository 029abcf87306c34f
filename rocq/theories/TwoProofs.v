(** Spacings with two places, compute_overhead_spacing lines 94-131. *)
From Coq Require Import Reals ZArith String Ascii List Bool Lia Lra Arith.
From Verif Require Import PyExc SpecComponents SpecUnbalanced Components UnbalancedLine GlmText LineImpedance ThreePhase GlmReader SpecReader
  SpecLineZ ReaderBase ReaderFrame KronProofs CarsonProofs SpacingProofs SpecTwo.
Import ListNotations.
Local Open Scope R_scope.
Set Implicit Arguments.

Section Run.
Variable E : prims.
Variable o : gobj.
(** the longest distance so far *)
Definition far (mx : R * nat * nat) (ij : nat * nat) : R * nat * nat :=
  match given E o ij with
  | Some x => if (rltb (fst (fst mx)) x && Nat.ltb (fst ij) 4 && Nat.ltb (snd ij) 4)%bool then (x, fst ij, snd ij) else mx
  | None => mx
  end.
Lemma loop_run : forall l o' d mx, NoDup l -> incl l pairs5 ->
  (forall ij, In ij l -> gattr o' (dname (fst ij) (snd ij)) = gattr o (dname (fst ij) (snd ij))) ->
  (forall ij t, In ij l -> gattr o (dname (fst ij) (snd ij)) = Some t -> exists x, p_float E (digits t) = Some x) ->
  exists o2, mfold (oh_pair E) l (o', d, mx) = Ok (o2, fold_left (put_given E o) l d, fold_left far l mx).
Proof.
  induction l as [| [i j] l IH]; intros o' d mx N I H R; [exists o'; reflexivity |].
  inversion N as [| ? ? N1 N2]; subst. cbn [mfold fold_left].
  assert (S : exists o2, oh_pair E (o', d, mx) (i, j) = Ok (o2, put_given E o d (i, j), far mx (i, j)) /\
      forall ij, In ij l -> gattr o2 (dname (fst ij) (snd ij)) = gattr o (dname (fst ij) (snd ij))).
  { pose proof (H (i, j) (or_introl eq_refl)) as G. cbn [fst snd] in G. unfold oh_pair, put_given, far, given. cbn [fst snd].
    unfold gattr in G at 1. destruct (dget (dname i j) (go_attrs o')) as [t |] eqn:D.
    - assert (K : forall ij, In ij l -> gattr (gset_raw o' (dname i j) (digits t)) (dname (fst ij) (snd ij)) = gattr o (dname (fst ij) (snd ij))).
      { intros ij Hij. rewrite gattr_set. destruct (String.eqb_spec (dname (fst ij) (snd ij)) (dname i j)) as [e |].
        - exfalso. apply (@dname_inj ij (i, j)) in e; [subst; contradiction | apply I; cbn; tauto | apply I; cbn; tauto].
        - apply H. cbn. tauto. }
      destruct (R (i, j) t (or_introl eq_refl) (eq_sym G)) as (x & Fx). rewrite <- G, Fx. unfold fl. rewrite Fx. cbn [pbind].
      exists (gset_raw o' (dname i j) (digits t)). split; [| exact K]. destruct (reqb x 0); reflexivity.
    - rewrite <- G. exists o'. split; [reflexivity |]. intros ij Hij. apply H. cbn. tauto. }
  destruct S as (o2 & -> & S). cbn [pbind]. apply IH; [exact N2 | intros ij Hij; apply I; cbn; tauto | exact S |].
  intros ij t Hij. apply R. cbn. tauto.
Qed.
Lemma loop_far : forall l o' d mx s, NoDup l -> incl l pairs5 ->
  (forall ij, In ij l -> gattr o' (dname (fst ij) (snd ij)) = gattr o (dname (fst ij) (snd ij))) ->
  mfold (oh_pair E) l (o', d, mx) = Ok s -> forall ij t, In ij l -> gattr o (dname (fst ij) (snd ij)) = Some t -> exists x, p_float E (digits t) = Some x.
Proof.
  induction l as [| [i j] l IH]; intros o' d mx s N I H R ij t Hij; [destruct Hij |].
  inversion N as [| ? ? N1 N2]; subst. cbn [mfold] in R. apply bind_ok in R. destruct R as ([[o2 d2] mx2] & R1 & R).
  unfold oh_pair in R1. pose proof (H (i, j) ltac:(cbn; tauto)) as G. cbn [fst snd] in G.
  unfold gattr in G at 1. destruct (dget (dname i j) (go_attrs o')) as [u |] eqn:D.
  - apply bind_ok in R1. destruct R1 as (x & Fx & R1). apply fl_ok in Fx. destruct Hij as [<- | Hij]; [cbn [fst snd]; rewrite <- G; intros X; injection X as <-; eauto |].
    apply (IH (gset_raw o' (dname i j) (digits u)) d2 mx2 s N2); [intros k Hk; apply I; cbn; tauto | | | exact Hij].
    + intros k Hk. rewrite gattr_set. destruct (String.eqb_spec (dname (fst k) (snd k)) (dname i j)) as [e |]; [| apply H; cbn; tauto].
      exfalso. apply (@dname_inj k (i, j)) in e; [subst; contradiction | apply I; cbn; tauto | apply I; cbn; tauto].
    + destruct (reqb x 0); injection R1 as <- <- <-; exact R.
  - injection R1 as <- <- <-. destruct Hij as [<- | Hij]; [cbn [fst snd]; congruence |].
    apply (IH o' d mx s N2); [intros k Hk; apply I; cbn; tauto | intros k Hk; apply H; cbn; tauto | exact R | exact Hij].
Qed.
Lemma accepted_numeric : forall phases r, overhead_spacing E o phases = Ok r -> numeric E o.
Proof.
  intros phases r H. unfold overhead_spacing in H. apply bind_ok in H. destruct H as (s & R & _).
  intros p q t t' B S N. apply before_iff in B. destruct B as (i & j & H1 & H2 & -> & ->). apply only_number_digits in N. subst t'.
  apply gattr_says in S. exact (@loop_far pairs5 o _ _ s pairs_nodup (incl_refl _) (fun _ _ => eq_refl) R (i, j) t (pairs_all H1 H2) S).
Qed.
Lemma numeric_run : numeric E o -> exists o2,
  mfold (oh_pair E) pairs5 (o, no_dist, (-100, 5%nat, 5%nat)) = Ok (o2, table5 E o, fold_left far pairs5 (-100, 5%nat, 5%nat)).
Proof.
  intros H. apply loop_run; [exact pairs_nodup | apply incl_refl | reflexivity |].
  intros [i j] t I G. cbn [fst snd] in G. pose proof (proj1 (Forall_forall _ _) pairs_ok _ I) as (P1 & P2). cbn in P1, P2.
  apply (H (spot i) (spot j) t); [apply before_iff; exists i, j; auto | now apply gattr_says | apply only_digits].
Qed.
Lemma given_none : forall i j, (i < j)%nat -> (j < 5)%nat -> (forall y, ~ apart E o (spot i) (spot j) y) -> given E o (i, j) = None.
Proof.
  intros i j H1 H2 H. destruct (given E o (i, j)) as [y |] eqn:G; [| reflexivity]. destruct (H y). apply apart_iff; [lia | lia | auto].
Qed.
End Run.

(** *** conductors *)
Lemma rev_spot : forall p k, rev_lookup p = Some k -> p = spot k /\ (k < 5)%nat.
Proof.
  intros p k. unfold rev_lookup.
  destruct (String.eqb_spec p "A"); [intros X; injection X as <-; subst; split; [reflexivity | lia] |].
  destruct (String.eqb_spec p "B"); [intros X; injection X as <-; subst; split; [reflexivity | lia] |].
  destruct (String.eqb_spec p "C"); [intros X; injection X as <-; subst; split; [reflexivity | lia] |].
  destruct (String.eqb_spec p "N"); [intros X; injection X as <-; subst; split; [reflexivity | lia] |].
  destruct (String.eqb_spec p "E"); [intros X; injection X as <-; subst; split; [reflexivity | lia] | discriminate].
Qed.
Lemma spot_rev : forall k, (k < 5)%nat -> rev_lookup (spot k) = Some k.
Proof. intros k H. destruct k as [| [| [| [| [| k]]]]]; try lia; reflexivity. Qed.
Lemma two_checked : forall d m a b phases, (a < 5)%nat -> (b < 5)%nat ->
  (oh_two d (m, a, b) phases = Ok tt <->
   incl phases [spot a; spot b] /\ (phases = [] \/ has_earth d = false \/ rltb 1 (Rabs ((at2 d a 4 - at2 d b 4) / m)) = false)).
Proof.
  intros d m a b phases Ha Hb. unfold oh_two. induction phases as [| p l IH]; cbn [mfold].
  - split; [intros _ | reflexivity]. split; [intros x [] | now left].
  - destruct (rev_lookup p) as [k |] eqn:K.
    + destruct (rev_spot _ K) as (-> & Hk). destruct (Nat.eqb k a || Nat.eqb k b)%bool eqn:W.
      * assert (Ip : In (spot k) [spot a; spot b]).
        { apply orb_prop in W. rewrite !Nat.eqb_eq in W. destruct W as [-> | ->]; cbn; tauto. }
        assert (Il : incl (spot k :: l) [spot a; spot b] <-> incl l [spot a; spot b]).
        { split; [intros H x Hx; apply H; now right | intros H x [<- | Hx]; [exact Ip | now apply H]]. }
        rewrite Il. destruct (has_earth d) eqn:He; [destruct (rltb 1 (Rabs ((at2 d a 4 - at2 d b 4) / m))) eqn:Q |]; cbn [pbind negb].
        -- split; [discriminate |]. intros (_ & [X | [X | X]]); discriminate.
        -- rewrite IH. tauto.
        -- rewrite IH. tauto.
      * split; [discriminate |]. intros (H & _). specialize (H (spot k) (or_introl eq_refl)). exfalso.
        apply orb_false_elim in W. rewrite !Nat.eqb_neq in W. destruct H as [H | [H | []]]; apply spot_inj in H; try lia.
    + split; [discriminate |]. intros (H & _). specialize (H p (or_introl eq_refl)). exfalso.
      destruct H as [<- | [<- | []]]; rewrite spot_rev in K by assumption; discriminate.
Qed.

Lemma lt_true : forall x y, x < y -> rltb x y = true.
Proof. intros x y H. unfold rltb. destruct (Rlt_dec x y); [reflexivity | contradiction]. Qed.
Lemma lt_false : forall x y, ~ x < y -> rltb x y = false.
Proof. intros x y H. unfold rltb. destruct (Rlt_dec x y); [contradiction | reflexivity]. Qed.
Lemma eq_false : forall x y, x <> y -> reqb x y = false.
Proof. intros x y H. unfold reqb. destruct (Req_EM_T x y); [contradiction | reflexivity]. Qed.
Lemma eq_true : forall x, reqb x x = true.
Proof. intros x. unfold reqb. destruct (Req_EM_T x x); [reflexivity | contradiction]. Qed.

(** table and longest distance from what is given for the pairs *)
Definition put_with (g : nat * nat -> option R) (d : dmat) (ij : nat * nat) : dmat :=
  match g ij with Some x => put_pair d (fst ij) (snd ij) x | None => d end.
Definition far_with (g : nat * nat -> option R) (mx : R * nat * nat) (ij : nat * nat) : R * nat * nat :=
  match g ij with
  | Some x => if (rltb (fst (fst mx)) x && Nat.ltb (fst ij) 4 && Nat.ltb (snd ij) 4)%bool then (x, fst ij, snd ij) else mx
  | None => mx
  end.
Lemma fold_same : forall A B (f g : A -> B -> A) l a, (forall x b, In b l -> f x b = g x b) -> fold_left f l a = fold_left g l a.
Proof.
  intros A B f g l. induction l as [| b l IH]; intros a H; [reflexivity |]. cbn. rewrite H by (now left). apply IH. intros x c Hc. apply H. now right.
Qed.
Lemma with_given : forall E o g, (forall a b, (a < b)%nat -> (b < 5)%nat -> given E o (a, b) = g (a, b)) ->
  table5 E o = fold_left (put_with g) pairs5 no_dist /\
  fold_left (far E o) pairs5 (-100, 5%nat, 5%nat) = fold_left (far_with g) pairs5 (-100, 5%nat, 5%nat).
Proof.
  intros E o g H. split; apply fold_same; intros x [a b] I; pose proof (proj1 (Forall_forall _ _) pairs_ok _ I) as (P1 & P2); cbn in P1, P2;
  unfold put_given, put_with, far, far_with; now rewrite H.
Qed.
Lemma count_cons : forall A (f : A -> bool) a l, List.length (filter f (a :: l)) = ((if f a then 1 else 0) + List.length (filter f l))%nat.
Proof. intros A f a l. cbn. now destruct (f a). Qed.
Ltac table := repeat match goal with |- context [fold_left (put_with ?g) pairs5 no_dist] =>
  let v := eval lazy -[IZR] in (fold_left (put_with g) pairs5 no_dist) in change (fold_left (put_with g) pairs5 no_dist) with v end.

Lemma two_table : forall E o i j x, (i < j)%nat -> (j < 4)%nat -> 0 < x -> given E o (i, j) = Some x ->
  (forall a b, (a < b)%nat -> (b < 5)%nat -> (a, b) <> (i, j) -> given E o (a, b) = None) ->
  count_given (table5 E o) = 4%nat /\ has_earth (table5 E o) = false /\ fold_left (far E o) pairs5 (-100, 5%nat, 5%nat) = (x, i, j).
Proof.
  intros E o i j x Hij Hj Px G N.
  destruct (@with_given E o (fun ab => if (Nat.eqb (fst ab) i && Nat.eqb (snd ab) j)%bool then Some x else None)) as (-> & ->).
  { intros a b Ha Hb. cbn [fst snd]. destruct (Nat.eqb_spec a i), (Nat.eqb_spec b j); subst; cbn; [exact G | | |]; apply N; try assumption; congruence. }
  clear G N.
  assert (Q : reqb x (-1) = false) by (apply eq_false; lra).
  assert (Z : reqb 0 (-1) = false) by (apply eq_false; lra).
  assert (M : reqb (-1) (-1) = true) by apply eq_true.
  assert (L : rltb (-1) (-1) = false) by (apply lt_false; lra).
  assert (L2 : rltb (-100) x = true) by (apply lt_true; lra).
  unfold count_given, has_earth.
  destruct i as [| [| [| [| i]]]]; destruct j as [| [| [| [| j]]]]; try lia; table; (split; [cbn [concat app]; rewrite !count_cons, ?Q, ?Z, ?M; reflexivity | split; [cbn [nth existsb]; rewrite ?L; reflexivity | lazy -[rltb IZR]; rewrite ?L2; reflexivity]]).
Qed.
Lemma high_table : forall E o i j x hp hq, (i < j)%nat -> (j < 4)%nat -> 0 < x -> 0 < hp -> 0 < hq ->
  given E o (i, j) = Some x -> given E o (i, 4%nat) = Some hp -> given E o (j, 4%nat) = Some hq ->
  (forall a b, (a < b)%nat -> (b < 5)%nat -> (a, b) <> (i, j) -> (a, b) <> (i, 4%nat) -> (a, b) <> (j, 4%nat) -> given E o (a, b) = None) ->
  count_given (table5 E o) = 9%nat /\ has_earth (table5 E o) = true /\ fold_left (far E o) pairs5 (-100, 5%nat, 5%nat) = (x, i, j)
  /\ at2 (table5 E o) i 4 = hp /\ at2 (table5 E o) j 4 = hq.
Proof.
  intros E o i j x hp hq Hij Hj Px Pp Pq G G1 G2 N.
  destruct (@with_given E o (fun ab => if (Nat.eqb (fst ab) i && Nat.eqb (snd ab) j)%bool then Some x else if (Nat.eqb (fst ab) i && Nat.eqb (snd ab) 4)%bool then Some hp
    else if (Nat.eqb (fst ab) j && Nat.eqb (snd ab) 4)%bool then Some hq else None)) as (-> & ->).
  { intros a b Ha Hb. cbn [fst snd]. destruct (Nat.eqb_spec a i), (Nat.eqb_spec b j), (Nat.eqb_spec b 4), (Nat.eqb_spec a j); subst; cbn;
    try assumption; try lia; apply N; try assumption; congruence. }
  clear G G1 G2 N.
  assert (Q : reqb x (-1) = false) by (apply eq_false; lra).
  assert (Q1 : reqb hp (-1) = false) by (apply eq_false; lra).
  assert (Q2 : reqb hq (-1) = false) by (apply eq_false; lra).
  assert (Z : reqb 0 (-1) = false) by (apply eq_false; lra).
  assert (M : reqb (-1) (-1) = true) by apply eq_true.
  assert (L : rltb (-1) (-1) = false) by (apply lt_false; lra).
  assert (L0 : rltb (-1) 0 = true) by (apply lt_true; lra).
  assert (L1 : rltb (-1) hp = true) by (apply lt_true; lra).
  assert (L3 : rltb (-1) hq = true) by (apply lt_true; lra).
  assert (L2 : rltb (-100) x = true) by (apply lt_true; lra).
  unfold count_given, has_earth.
  destruct i as [| [| [| [| i]]]]; destruct j as [| [| [| [| j]]]]; try lia; table;
  (split; [cbn [concat app]; rewrite !count_cons, ?Q, ?Q1, ?Q2, ?Z, ?M; reflexivity
          | split; [cbn [nth existsb]; rewrite ?L, ?L0, ?L1, ?L3; reflexivity
                   | split; [lazy -[rltb IZR]; rewrite ?L2; repeat match goal with |- context [rltb ?u ?v] => destruct (rltb u v) end; reflexivity
                            | split; reflexivity]]]).
Qed.

(** *** accepted or not *)
Lemma two_places : forall E o phases p q x, numeric E o -> just_two E o p q x ->
  ((exists r, overhead_spacing E o phases = Ok r) <-> incl phases [p; q]).
Proof.
  intros E o phases p q x Nu (Hq & Px & A & Only). destruct (proj1 A) as (l & m & r & Hs).
  destruct (proj1 (before_iff p q) (ex_intro _ l (ex_intro _ m (ex_intro _ r Hs)))) as (i & j & H1 & H2 & -> & ->).
  assert (Hj : (j < 4)%nat). { destruct (Nat.eq_dec j 4) as [-> |]; [destruct Hq; reflexivity | lia]. }
  apply apart_iff in A; [| lia | lia]. destruct A as (_ & G).
  assert (N : forall a b, (a < b)%nat -> (b < 5)%nat -> (a, b) <> (i, j) -> given E o (a, b) = None).
  { intros a b Ha Hb Ne. apply given_none; [assumption | assumption |]. intros y Y. destruct (Only _ _ _ Y) as (X1 & X2).
    apply spot_inj in X1; [| lia | lia]. apply spot_inj in X2; [| lia | lia]. congruence. }
  destruct (two_table E o H1 Hj Px G N) as (Ct & He & Mx).
  destruct (numeric_run Nu) as (o2 & R). unfold overhead_spacing. rewrite R. cbn [pbind]. rewrite Mx, Ct, He.
  change (Nat.eqb (Nat.sqrt 4 - 0) 2) with true. cbn iota.
  pose proof (two_checked (table5 E o) x (a := i) (b := j) phases ltac:(lia) ltac:(lia)) as W. rewrite He in W.
  split.
  - intros (s & S). apply bind_ok in S. destruct S as ([] & S & _). now apply W in S.
  - intros I. assert (S : oh_two (table5 E o) (x, i, j) phases = Ok tt) by (apply W; auto). rewrite S. cbn. eauto.
Qed.
Lemma two_heights : forall E o phases p q x hp hq, numeric E o -> two_high E o p q x hp hq ->
  ((exists r, overhead_spacing E o phases = Ok r) <-> phases = [] \/ (incl phases [p; q] /\ Rabs (hp - hq) <= x)).
Proof.
  intros E o phases p q x hp hq Nu (Hq & Px & Pp & Pq & A & A1 & A2 & Only). destruct (proj1 A) as (l & m & r & Hs).
  destruct (proj1 (before_iff p q) (ex_intro _ l (ex_intro _ m (ex_intro _ r Hs)))) as (i & j & H1 & H2 & -> & ->).
  assert (Hj : (j < 4)%nat). { destruct (Nat.eq_dec j 4) as [-> |]; [destruct Hq; reflexivity | lia]. }
  change "E"%string with (spot 4) in A1, A2, Only.
  apply apart_iff in A; [| lia | lia]. destruct A as (_ & G).
  apply apart_iff in A1; [| lia | lia]. destruct A1 as (_ & G1).
  apply apart_iff in A2; [| lia | lia]. destruct A2 as (_ & G2).
  assert (N : forall a b, (a < b)%nat -> (b < 5)%nat -> (a, b) <> (i, j) -> (a, b) <> (i, 4%nat) -> (a, b) <> (j, 4%nat) -> given E o (a, b) = None).
  { intros a b Ha Hb Ne1 Ne2 Ne3. apply given_none; [assumption | assumption |]. intros y Y.
    destruct (Only _ _ _ Y) as [(X1 & X2) | [(X1 & X2) | (X1 & X2)]];
    (apply spot_inj in X1; [| lia | lia]); (apply spot_inj in X2; [| lia | lia]); congruence. }
  destruct (high_table E o H1 Hj Px Pp Pq G G1 G2 N) as (Ct & He & Mx & T1 & T2).
  destruct (numeric_run Nu) as (o2 & R). unfold overhead_spacing. rewrite R. cbn [pbind]. rewrite Mx, Ct, He.
  change (Nat.eqb (Nat.sqrt 9 - 1) 2) with true. cbn iota.
  pose proof (two_checked (table5 E o) x (a := i) (b := j) phases ltac:(lia) ltac:(lia)) as W. rewrite He, T1, T2 in W.
  assert (B : rltb 1 (Rabs ((hp - hq) / x)) = false <-> Rabs (hp - hq) <= x).
  { unfold Rdiv. rewrite Rabs_mult, (Rabs_right (/ x)) by (apply Rle_ge, Rlt_le, Rinv_0_lt_compat, Px).
    assert (X : Rabs (hp - hq) = Rabs (hp - hq) * / x * x) by (field; lra).
    unfold rltb. destruct (Rlt_dec 1 (Rabs (hp - hq) * / x)) as [K | K]; split; intros Y; try discriminate; try reflexivity.
    - exfalso. rewrite X in Y. nra.
    - rewrite X. nra. }
  rewrite B in W. split.
  - intros (s & S). apply bind_ok in S. destruct S as ([] & S & _). apply W in S. destruct S as (S & [S1 | [S1 | S1]]); [now left | discriminate | now right].
  - intros H. assert (S : oh_two (table5 E o) (x, i, j) phases = Ok tt).
    { apply W. destruct H as [-> | (H & K)]; [split; [intros y [] | now left] | auto]. }
    rewrite S. cbn. eauto.
Qed.
