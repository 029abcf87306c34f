(** Lemmas about expressions: canonical form preserves value and derivative, [diff] is the derivative. *)
From Coq Require Import ZArith Reals List String Bool Lia Lra Permutation.
From Verif Require Import Expr.
Import ListNotations.
Local Open Scope string_scope.
Local Open Scope R_scope.
Local Open Scope list_scope.

(** ** Equality tests *)
Lemma string_compare_eq : forall a b, String.compare a b = Eq -> a = b.
Proof. intros a b H. now apply String.compare_eq_iff. Qed.

Lemma expr_compare_eq : forall a b, expr_compare a b = Eq -> a = b.
Proof.
  induction a; destruct b; simpl; intros H; try discriminate.
  - apply Z.compare_eq in H. congruence.
  - apply string_compare_eq in H. congruence.
  - destruct (expr_compare a1 b1) eqn:E; try discriminate. f_equal; auto.
  - destruct (expr_compare a1 b1) eqn:E; try discriminate. f_equal; auto.
  - destruct (expr_compare a b) eqn:E; try discriminate. apply Z.compare_eq in H. f_equal; auto.
  - f_equal; auto.
  - f_equal; auto.
Qed.

Lemma string_compare_refl : forall s, String.compare s s = Eq.
Proof.
  induction s as [|c s IH]; simpl; auto. unfold Ascii.compare. now rewrite N.compare_refl.
Qed.

Lemma expr_compare_refl : forall a, expr_compare a a = Eq.
Proof.
  induction a; simpl.
  - apply Z.compare_refl.
  - apply string_compare_refl.
  - now rewrite IHa1.
  - now rewrite IHa1.
  - rewrite IHa. apply Z.compare_refl.
  - auto.
  - auto.
Qed.

Lemma expr_eqb_eq : forall a b, expr_eqb a b = true <-> a = b.
Proof.
  unfold expr_eqb; split; intros H.
  - destruct (expr_compare a b) eqn:E; try discriminate. now apply expr_compare_eq.
  - subst. now rewrite expr_compare_refl.
Qed.

Lemma factors_compare_eq : forall f g, factors_compare f g = Eq -> f = g.
Proof.
  induction f as [|[b k] f IH]; destruct g as [|[b' k'] g]; simpl; intros H; try discriminate; auto.
  destruct (expr_compare b b') eqn:E; try discriminate.
  destruct (Z.compare k k') eqn:E2; try discriminate.
  apply expr_compare_eq in E. apply Z.compare_eq in E2. f_equal; [congruence|auto].
Qed.

(** ** Dual numbers a + b*eps *)
Definition dual := (R * R)%type.
Definition d0 : dual := (0, 0).
Definition d1 : dual := (1, 0).
Definition dadd (x y : dual) : dual := (fst x + fst y, snd x + snd y).
Definition dmul (x y : dual) : dual := (fst x * fst y, snd x * fst y + fst x * snd y).
Definition dopp (x : dual) : dual := (- fst x, - snd x).
Definition dsub (x y : dual) : dual := dadd x (dopp y).
Definition dconst (z : Z) : dual := (IZR z, 0).
Definition dpow (x : dual) (n : Z) : dual :=
  (powerRZ (fst x) n, IZR n * powerRZ (fst x) (n - 1) * snd x).

Lemma dual_eq : forall x y : dual, fst x = fst y -> snd x = snd y -> x = y.
Proof. destruct x, y; simpl; congruence. Qed.

Lemma dual_ring : ring_theory d0 d1 dadd dmul dsub dopp (@eq dual).
Proof. constructor; intros; apply dual_eq; simpl; ring. Qed.
Add Ring DualRing : dual_ring.

Lemma dconst_mul : forall a b, dconst (a * b) = dmul (dconst a) (dconst b).
Proof. intros; apply dual_eq; simpl; rewrite ?mult_IZR; ring. Qed.
Lemma dconst_add : forall a b, dconst (a + b) = dadd (dconst a) (dconst b).
Proof. intros; apply dual_eq; simpl; rewrite ?plus_IZR; ring. Qed.
Lemma dconst_0 : dconst 0 = d0. Proof. reflexivity. Qed.
Lemma dconst_1 : dconst 1 = d1. Proof. reflexivity. Qed.

Lemma powerRZ_nonneg : forall x n, (0 <= n)%Z -> powerRZ x n = x ^ Z.to_nat n.
Proof.
  intros x [|p|p] H; simpl; auto. lia.
Qed.

Lemma dpow_0 : forall x, dpow x 0 = d1.
Proof. intros; apply dual_eq; simpl; ring. Qed.
Lemma dpow_1 : forall x, dpow x 1 = x.
Proof. intros; apply dual_eq; simpl; ring. Qed.

Lemma powerRZ_pred_mul : forall a n, (1 <= n)%Z -> a * powerRZ a (n - 1) = powerRZ a n.
Proof.
  intros a n H. rewrite !powerRZ_nonneg by lia.
  replace (Z.to_nat n) with (S (Z.to_nat (n - 1))) by lia. reflexivity.
Qed.

Lemma powerRZ_add_nonneg : forall a m n, (0 <= m)%Z -> (0 <= n)%Z ->
  powerRZ a (m + n) = powerRZ a m * powerRZ a n.
Proof.
  intros. rewrite !powerRZ_nonneg by lia. rewrite Z2Nat.inj_add by lia. apply pow_add.
Qed.

Lemma dpow_add : forall x m n, fst x <> 0 \/ (0 <= m /\ 0 <= n)%Z ->
  dpow x (m + n) = dmul (dpow x m) (dpow x n).
Proof.
  intros [a a'] m n [H | [Hm Hn]]; simpl in *; apply dual_eq; simpl.
  - now apply powerRZ_add.
  - replace (m + n - 1)%Z with ((m - 1) + n)%Z by lia.
    rewrite (powerRZ_add a (m - 1) n H).
    replace (powerRZ a m) with (powerRZ a (m - 1) * a).
    2:{ replace m with ((m - 1) + 1)%Z at 2 by lia. rewrite powerRZ_add by auto. simpl. ring. }
    replace (powerRZ a n) with (powerRZ a (n - 1) * a).
    2:{ replace n with ((n - 1) + 1)%Z at 2 by lia. rewrite powerRZ_add by auto. simpl. ring. }
    rewrite plus_IZR. ring.
  - now apply powerRZ_add_nonneg.
  - destruct (Z.eq_dec m 0) as [->|Hm0].
    { simpl. ring. }
    destruct (Z.eq_dec n 0) as [->|Hn0].
    { rewrite Z.add_0_r. simpl. ring. }
    rewrite plus_IZR.
    replace (m + n - 1)%Z with ((m - 1) + (n - 1) + 1)%Z by lia.
    rewrite !powerRZ_add_nonneg by lia. simpl.
    rewrite <- (powerRZ_pred_mul a n), <- (powerRZ_pred_mul a m) by lia. ring.
Qed.

Lemma dpow_dmul : forall x y n, fst x <> 0 -> fst y <> 0 ->
  dpow (dmul x y) n = dmul (dpow x n) (dpow y n).
Proof.
  intros [a a'] [b b'] n Ha Hb; simpl in *. apply dual_eq; simpl.
  - apply powerRZ_mult.
  - rewrite !powerRZ_mult.
    replace (powerRZ a n) with (powerRZ a (n - 1) * a).
    2:{ replace n with ((n - 1) + 1)%Z at 2 by lia. rewrite powerRZ_add by auto. simpl. ring. }
    replace (powerRZ b n) with (powerRZ b (n - 1) * b).
    2:{ replace n with ((n - 1) + 1)%Z at 2 by lia. rewrite powerRZ_add by auto. simpl. ring. }
    ring.
Qed.

Lemma powerRZ_powerRZ : forall a m n, a <> 0 -> powerRZ (powerRZ a m) n = powerRZ a (m * n).
Proof.
  intros a m n Ha.
  assert (Hn : forall k : nat, powerRZ (powerRZ a m) (Z.of_nat k) = powerRZ a (m * Z.of_nat k)).
  { induction k.
    - simpl. now rewrite Z.mul_0_r.
    - rewrite Nat2Z.inj_succ. unfold Z.succ.
      rewrite powerRZ_add by (now apply powerRZ_NOR). rewrite IHk.
      replace (m * (Z.of_nat k + 1))%Z with (m * Z.of_nat k + m)%Z by ring.
      rewrite (powerRZ_add a) by auto. simpl. ring. }
  destruct (Z_le_gt_dec 0 n).
  - specialize (Hn (Z.to_nat n)). now rewrite Z2Nat.id in Hn by lia.
  - specialize (Hn (Z.to_nat (- n))). rewrite Z2Nat.id in Hn by lia.
    rewrite powerRZ_neg' in Hn. rewrite Z.mul_opp_r, powerRZ_neg' in Hn.
    rewrite <- (Rinv_inv (powerRZ (powerRZ a m) n)), Hn. apply Rinv_inv.
Qed.

Lemma dpow_dpow : forall x m n, fst x <> 0 -> dpow (dpow x m) n = dpow x (m * n).
Proof.
  intros [a a'] m n Ha; simpl in *. apply dual_eq; simpl.
  - now apply powerRZ_powerRZ.
  - rewrite powerRZ_powerRZ by auto. rewrite mult_IZR.
    replace (m * n - 1)%Z with (m * (n - 1) + (m - 1))%Z by ring.
    rewrite (powerRZ_add a) by auto. ring.
Qed.

(** ** Dual-number value of an expression; [dlt] gives the direction. *)
Fixpoint dden (e : expr) (rho dlt : env) : dual :=
  match e with
  | Const z => dconst z
  | Sym s => (rho s, dlt s)
  | Add a b => dadd (dden a rho dlt) (dden b rho dlt)
  | Mul a b => dmul (dden a rho dlt) (dden b rho dlt)
  | Pow a n => dpow (dden a rho dlt) n
  | Sin a => (sin (fst (dden a rho dlt)), cos (fst (dden a rho dlt)) * snd (dden a rho dlt))
  | Cos a => (cos (fst (dden a rho dlt)), - sin (fst (dden a rho dlt)) * snd (dden a rho dlt))
  end.

Definition dir (x : sym) : env := fun s => if String.eqb s x then 1 else 0.

Lemma dden_fst : forall e rho dlt, fst (dden e rho dlt) = den e rho.
Proof.
  induction e; intros; simpl; auto; rewrite ?IHe, ?IHe1, ?IHe2; auto.
Qed.

Lemma dden_snd : forall e rho x, snd (dden e rho (dir x)) = den (diff e x) rho.
Proof.
  induction e; intros; simpl; rewrite ?dden_fst, ?IHe, ?IHe1, ?IHe2; auto.
  - unfold dir. destruct (String.eqb s x); reflexivity.
  - destruct (Z.eqb_spec n 0); simpl; [subst; ring|]. reflexivity.
  - ring.
Qed.

(** value of factors, monomials and polynomials *)
Fixpoint dfac (fs : list factor) (rho dlt : env) : dual :=
  match fs with
  | [] => d1
  | (b, k) :: r => dmul (dpow (dden b rho dlt) k) (dfac r rho dlt)
  end.
Definition dmono (m : mono) (rho dlt : env) : dual := dmul (dconst (fst m)) (dfac (snd m) rho dlt).
Fixpoint dpoly (p : poly) (rho dlt : env) : dual :=
  match p with
  | [] => d0
  | m :: r => dadd (dmono m rho dlt) (dpoly r rho dlt)
  end.

Lemma dden_of_factor : forall b k rho dlt, dden (of_factor (b, k)) rho dlt = dpow (dden b rho dlt) k.
Proof.
  intros. unfold of_factor. destruct (Z.eqb_spec k 1).
  - subst. now rewrite dpow_1.
  - reflexivity.
Qed.

Lemma dden_of_factors : forall fs rho dlt, dden (of_factors fs) rho dlt = dfac fs rho dlt.
Proof.
  induction fs as [|[b k] fs IH]; intros; [reflexivity|].
  destruct fs as [|f fs].
  - change (of_factors [(b, k)]) with (of_factor (b, k)).
    rewrite dden_of_factor. simpl. ring.
  - change (of_factors ((b, k) :: f :: fs)) with (Mul (of_factor (b, k)) (of_factors (f :: fs))).
    change (dden (Mul (of_factor (b, k)) (of_factors (f :: fs))) rho dlt)
      with (dmul (dden (of_factor (b,k)) rho dlt) (dden (of_factors (f :: fs)) rho dlt)).
    rewrite IH, dden_of_factor. reflexivity.
Qed.

Lemma dden_of_mono : forall m rho dlt, dden (of_mono m) rho dlt = dmono m rho dlt.
Proof.
  intros [c fs] rho dlt. unfold of_mono, dmono. destruct fs as [|f fs].
  - simpl. ring.
  - destruct (Z.eqb_spec c 1).
    + subst. rewrite dden_of_factors. change (fst (1%Z, f :: fs)) with 1%Z.
      rewrite dconst_1. change (snd (1%Z, f :: fs)) with (f :: fs). ring.
    + change (dden (Mul (Const c) (of_factors (f :: fs))) rho dlt)
        with (dmul (dconst c) (dden (of_factors (f :: fs)) rho dlt)).
      rewrite dden_of_factors. reflexivity.
Qed.

Lemma dden_of_poly : forall p rho dlt, dden (of_poly p) rho dlt = dpoly p rho dlt.
Proof.
  induction p as [|m p IH]; intros; [reflexivity|].
  destruct p as [|m' p].
  - simpl of_poly. rewrite dden_of_mono. simpl. ring.
  - change (of_poly (m :: m' :: p)) with (Add (of_mono m) (of_poly (m' :: p))).
    change (dden (Add (of_mono m) (of_poly (m' :: p))) rho dlt)
      with (dadd (dden (of_mono m) rho dlt) (dden (of_poly (m' :: p)) rho dlt)).
    rewrite IH, dden_of_mono. reflexivity.
Qed.

(** ** Invariants of the canonical form *)
Definition wd_factor (rho : env) (f : factor) : Prop :=
  wd (fst f) rho /\ ((snd f < 0)%Z -> den (fst f) rho <> 0).
Definition wd_mono (rho : env) (m : mono) : Prop := Forall (wd_factor rho) (snd m).
Definition wd_poly (rho : env) (p : poly) : Prop := Forall (wd_mono rho) p.

Section Ops.
Variables rho dlt : env.

Lemma dpow_add_wd : forall b k k', wd_factor rho (b, k) -> wd_factor rho (b, k') ->
  dpow (dden b rho dlt) (k + k') = dmul (dpow (dden b rho dlt) k) (dpow (dden b rho dlt) k').
Proof.
  intros b k k' [_ H1] [_ H2]; simpl in *. apply dpow_add. rewrite dden_fst.
  destruct (Z_lt_ge_dec k 0); [left; auto|]. destruct (Z_lt_ge_dec k' 0); [left; auto|]. right; lia.
Qed.

Lemma bump_factor_ok : forall b k fs, find_base b fs = true ->
  wd_factor rho (b, k) -> Forall (wd_factor rho) fs ->
  Forall (wd_factor rho) (bump_factor b k fs) /\
  dfac (bump_factor b k fs) rho dlt = dmul (dpow (dden b rho dlt) k) (dfac fs rho dlt).
Proof.
  induction fs as [|[b' k'] fs IH]; simpl; intros Hf Hb Hfs; [discriminate|].
  inversion Hfs as [|? ? H1 H2]; subst. destruct (expr_eqb b b') eqn:E; simpl in Hf.
  - apply expr_eqb_eq in E; subst b'.
    destruct (Z.eqb_spec (k + k') 0) as [E0|E0].
    + split; auto.
      assert (Hx := dpow_add_wd b k k' Hb H1). rewrite E0, dpow_0 in Hx.
      replace (dmul (dpow (dden b rho dlt) k) (dmul (dpow (dden b rho dlt) k') (dfac fs rho dlt)))
        with (dmul (dmul (dpow (dden b rho dlt) k) (dpow (dden b rho dlt) k')) (dfac fs rho dlt)) by ring.
      rewrite <- Hx. ring.
    + split.
      * constructor; auto. split; simpl; [apply H1|]. intros Hlt.
        destruct Hb as [_ Hb], H1 as [_ H1]; simpl in *.
        destruct (Z_lt_ge_dec k 0); auto. apply H1; lia.
      * simpl. rewrite (dpow_add_wd b k k' Hb H1). ring.
  - destruct (IH Hf Hb H2) as [IH1 IH2]. split; [constructor; auto|].
    simpl. rewrite IH2. ring.
Qed.

Lemma place_factor_ok : forall b k fs,
  wd_factor rho (b, k) -> Forall (wd_factor rho) fs ->
  Forall (wd_factor rho) (place_factor b k fs) /\
  dfac (place_factor b k fs) rho dlt = dmul (dpow (dden b rho dlt) k) (dfac fs rho dlt).
Proof.
  induction fs as [|[b' k'] fs IH]; simpl; intros Hb Hfs.
  - split; [constructor; auto|]. reflexivity.
  - inversion Hfs; subst. destruct (expr_compare b b').
    + destruct (IH Hb H2) as [I1 I2]. split; [constructor; auto|]. simpl. rewrite I2. ring.
    + split; [constructor; auto|]. reflexivity.
    + destruct (IH Hb H2) as [I1 I2]. split; [constructor; auto|]. simpl. rewrite I2. ring.
Qed.

Lemma mul_factor_ok : forall f fs,
  wd_factor rho f -> Forall (wd_factor rho) fs ->
  Forall (wd_factor rho) (mul_factor f fs) /\
  dfac (mul_factor f fs) rho dlt = dmul (dpow (dden (fst f) rho dlt) (snd f)) (dfac fs rho dlt).
Proof.
  intros [b k] fs Hf Hfs. unfold mul_factor. destruct (find_base b fs) eqn:E.
  - now apply bump_factor_ok.
  - now apply place_factor_ok.
Qed.

Lemma fold_mul_factor_ok : forall f1 f2,
  Forall (wd_factor rho) f1 -> Forall (wd_factor rho) f2 ->
  Forall (wd_factor rho) (fold_right mul_factor f2 f1) /\
  dfac (fold_right mul_factor f2 f1) rho dlt = dmul (dfac f1 rho dlt) (dfac f2 rho dlt).
Proof.
  induction f1 as [|[b k] f1 IH]; simpl; intros f2 H1 H2.
  - split; auto. ring.
  - inversion H1; subst. destruct (IH f2 H4 H2) as [I1 I2].
    destruct (mul_factor_ok (b, k) _ H3 I1) as [J1 J2]. split; auto.
    change (dfac (mul_factor (b, k) (fold_right mul_factor f2 f1)) rho dlt =
      dmul (dmul (dpow (dden b rho dlt) k) (dfac f1 rho dlt)) (dfac f2 rho dlt)).
    rewrite J2, I2. simpl. ring.
Qed.

Lemma mono_mul_ok : forall m1 m2, wd_mono rho m1 -> wd_mono rho m2 ->
  wd_mono rho (mono_mul m1 m2) /\ dmono (mono_mul m1 m2) rho dlt = dmul (dmono m1 rho dlt) (dmono m2 rho dlt).
Proof.
  intros [c1 f1] [c2 f2] H1 H2. unfold wd_mono, dmono in *; simpl in *.
  destruct (fold_mul_factor_ok f1 f2 H1 H2) as [I1 I2]. split; auto.
  rewrite I2, dconst_mul. ring.
Qed.

Lemma dmono_zero : forall fs, dmono (0%Z, fs) rho dlt = d0.
Proof. intros. unfold dmono; simpl. rewrite dconst_0. ring. Qed.

Lemma add_mono_ok : forall m p, wd_mono rho m -> wd_poly rho p ->
  wd_poly rho (add_mono m p) /\ dpoly (add_mono m p) rho dlt = dadd (dmono m rho dlt) (dpoly p rho dlt).
Proof.
  intros [c fs] p. induction p as [|[c' fs'] p IH]; intros Hm Hp; simpl.
  - destruct (Z.eqb_spec c 0).
    + subst. split; [constructor|]. rewrite dmono_zero. simpl. ring.
    + split; [repeat constructor; auto|]. reflexivity.
  - inversion Hp; subst. destruct (factors_compare fs fs') eqn:E.
    + apply factors_compare_eq in E; subst fs'. unfold dmono. simpl fst. simpl snd.
      destruct (Z.eqb_spec (c + c') 0).
      * split; auto.
        replace (dadd (dmul (dconst c) (dfac fs rho dlt)) (dadd (dmul (dconst c') (dfac fs rho dlt)) (dpoly p rho dlt)))
          with (dadd (dmul (dadd (dconst c) (dconst c')) (dfac fs rho dlt)) (dpoly p rho dlt)) by ring.
        rewrite <- dconst_add, e, dconst_0. ring.
      * split; [constructor; auto|]. simpl. unfold dmono. simpl fst. simpl snd. rewrite dconst_add. ring.
    + destruct (Z.eqb_spec c 0).
      * subst. split; auto. rewrite dmono_zero. simpl. ring.
      * split; [constructor; auto|]. reflexivity.
    + destruct (IH Hm H2) as [I1 I2]. split; [constructor; auto|]. simpl. rewrite I2. ring.
Qed.

Lemma padd_ok : forall p q, wd_poly rho p -> wd_poly rho q ->
  wd_poly rho (padd p q) /\ dpoly (padd p q) rho dlt = dadd (dpoly p rho dlt) (dpoly q rho dlt).
Proof.
  induction p as [|m p IH]; simpl; intros q Hp Hq.
  - split; auto. ring.
  - inversion Hp; subst. destruct (IH q H2 Hq) as [I1 I2].
    destruct (add_mono_ok m _ H1 I1) as [J1 J2]. split; auto.
    change (dpoly (add_mono m (padd p q)) rho dlt = dadd (dadd (dmono m rho dlt) (dpoly p rho dlt)) (dpoly q rho dlt)).
    rewrite J2, I2. ring.
Qed.

Lemma pmul_mono_ok : forall m p, wd_mono rho m -> wd_poly rho p ->
  wd_poly rho (pmul_mono m p) /\ dpoly (pmul_mono m p) rho dlt = dmul (dmono m rho dlt) (dpoly p rho dlt).
Proof.
  induction p as [|m' p IH]; simpl; intros Hm Hp.
  - split; [constructor|]. ring.
  - inversion Hp; subst. destruct (IH Hm H2) as [I1 I2].
    destruct (mono_mul_ok m m' Hm H1) as [K1 K2].
    destruct (add_mono_ok _ _ K1 I1) as [J1 J2]. split; auto.
    change (dpoly (add_mono (mono_mul m m') (pmul_mono m p)) rho dlt
            = dmul (dmono m rho dlt) (dadd (dmono m' rho dlt) (dpoly p rho dlt))).
    rewrite J2, I2, K2. ring.
Qed.

Lemma pmul_ok : forall p q, wd_poly rho p -> wd_poly rho q ->
  wd_poly rho (pmul p q) /\ dpoly (pmul p q) rho dlt = dmul (dpoly p rho dlt) (dpoly q rho dlt).
Proof.
  induction p as [|m p IH]; simpl; intros q Hp Hq.
  - split; [constructor|]. ring.
  - inversion Hp; subst. destruct (IH q H2 Hq) as [I1 I2].
    destruct (pmul_mono_ok m q H1 Hq) as [K1 K2].
    destruct (padd_ok _ _ K1 I1) as [J1 J2]. split; auto.
    change (dpoly (padd (pmul_mono m q) (pmul p q)) rho dlt
            = dmul (dadd (dmono m rho dlt) (dpoly p rho dlt)) (dpoly q rho dlt)).
    rewrite J2, I2, K2. ring.
Qed.

Lemma ppow_nat_ok : forall p n, wd_poly rho p ->
  wd_poly rho (ppow_nat p n) /\ dpoly (ppow_nat p n) rho dlt = dpow (dpoly p rho dlt) (Z.of_nat n).
Proof.
  induction n; intros Hp.
  - split; [repeat constructor|]. simpl. rewrite dpow_0. unfold dmono; simpl.
    rewrite dconst_1. ring.
  - destruct (IHn Hp) as [I1 I2]. simpl ppow_nat.
    destruct (pmul_ok p _ Hp I1) as [J1 J2]. split; auto.
    rewrite J2, I2, Nat2Z.inj_succ. unfold Z.succ. rewrite Z.add_comm.
    rewrite dpow_add by (right; lia). now rewrite dpow_1.
Qed.

Lemma dfac_nonzero : forall fs, Forall (wd_factor rho) fs ->
  forallb (fun f => Z.ltb 0 (snd f)) fs = true ->
  fst (dfac fs rho dlt) <> 0 -> Forall (fun f => den (fst f) rho <> 0) fs.
Proof.
  induction fs as [|[b k] fs IH]; simpl; intros Hw Hk Hn; constructor; inversion Hw; subst.
  - apply andb_prop in Hk as [Hk _]. apply Z.ltb_lt in Hk. simpl in *. intros E.
    apply Hn. rewrite dden_fst, E. rewrite powerRZ_nonneg by lia.
    rewrite pow_i by lia. ring.
  - apply andb_prop in Hk as [_ Hk]. apply IH; auto. intros E. apply Hn. rewrite E. ring.
Qed.

Lemma dfac_pow_map : forall fs n, Forall (fun f => den (fst f) rho <> 0) fs ->
  dfac (map (fun f => (fst f, (snd f * n)%Z)) fs) rho dlt = dpow (dfac fs rho dlt) n.
Proof.
  assert (Hnz : forall fs, Forall (fun f : factor => den (fst f) rho <> 0) fs -> fst (dfac fs rho dlt) <> 0).
  { induction 1 as [|[b k] fs H _ IH]; simpl in *; [lra|]. rewrite dden_fst.
    apply Rmult_integral_contrapositive_currified; auto. now apply powerRZ_NOR. }
  induction 1 as [|[b k] fs H Hf IH]; simpl in *.
  - apply dual_eq; simpl; [now rewrite powerRZ_R1|ring].
  - rewrite IH. rewrite <- dpow_dpow by (now rewrite dden_fst).
    rewrite dpow_dmul; auto. simpl. rewrite dden_fst. now apply powerRZ_NOR.
Qed.

Lemma wd_of_factors : forall fs, Forall (wd_factor rho) fs -> wd (of_factors fs) rho.
Proof.
  assert (Hf : forall f, wd_factor rho f -> wd (of_factor f) rho).
  { intros [b k] [H1 H2]. unfold of_factor. destruct (Z.eqb k 1); simpl; auto. }
  induction fs as [|f fs IH]; intros H; [exact I|]. inversion H; subst.
  destruct fs as [|f' fs]; [simpl; auto|].
  change (wd (of_factor f) rho /\ wd (of_factors (f' :: fs)) rho). auto.
Qed.

Lemma wd_of_mono : forall m, wd_mono rho m -> wd (of_mono m) rho.
Proof.
  intros [c fs] H. unfold of_mono. destruct fs as [|f fs]; [exact I|].
  destruct (Z.eqb c 1).
  - now apply wd_of_factors.
  - split; [exact I|]. now apply wd_of_factors.
Qed.

Lemma wd_of_poly : forall p, wd_poly rho p -> wd (of_poly p) rho.
Proof.
  induction p as [|m p IH]; intros H; [exact I|]. inversion H; subst.
  destruct p as [|m' p]; [simpl; now apply wd_of_mono|].
  change (wd (of_mono m) rho /\ wd (of_poly (m' :: p)) rho).
  split; [now apply wd_of_mono|auto].
Qed.

Lemma single_factor : forall b k, dpoly [(1%Z, [(b, k)])] rho dlt = dpow (dden b rho dlt) k.
Proof. intros. simpl. unfold dmono; simpl. rewrite dconst_1. ring. Qed.

Lemma atomic_base_ok : forall p k, wd_poly rho p -> (fst (dpoly p rho dlt) <> 0) ->
  wd_poly rho [(1%Z, [(of_poly p, k)])] /\
  dpoly [(1%Z, [(of_poly p, k)])] rho dlt = dpow (dpoly p rho dlt) k.
Proof.
  intros p k Hp Hn. split.
  - repeat constructor; simpl; [now apply wd_of_poly|]. intros _.
    rewrite <- (dden_fst _ rho dlt), dden_of_poly. auto.
  - rewrite single_factor. now rewrite dden_of_poly.
Qed.

Lemma ppow_ok : forall p n, wd_poly rho p -> ((n < 0)%Z -> fst (dpoly p rho dlt) <> 0) ->
  wd_poly rho (ppow p n) /\ dpoly (ppow p n) rho dlt = dpow (dpoly p rho dlt) n.
Proof.
  intros p [|k|k] Hp Hn.
  - exact (ppow_nat_ok p 0 Hp).
  - simpl ppow. destruct (ppow_nat_ok p (Pos.to_nat k) Hp) as [I1 I2]. split; auto.
    rewrite I2. now rewrite positive_nat_Z.
  - specialize (Hn ltac:(reflexivity)). unfold ppow.
    destruct p as [|[c fs] [|m' p]].
    + now apply atomic_base_ok.
    + destruct (Z.eqb c 1 && forallb (fun f => Z.ltb 0 (snd f)) fs) eqn:E.
      2:{ now apply atomic_base_ok. }
      apply andb_prop in E as [E1 E2]. apply Z.eqb_eq in E1; subst c.
      assert (Hfs : Forall (wd_factor rho) fs) by (inversion Hp; auto).
      assert (Hv : dpoly [(1%Z, fs)] rho dlt = dfac fs rho dlt).
      { simpl. unfold dmono; simpl. rewrite dconst_1. ring. }
      assert (Hn' : fst (dfac fs rho dlt) <> 0) by (rewrite <- Hv; exact Hn).
      assert (Hnz := dfac_nonzero fs Hfs E2 Hn'). split.
      * constructor; [|constructor]. red. simpl snd. apply Forall_map. rewrite Forall_forall in *.
        intros [b k'] Hin. simpl. split; simpl.
        { apply (Hfs _ Hin). }
        { intros _. apply (Hnz _ Hin). }
      * transitivity (dpow (dfac fs rho dlt) (Zneg k)); [|f_equal; symmetry; exact Hv].
        rewrite <- dfac_pow_map by auto. simpl. unfold dmono; simpl. rewrite dconst_1. ring.
    + now apply atomic_base_ok.
Qed.

Theorem expand_ok : forall e, wd e rho ->
  wd_poly rho (expand e) /\ dpoly (expand e) rho dlt = dden e rho dlt.
Proof.
  induction e; simpl; intros H.
  - destruct (Z.eqb_spec z 0).
    + subst. split; [constructor|reflexivity].
    + split; [repeat constructor|]. simpl. unfold dmono; simpl. ring.
  - split.
    + repeat constructor; simpl; lia.
    + etransitivity; [apply single_factor|]. simpl. now rewrite dpow_1.
  - destruct H as [H1 H2]. destruct (IHe1 H1) as [I1 I2], (IHe2 H2) as [J1 J2].
    destruct (padd_ok _ _ I1 J1) as [K1 K2]. split; auto. rewrite K2, I2, J2. reflexivity.
  - destruct H as [H1 H2]. destruct (IHe1 H1) as [I1 I2], (IHe2 H2) as [J1 J2].
    destruct (pmul_ok _ _ I1 J1) as [K1 K2]. split; auto. rewrite K2, I2, J2. reflexivity.
  - destruct H as [H1 H2]. destruct (IHe H1) as [I1 I2].
    destruct (ppow_ok (expand e) n I1) as [K1 K2].
    { intros Hn. rewrite I2, dden_fst. auto. }
    split; auto. rewrite K2, I2. reflexivity.
  - destruct (IHe H) as [I1 I2]. split.
    + repeat constructor; simpl; [now apply wd_of_poly|lia].
    + etransitivity; [apply single_factor|]. rewrite dpow_1. simpl. now rewrite dden_of_poly, I2.
  - destruct (IHe H) as [I1 I2]. split.
    + repeat constructor; simpl; [now apply wd_of_poly|lia].
    + etransitivity; [apply single_factor|]. rewrite dpow_1. simpl. now rewrite dden_of_poly, I2.
Qed.
End Ops.

Lemma wd_diff : forall e rho x, wd e rho -> wd (diff e x) rho.
Proof.
  induction e; simpl; intros rho x H; auto.
  - destruct (String.eqb s x); exact I.
  - destruct H; split; auto.
  - destruct H as [H1 H2]. repeat split; auto.
  - destruct H as [H1 H2]. destruct (Z.eqb_spec n 0); simpl; auto. repeat split; auto.
    intros Hn. apply H2. lia.
Qed.

(** ** [diff] is the derivative *)
Lemma dlim_ext : forall f g x l, (forall t, f t = g t) -> derivable_pt_lim f x l -> derivable_pt_lim g x l.
Proof.
  intros f g x l E H eps He. destruct (H eps He) as [d Hd]. exists d. intros h H1 H2.
  rewrite <- !E. auto.
Qed.

Lemma dlim_powerRZ : forall y n, y <> 0 \/ (0 <= n)%Z ->
  derivable_pt_lim (fun t => powerRZ t n) y (IZR n * powerRZ y (n - 1)).
Proof.
  intros y n H. destruct (Z_le_gt_dec 0 n) as [Hn|Hn].
  - apply dlim_ext with (f := fun t => t ^ Z.to_nat n).
    { intros. symmetry. now apply powerRZ_nonneg. }
    replace (IZR n * powerRZ y (n - 1)) with (INR (Z.to_nat n) * y ^ pred (Z.to_nat n)).
    { apply derivable_pt_lim_pow. }
    destruct (Z.eq_dec n 0) as [->|Hn0]; [simpl; ring|].
    rewrite powerRZ_nonneg by lia. rewrite INR_IZR_INZ, Z2Nat.id by lia.
    replace (Z.to_nat (n - 1)) with (pred (Z.to_nat n)) by lia. reflexivity.
  - destruct H as [H|H]; [|lia].
    set (k := Z.to_nat (- n)).
    assert (Hk : n = (- Z.of_nat k)%Z) by (unfold k; rewrite Z2Nat.id; lia).
    apply dlim_ext with (f := (fct_cte 1 / (fun t => t ^ k))%F).
    { intros. unfold div_fct, fct_cte. rewrite Hk, powerRZ_neg', <- pow_powerRZ. lra. }
    assert (Hyk : y ^ k <> 0) by (now apply pow_nonzero).
    replace (IZR n * powerRZ y (n - 1))
      with ((0 * y ^ k - (INR k * y ^ pred k) * fct_cte 1 y) / Rsqr (y ^ k)).
    { apply derivable_pt_lim_div; auto. apply derivable_pt_lim_const. apply derivable_pt_lim_pow. }
    unfold fct_cte, Rsqr.
    replace (powerRZ y (n - 1)) with (/ (y ^ k * y)).
    2:{ replace (n - 1)%Z with (- Z.of_nat (S k))%Z by lia.
        rewrite powerRZ_neg', <- pow_powerRZ. simpl. now rewrite Rmult_comm. }
    rewrite Hk, opp_IZR, <- INR_IZR_INZ.
    destruct k as [|k']; [lia|].
    assert (y ^ k' <> 0) by (now apply pow_nonzero).
    simpl pred. change (y ^ S k') with (y * y ^ k'). field. auto.
Qed.

Lemma upd_id : forall rho x, (forall s, upd rho x (rho x) s = rho s).
Proof. intros. unfold upd. destruct (String.eqb_spec s x); congruence. Qed.

Lemma den_ext : forall e r1 r2, (forall s, In s (fsyms e) -> r1 s = r2 s) -> den e r1 = den e r2.
Proof.
  induction e; simpl; intros r1 r2 H; auto.
  - rewrite (IHe1 r1 r2), (IHe2 r1 r2); auto; intros; apply H, in_or_app; auto.
  - rewrite (IHe1 r1 r2), (IHe2 r1 r2); auto; intros; apply H, in_or_app; auto.
  - now rewrite (IHe r1 r2).
  - now rewrite (IHe r1 r2).
  - now rewrite (IHe r1 r2).
Qed.

Lemma den_upd_id : forall e rho x, den e (upd rho x (rho x)) = den e rho.
Proof. intros. apply den_ext. intros. apply upd_id. Qed.

Theorem den_derivable : forall e rho x, wd e rho ->
  derivable_pt_lim (fun t => den e (upd rho x t)) (rho x) (den (diff e x) rho).
Proof.
  induction e; intros rho x H; simpl.
  - apply (derivable_pt_lim_const (IZR z)).
  - unfold upd. destruct (String.eqb s x); [apply derivable_pt_lim_id | apply (derivable_pt_lim_const (rho s))].
  - destruct H. now apply derivable_pt_lim_plus; [apply IHe1|apply IHe2].
  - destruct H as [H1 H2].
    assert (L := derivable_pt_lim_mult _ _ _ _ _ (IHe1 rho x H1) (IHe2 rho x H2)).
    simpl in L. rewrite !den_upd_id in L. exact L.
  - destruct H as [H1 H2].
    assert (L := derivable_pt_lim_comp (fun t => den e (upd rho x t)) (fun y => powerRZ y n) (rho x) _
       (IZR n * powerRZ (den e rho) (n - 1)) (IHe rho x H1)). cbv beta in L; rewrite den_upd_id in L.
    assert (Hv : den (if (n =? 0)%Z then Const 0 else Mul (Mul (Const n) (Pow e (n - 1))) (diff e x)) rho
                 = IZR n * powerRZ (den e rho) (n - 1) * den (diff e x) rho).
    { destruct (Z.eqb_spec n 0); simpl; [subst; ring|reflexivity]. }
    rewrite Hv. apply L. apply dlim_powerRZ.
    destruct (Z_lt_ge_dec n 0); [left; auto|right; lia].
  - assert (L := derivable_pt_lim_comp (fun t => den e (upd rho x t)) sin (rho x) _ _
       (IHe rho x H) (derivable_pt_lim_sin _)). cbv beta in L; rewrite den_upd_id in L. exact L.
  - assert (L := derivable_pt_lim_comp (fun t => den e (upd rho x t)) cos (rho x) _ _
       (IHe rho x H) (derivable_pt_lim_cos _)). cbv beta in L; rewrite den_upd_id in L.
    replace (-1 * sin (den e rho) * den (diff e x) rho) with (- sin (den e rho) * den (diff e x) rho) by ring.
    exact L.
Qed.

(** ** Free symbols *)
Lemma dden_not_free : forall e rho x, ~ In x (fsyms e) -> snd (dden e rho (dir x)) = 0.
Proof.
  induction e; simpl; intros rho x H; auto.
  - unfold dir. destruct (String.eqb_spec s x); auto. exfalso; apply H; auto.
  - rewrite IHe1, IHe2; [ring| |]; intros K; apply H, in_or_app; auto.
  - rewrite IHe1, IHe2; [ring| |]; intros K; apply H, in_or_app; auto.
  - rewrite IHe by auto. ring.
  - rewrite IHe by auto. ring.
  - rewrite IHe by auto. ring.
Qed.

Lemma fsyms_diff : forall e x s, In s (fsyms (diff e x)) -> In s (fsyms e).
Proof.
  induction e; simpl; intros x t H; auto.
  - destruct (String.eqb s x); destruct H.
  - apply in_app_or in H. apply in_or_app. destruct H; [left|right]; eauto.
  - rewrite !in_app_iff in H. rewrite in_app_iff.
    destruct H as [[H|H]|[H|H]]; eauto.
  - destruct (Z.eqb n 0); simpl in H; [easy|]. apply in_app_or in H. destruct H; eauto.
  - apply in_app_or in H. destruct H; eauto.
  - apply in_app_or in H. destruct H; eauto.
Qed.

Definition fs_factors (fs : list factor) : list sym := flat_map (fun f => fsyms (fst f)) fs.
Definition fs_poly (p : poly) : list sym := flat_map (fun m => fs_factors (snd m)) p.

Lemma fsyms_of_factors : forall fs, fsyms (of_factors fs) = fs_factors fs.
Proof.
  assert (Hf : forall f, fsyms (of_factor f) = fsyms (fst f)).
  { intros [b k]. unfold of_factor. destruct (Z.eqb k 1); reflexivity. }
  induction fs as [|f fs IH]; [reflexivity|]. destruct fs as [|f' fs].
  - simpl. now rewrite Hf, app_nil_r.
  - change (fsyms (of_factor f) ++ fsyms (of_factors (f' :: fs)) = fsyms (fst f) ++ fs_factors (f' :: fs)).
    now rewrite Hf, IH.
Qed.

Lemma fsyms_of_mono : forall m, fsyms (of_mono m) = fs_factors (snd m).
Proof.
  intros [c fs]. unfold of_mono. destruct fs as [|f fs]; [reflexivity|].
  destruct (Z.eqb c 1).
  - apply fsyms_of_factors.
  - change (fsyms (of_factors (f :: fs)) = fs_factors (f :: fs)). apply fsyms_of_factors.
Qed.

Lemma fsyms_of_poly : forall p, fsyms (of_poly p) = fs_poly p.
Proof.
  induction p as [|m p IH]; [reflexivity|]. destruct p as [|m' p].
  - simpl. now rewrite fsyms_of_mono, app_nil_r.
  - change (fsyms (of_mono m) ++ fsyms (of_poly (m' :: p)) = fs_factors (snd m) ++ fs_poly (m' :: p)).
    now rewrite fsyms_of_mono, IH.
Qed.

(** A property of factors is kept by all operations if it is kept by adding exponents. *)
Section FactorInv.
Variable Q : factor -> Prop.
Hypothesis Qadd : forall b k k', Q (b, k) -> Q (b, k') -> (k + k' <> 0)%Z -> Q (b, (k + k')%Z).

Definition Qmono (m : mono) := Forall Q (snd m).
Definition Qpoly (p : poly) := Forall Qmono p.

Lemma mul_factor_Q : forall f fs, Q f -> Forall Q fs -> Forall Q (mul_factor f fs).
Proof.
  intros [b k] fs Hf H. unfold mul_factor. destruct (find_base b fs).
  - induction fs as [|[b' k'] fs IH]; simpl; auto. inversion H; subst.
    destruct (expr_eqb b b') eqn:E.
    + apply expr_eqb_eq in E; subst. destruct (Z.eqb_spec (k + k') 0); auto.
    + constructor; auto.
  - induction fs as [|[b' k'] fs IH]; simpl; auto. inversion H; subst.
    destruct (expr_compare b b'); auto.
Qed.

Lemma mono_mul_Q : forall m1 m2, Qmono m1 -> Qmono m2 -> Qmono (mono_mul m1 m2).
Proof.
  intros [c1 f1] [c2 f2] H1 H2. unfold Qmono in *; simpl in *.
  induction f1; simpl; auto. inversion H1; subst. apply mul_factor_Q; auto.
Qed.

Lemma add_mono_Q : forall m p, Qmono m -> Qpoly p -> Qpoly (add_mono m p).
Proof.
  intros m p Hm Hp. induction p as [|m' p IH]; simpl.
  - destruct (Z.eqb (fst m) 0); [constructor|repeat constructor; auto].
  - inversion Hp; subst. destruct (factors_compare (snd m) (snd m')).
    + destruct (Z.eqb _ 0); auto. constructor; auto.
    + destruct (Z.eqb _ 0); auto. constructor; auto.
    + constructor; auto. apply IH; auto.
Qed.

Lemma padd_Q : forall p q, Qpoly p -> Qpoly q -> Qpoly (padd p q).
Proof. induction p; simpl; intros; auto. inversion H; subst. apply add_mono_Q; auto; apply IHp; auto. Qed.

Lemma pmul_Q : forall p q, Qpoly p -> Qpoly q -> Qpoly (pmul p q).
Proof.
  assert (Hm : forall m q, Qmono m -> Qpoly q -> Qpoly (pmul_mono m q)).
  { induction q as [|m' q IH]; simpl; intros H1 H2; [constructor|]. inversion H2; subst.
    apply add_mono_Q; [now apply mono_mul_Q|]. apply IH; auto. }
  induction p as [|m p IH]; simpl; intros q Hp Hq; [constructor|]. inversion Hp; subst.
  apply padd_Q; [now apply Hm|]. apply IH; auto.
Qed.

Lemma ppow_nat_Q : forall p n, Qpoly p -> Qpoly (ppow_nat p n).
Proof.
  induction n; simpl; intros; [repeat constructor|]. apply pmul_Q; auto.
Qed.
End FactorInv.

Lemma Qpoly_single : forall (Q : factor -> Prop) c f, Q f -> Qpoly Q [(c, [f])].
Proof. intros. constructor; [|constructor]. constructor; [assumption|constructor]. Qed.

(** free symbols of the canonical form are free symbols of the expression *)
Definition Qsub (S : list sym) (f : factor) : Prop := incl (fsyms (fst f)) S.

Lemma Qsub_poly : forall S p, Qpoly (Qsub S) p <-> incl (fs_poly p) S.
Proof.
  intros S p. unfold Qpoly, Qmono, Qsub, fs_poly, fs_factors, incl. split.
  - intros H a Ha. apply in_flat_map in Ha as [m [Hm Ha]]. apply in_flat_map in Ha as [f [Hf Ha]].
    rewrite Forall_forall in H. specialize (H m Hm). rewrite Forall_forall in H. exact (H f Hf a Ha).
  - intros H. apply Forall_forall; intros m Hm. apply Forall_forall; intros f Hf a Ha.
    apply H. apply in_flat_map; exists m; split; auto. apply in_flat_map; exists f; auto.
Qed.

Lemma expand_fsyms : forall e, incl (fs_poly (expand e)) (fsyms e).
Proof.
  intros e. apply Qsub_poly.
  assert (Hadd : forall S b k k', Qsub S (b, k) -> Qsub S (b, k') -> (k + k' <> 0)%Z -> Qsub S (b, (k + k')%Z))
    by (unfold Qsub; simpl; auto).
  assert (Hmon : forall S1 S2 p, incl S1 S2 -> Qpoly (Qsub S1) p -> Qpoly (Qsub S2) p).
  { intros S1 S2 p Hi. rewrite !Qsub_poly. intros H. eapply incl_tran; eauto. }
  induction e; simpl.
  - destruct (Z.eqb z 0); repeat constructor.
  - apply Qpoly_single. unfold Qsub; simpl. apply incl_refl.
  - apply padd_Q; auto; eapply Hmon; eauto; [apply incl_appl|apply incl_appr]; apply incl_refl.
  - apply pmul_Q; auto; eapply Hmon; eauto; [apply incl_appl|apply incl_appr]; apply incl_refl.
  - destruct n; simpl.
    + repeat constructor.
    + apply ppow_nat_Q; auto.
    + assert (Hat : Qpoly (Qsub (fsyms e)) [(1%Z, [(of_poly (expand e), Z.neg p)])]).
      { apply Qpoly_single. unfold Qsub; simpl. rewrite fsyms_of_poly. now apply Qsub_poly. }
      destruct (expand e) as [|[c fs] [|m' q]]; auto.
      destruct (Z.eqb c 1 && forallb (fun f => Z.ltb 0 (snd f)) fs); auto.
      constructor; [|constructor]. red. simpl. apply Forall_map.
      inversion IHe; subst. unfold Qmono in *. simpl in *. eapply Forall_impl; [|eauto].
      intros [b k]. unfold Qsub. auto.
  - apply Qpoly_single. unfold Qsub; simpl. rewrite fsyms_of_poly. now apply Qsub_poly.
  - apply Qpoly_single. unfold Qsub; simpl. rewrite fsyms_of_poly. now apply Qsub_poly.
Qed.

(** A base with a positive exponent is a symbol, a sine or a cosine. *)
Definition Qatom (f : factor) : Prop :=
  (snd f > 0)%Z -> match fst f with Sym _ | Sin _ | Cos _ => True | _ => False end.

Lemma expand_Qatom : forall e, Qpoly Qatom (expand e).
Proof.
  assert (Hadd : forall b k k', Qatom (b, k) -> Qatom (b, k') -> (k + k' <> 0)%Z -> Qatom (b, (k + k')%Z)).
  { unfold Qatom; simpl; intros b k k' H1 H2 H3 H4.
    destruct (Z_gt_le_dec k 0) as [Hk|Hk]; [exact (H1 Hk)|]. apply H2. lia. }
  induction e; simpl.
  - destruct (Z.eqb z 0); repeat constructor.
  - repeat constructor.
  - now apply padd_Q.
  - now apply pmul_Q.
  - destruct n; simpl.
    + repeat constructor.
    + apply ppow_nat_Q; auto.
    + assert (Hat : Qpoly Qatom [(1%Z, [(of_poly (expand e), Z.neg p)])]).
      { apply Qpoly_single. unfold Qatom; simpl. lia. }
      destruct (expand e) as [|[c fs] [|m' q]]; auto.
      destruct (Z.eqb c 1 && forallb (fun f => Z.ltb 0 (snd f)) fs) eqn:E; auto.
      apply andb_prop in E as [_ E]. rewrite forallb_forall in E.
      constructor; [|constructor]. red. simpl. apply Forall_map.
      apply Forall_forall. intros [b k] Hin. specialize (E _ Hin). simpl in E. apply Z.ltb_lt in E.
      unfold Qatom; simpl. intros. exfalso. lia.
  - repeat constructor.
  - repeat constructor.
Qed.

Definition Qtrig (vars : list sym) (f : factor) : Prop :=
  match fst f with
  | Sin a | Cos a => forall s, In s (fsyms a) -> ~ In s vars
  | _ => True
  end.

Lemma expand_Qtrig : forall vars e, trig_ok vars e -> Qpoly (Qtrig vars) (expand e).
Proof.
  intros vars.
  assert (Hadd : forall b k k', Qtrig vars (b, k) -> Qtrig vars (b, k') -> (k + k' <> 0)%Z -> Qtrig vars (b, (k + k')%Z))
    by (unfold Qtrig; simpl; auto).
  assert (Hpoly : forall p, match of_poly p with Sin _ | Cos _ => False | _ => True end ->
            Qtrig vars (of_poly p, 0%Z)) by (intros p; unfold Qtrig; simpl; destruct (of_poly p); tauto).
  induction e; simpl; intros H.
  - destruct (Z.eqb z 0); repeat constructor.
  - repeat constructor.
  - destruct H. apply padd_Q; auto.
  - destruct H. apply pmul_Q; auto.
  - specialize (IHe H). destruct n; simpl.
    + repeat constructor.
    + apply ppow_nat_Q; auto.
    + assert (Hat : Qpoly (Qtrig vars) [(1%Z, [(of_poly (expand e), Z.neg p)])]).
      { apply Qpoly_single. unfold Qtrig; simpl.
        (* a base that is a sine or cosine comes from the single factor of the expansion *)
        destruct (expand e) as [|[c fs] [|m' q]] eqn:Ee; simpl; auto.
        unfold of_mono. destruct fs as [|[b k] fs]; auto. destruct (Z.eqb c 1); simpl; auto.
        destruct fs as [|f' fs]; simpl; auto. destruct (Z.eqb k 1); simpl; auto.
        inversion IHe; subst. inversion H2; subst. exact H4. }
      destruct (expand e) as [|[c fs] [|m' q]]; auto.
      destruct (Z.eqb c 1 && forallb (fun f => Z.ltb 0 (snd f)) fs) eqn:E; auto.
      constructor; [|constructor]. red. simpl. apply Forall_map.
      inversion IHe; subst. unfold Qmono in *; simpl in *. eapply Forall_impl; [|eauto].
      intros [b k]. unfold Qtrig. auto.
  - apply Qpoly_single. unfold Qtrig; simpl. intros s Hs. apply H.
    rewrite fsyms_of_poly in Hs. now apply expand_fsyms.
  - apply Qpoly_single. unfold Qtrig; simpl. intros s Hs. apply H.
    rewrite fsyms_of_poly in Hs. now apply expand_fsyms.
Qed.

Lemma trig_ok_diff : forall vars e x, trig_ok vars e -> trig_ok vars (diff e x).
Proof.
  intros vars. 
  assert (Hnv : forall a, (forall s, In s (fsyms a) -> ~ In s vars) -> trig_ok vars a).
  { induction a; simpl; intros H; auto.
    - split; [apply IHa1|apply IHa2]; intros; apply H, in_or_app; auto.
    - split; [apply IHa1|apply IHa2]; intros; apply H, in_or_app; auto. }
  assert (Hd : forall a x, (forall s, In s (fsyms a) -> ~ In s vars) -> trig_ok vars (diff a x)).
  { intros a x H. apply Hnv. intros s Hs. apply H. eapply fsyms_diff; eauto. }
  induction e; simpl; intros x H; auto.
  - destruct (String.eqb s x); exact I.
  - destruct H; auto.
  - destruct H; auto.
  - destruct (Z.eqb n 0); simpl; auto.
Qed.

(** bases of a monomial are distinct *)
Definition NDmono (m : mono) := NoDup (map fst (snd m)).

Lemma find_base_false : forall b fs, find_base b fs = false -> ~ In b (map fst fs).
Proof.
  induction fs as [|[b' k'] fs IH]; simpl; intros H; auto.
  apply orb_false_iff in H as [H1 H2]. intros [E|E].
  - subst. rewrite (proj2 (expr_eqb_eq b b) eq_refl) in H1. discriminate.
  - now apply IH.
Qed.

Lemma bump_bases : forall b k fs x, In x (map fst (bump_factor b k fs)) -> In x (map fst fs).
Proof.
  induction fs as [|[b' k'] fs IH]; simpl; auto. intros x.
  destruct (expr_eqb b b'); [destruct (Z.eqb (k + k') 0)|]; simpl; intuition.
Qed.

Lemma place_bases : forall b k fs x, In x (map fst (place_factor b k fs)) <-> x = b \/ In x (map fst fs).
Proof.
  induction fs as [|[b' k'] fs IH]; simpl; [intuition|]. intros x.
  destruct (expr_compare b b'); simpl; rewrite ?IH; intuition.
Qed.

Lemma mul_factor_ND : forall f fs, NoDup (map fst fs) -> NoDup (map fst (mul_factor f fs)).
Proof.
  intros [b k] fs H. unfold mul_factor. destruct (find_base b fs) eqn:E.
  - clear E. induction fs as [|[b' k'] fs IH]; simpl; auto. inversion H; subst.
    destruct (expr_eqb b b'); [destruct (Z.eqb (k + k') 0); auto|].
    simpl. constructor; auto. intros K. apply H2. eapply bump_bases; eauto.
  - apply find_base_false in E. induction fs as [|[b' k'] fs IH]; simpl.
    + constructor; auto.
    + simpl in E. inversion H; subst.
      assert (Hnew : NoDup (map fst ((b', k') :: place_factor b k fs))).
      { simpl. constructor; auto. intros K. apply place_bases in K as [K|K]; auto. }
      destruct (expr_compare b b'); auto. simpl. constructor; auto.
Qed.

Definition NDpoly (p : poly) := Forall NDmono p.

Lemma mono_mul_ND : forall m1 m2, NDmono m2 -> NDmono (mono_mul m1 m2).
Proof.
  intros [c1 f1] [c2 f2] H. unfold NDmono in *; simpl in *. induction f1; simpl; auto.
  now apply mul_factor_ND.
Qed.

Lemma add_mono_ND : forall m p, NDmono m -> NDpoly p -> NDpoly (add_mono m p).
Proof.
  intros m p Hm Hp. induction p as [|m' p IH]; simpl.
  - destruct (Z.eqb (fst m) 0); [constructor|repeat constructor; auto].
  - inversion Hp; subst. destruct (factors_compare (snd m) (snd m')).
    + destruct (Z.eqb _ 0); auto. constructor; auto.
    + destruct (Z.eqb _ 0); auto. constructor; auto.
    + constructor; auto. apply IH; auto.
Qed.

Lemma padd_ND : forall p q, NDpoly p -> NDpoly q -> NDpoly (padd p q).
Proof. induction p; simpl; intros; auto. inversion H; subst. apply add_mono_ND; auto; apply IHp; auto. Qed.

Lemma pmul_ND : forall p q, NDpoly q -> NDpoly (pmul p q).
Proof.
  assert (Hm : forall m q, NDpoly q -> NDpoly (pmul_mono m q)).
  { induction q as [|m' q IH]; simpl; intros H2; [constructor|]. inversion H2; subst.
    apply add_mono_ND; [now apply mono_mul_ND|]. apply IH; auto. }
  induction p as [|m p IH]; simpl; intros q Hq; [constructor|].
  apply padd_ND; [now apply Hm|]. apply IH; auto.
Qed.

Lemma expand_ND : forall e, NDpoly (expand e).
Proof.
  assert (H1 : forall b k, NDpoly [(1%Z, [(b, k)])]).
  { intros. repeat constructor. intros []. }
  induction e; simpl; auto.
  - destruct (Z.eqb z 0); repeat constructor.
  - now apply padd_ND.
  - now apply pmul_ND.
  - destruct n; simpl.
    + repeat constructor.
    + induction (Pos.to_nat p); simpl; [repeat constructor|]. now apply pmul_ND.
    + destruct (expand e) as [|[c fs] [|m' q]]; auto.
      destruct (Z.eqb c 1 && forallb (fun f => Z.ltb 0 (snd f)) fs) eqn:E; auto.
      constructor; [|constructor]. unfold NDmono. simpl. rewrite map_map. simpl.
      inversion IHe; subst. exact H2.
Qed.
