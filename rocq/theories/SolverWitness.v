(** A concrete one-unknown network for C16 and C19, and the least squares slope (C19). *)
From Coq Require Import String ZArith Reals List Bool Arith Lia Lra Psatz Permutation.
From Verif Require Import Expr Segment Builder SpecBuilder Residual Stamper SpecStamper Collect SpecSystem StamperProofs CollectProofs SystemProofs VLimit Solver SpecSolver SolverProofs NetSolverProofs.
Import ListNotations.
Local Open Scope R_scope.

(** ** Least squares slope *)
Lemma sum_from_map : forall f (y : nat -> R) n k, sum_from f k (map y (seq k n)) = csum n (fun i => f (k + i)%nat (y (k + i)%nat)).
Proof.
  intros f y n. assert (G : forall k a, sum_from f k (a ++ map y (seq (k + length a) n)) = sum_from f k a + csum n (fun i => f (k + length a + i)%nat (y (k + length a + i)%nat))).
  { induction n as [|n IH]; intros k a; simpl.
    - rewrite app_nil_r. ring.
    - specialize (IH k (a ++ [y (k + length a)%nat])). rewrite app_length in IH. simpl in IH.
      replace (k + (length a + 1))%nat with (S (k + length a)) in IH by lia. rewrite <- app_assoc in IH. simpl in IH. rewrite IH.
      assert (X : forall b k x, sum_from f k (b ++ [x]) = sum_from f k b + f (k + length b)%nat x).
      { induction b as [|y0 b IHb]; intros; simpl; [rewrite Nat.add_0_r; ring|]. rewrite IHb. simpl.
        replace (k0 + S (length b))%nat with (S k0 + length b)%nat by lia. simpl. ring. }
      rewrite X. assert (Z : forall m g, csum (S m) g = g 0%nat + csum m (fun i => g (S i))).
      { induction m; intros g; simpl; [ring|]. simpl in IHm. rewrite IHm. ring. }
      change (csum n (fun i => f (k + length a + i)%nat (y (k + length a + i)%nat)) + f (k + length a + n)%nat (y (k + length a + n)%nat))
        with (csum (S n) (fun i => f (k + length a + i)%nat (y (k + length a + i)%nat))).
      rewrite Z. rewrite Nat.add_0_r. rewrite (csum_ext n (fun i => f (S (k + length a + i))%nat (y (S (k + length a + i))%nat))
        (fun i => f (k + length a + S i)%nat (y (k + length a + S i)%nat))); [ring|].
      intros c _. replace (S (k + length a + c))%nat with (k + length a + S c)%nat by lia. reflexivity. }
  intros k. specialize (G k []). simpl in G. rewrite Nat.add_0_r in G. rewrite G. ring.
Qed.

Lemma list_as_map : forall h : list R, h = map (fun i => nth i h 0) (seq 0 (length h)).
Proof.
  intros h. apply nth_ext with (d := 0) (d' := nth 0 h 0); [now rewrite map_length, seq_length|].
  intros n Hn. change (nth 0 h 0) with ((fun i => nth i h 0) 0%nat). rewrite map_nth, seq_nth; auto.
Qed.

Lemma csum_scale : forall n a f, csum n (fun i => a * f i) = a * csum n f.
Proof. induction n; simpl; intros; [ring|]. rewrite IHn. ring. Qed.
Lemma csum_const : forall n a, csum n (fun _ => a) = INR n * a.
Proof. induction n; intros; [simpl; ring|]. cbn [csum]. rewrite IHn, S_INR. ring. Qed.
Lemma csum_INR : forall n, 2 * csum n INR = INR n * INR n - INR n.
Proof. induction n; [simpl; ring|]. cbn [csum]. rewrite Rmult_plus_distr_l, IHn, S_INR. ring. Qed.
Lemma csum_INR2 : forall n, 6 * csum n (fun i => INR i * INR i) = (INR n - 1) * INR n * (2 * INR n - 1).
Proof. induction n; [simpl; ring|]. cbn [csum]. rewrite Rmult_plus_distr_l, IHn, S_INR. ring. Qed.
Lemma lsq_denom : forall n, (2 <= n)%nat -> 0 < INR n * csum n (fun i => INR i * INR i) - csum n INR * csum n INR.
Proof.
  intros n Hn. pose proof (csum_INR n). pose proof (csum_INR2 n).
  assert (E1 : csum n INR = (INR n * INR n - INR n) / 2) by lra.
  assert (E2 : csum n (fun i => INR i * INR i) = (INR n - 1) * INR n * (2 * INR n - 1) / 6) by lra.
  rewrite E1, E2. apply le_INR in Hn. simpl in Hn.
  replace (INR n * ((INR n - 1) * INR n * (2 * INR n - 1) / 6) - (INR n * INR n - INR n) / 2 * ((INR n * INR n - INR n) / 2))
    with (INR n * INR n * ((INR n - 1) * (INR n + 1)) / 12) by field.
  assert (0 < INR n * INR n) by nra. assert (0 < (INR n - 1) * (INR n + 1)) by nra.
  assert (0 < INR n * INR n * ((INR n - 1) * (INR n + 1))) by (apply Rmult_lt_0_compat; auto). lra.
Qed.

Lemma sse_expand : forall n (y : nat -> R) m b,
  sse (map y (seq 0 n)) m b = csum n (fun i => y i * y i) - 2 * m * csum n (fun i => INR i * y i) - 2 * b * csum n y
    + m * m * csum n (fun i => INR i * INR i) + 2 * m * b * csum n INR + INR n * (b * b).
Proof.
  intros n y m b. unfold sse. rewrite sum_from_map. simpl.
  induction n; [simpl; ring|]. cbn [csum]. rewrite IHn, S_INR. ring.
Qed.

Lemma slope_expand : forall n (y : nat -> R), lsq_slope (map y (seq 0 n)) =
  (INR n * csum n (fun i => INR i * y i) - csum n INR * csum n y) / (INR n * csum n (fun i => INR i * INR i) - csum n INR * csum n INR).
Proof. intros. unfold lsq_slope. rewrite !sum_from_map, map_length, seq_length. reflexivity. Qed.

Lemma lsq_slope_correct : forall h m, (2 <= length h)%nat -> (is_least_squares_slope h m <-> m = lsq_slope h).
Proof.
  intros h m Hn. rewrite (list_as_map h). set (y := fun i => nth i h 0). set (n := length h) in *.
  rewrite slope_expand.
  pose proof (lsq_denom n Hn) as HD. unfold is_least_squares_slope. setoid_rewrite sse_expand.
  set (sxx := csum n (fun i => INR i * INR i)) in *. set (sx := csum n INR) in *. set (sy := csum n y).
  set (sxy := csum n (fun i => INR i * y i)). set (syy := csum n (fun i => y i * y i)).
  assert (Hp : 0 < INR n) by (apply lt_0_INR; lia). set (N := INR n) in *.
  set (D := N * sxx - sx * sx) in *. set (m0 := (N * sxy - sx * sy) / D). set (b0 := (sy - m0 * sx) / N).
  assert (E1 : m0 * sx + N * b0 = sy) by (unfold b0; field; lra).
  assert (E2 : m0 * sxx + b0 * sx = sxy) by (unfold b0, m0; unfold D in *; field; split; lra).
  assert (K : forall m b, N * ((syy - 2 * m * sxy - 2 * b * sy + m * m * sxx + 2 * m * b * sx + N * (b * b))
     - (syy - 2 * m0 * sxy - 2 * b0 * sy + m0 * m0 * sxx + 2 * m0 * b0 * sx + N * (b0 * b0)))
     = (N * (b - b0) + (m - m0) * sx) * (N * (b - b0) + (m - m0) * sx) + (m - m0) * (m - m0) * D).
  { intros m' b'. rewrite <- E1, <- E2. unfold D. ring. }
  split.
  - intros [b Hb]. specialize (Hb m0 b0). specialize (K m b).
    set (P := N * (b - b0) + (m - m0) * sx) in *.
    assert (Q : P * P + (m - m0) * (m - m0) * D <= 0) by (rewrite <- K; nra).
    assert (Z : (m - m0) * (m - m0) * D <= 0) by nra.
    assert ((m - m0) * (m - m0) <= 0) by nra. assert (m - m0 = 0) by nra. lra.
  - intros ->. exists b0. intros m' b'. specialize (K m' b').
    set (P := N * (b' - b0) + (m' - m0) * sx) in *.
    assert (Q : 0 <= P * P + (m' - m0) * (m' - m0) * D) by (pose proof (Rle_0_sqr P); pose proof (Rle_0_sqr (m' - m0)); unfold Rsqr in *; apply Rplus_le_le_0_compat; [lra|apply Rmult_le_pos; lra]).
    rewrite <- K in Q. apply Rmult_le_reg_l with N; auto. lra.
Qed.

(** ** The network: one unknown x with the equation a x^2 + d x + e = 0 *)
Definition quad_segment : segment := {|
  sg_lagrange := Mul (Sym "lam"%string) (Add (Add (Mul (Sym "A"%string) (Pow (Sym "x"%string) 2)) (Mul (Sym "D"%string) (Sym "x"%string))) (Sym "E"%string));
  sg_constants := ["A"; "D"; "E"]%string; sg_primals := ["x"]%string; sg_duals := ["lam"]%string |}.
Definition quad_details : details :=
  {| sd_seg := quad_segment; sd_var := [("x"%string, Some 0%nat); ("lam"%string, None)]; sd_eqn := None; sd_opt := false |}.
Definition quad (a d e : R) : list (nat * option details * list R) := [(0%nat, Some quad_details, [a; d; e])].

(** exact elimination for systems with one unknown *)
Definition scalar_solve (so : unit) (es : list (nat * nat * R)) (J : list R) : unit * option (list R) :=
  match es, J with
  | [(0%nat, 0%nat, y)], [z] => (so, if Req_EM_T y 0 then None else Some [z / y])
  | _, _ => (so, None)
  end.
Lemma scalar_solve_exact : forall so es J so' v, scalar_solve so es J = (so', Some v) -> exact_solution es J v.
Proof.
  intros so es J so' v H. destruct es as [|[[[|i] [|j]] y] [|e es]]; destruct J as [|z [|]]; try discriminate.
  simpl in H. destruct (Req_EM_T y 0) as [|N]; [discriminate|]. injection H as <- <-.
  split; [reflexivity|]. intros [|r] Hr; simpl in Hr; [|lia]. simpl. unfold vec. simpl. field. exact N.
Qed.
Lemma scalar_solve_total : forall so y z, y <> 0 -> scalar_solve so [(0%nat, 0%nat, y)] [z] = (so, Some [z / y]).
Proof. intros so y z H. simpl. destruct (Req_EM_T y 0); [contradiction|reflexivity]. Qed.

(** the same for arbitrary triples *)
Definition scalar_solve' (so : unit) (es : list (nat * nat * R)) (J : list R) : unit * option (list R) :=
  match J with
  | [z] => (so, if Req_EM_T (mat_at es 0 0) 0 then None else Some [z / mat_at es 0 0])
  | _ => (so, None)
  end.
Lemma mat_row_scalar : forall es x, mat_row es (vec [x]) 0 = mat_at es 0 0 * x.
Proof.
  induction es as [|[[i j] y] es IH]; intros x; simpl; [ring|]. rewrite IH.
  destruct (Nat.eqb i 0); simpl; [|ring]. destruct j as [|[|j]]; unfold vec; simpl; ring.
Qed.
Lemma scalar_solve'_total : forall so es z, mat_at es 0 0 <> 0 ->
  exists v, scalar_solve' so es [z] = (so, Some v) /\ exact_solution es [z] v.
Proof.
  intros so es z H. simpl. destruct (Req_EM_T (mat_at es 0 0) 0); [contradiction|].
  eexists. split; [reflexivity|]. split; [reflexivity|]. intros [|r] Hr; simpl in Hr; [|lia].
  rewrite mat_row_scalar. simpl. field. auto.
Qed.

Lemma quad_ok : forall a d e, forall x, In x (elements_of (quad a d e)) -> element_ok false x.
Proof.
  intros a d e x [<-|[]]. constructor; try reflexivity; simpl.
  - repeat constructor; simpl; intuition congruence.
  - unfold tx_factor. intuition congruence.
  - intros y. simpl. tauto.
  - intros _ y [<-|[]]. reflexivity.
  - tauto.
Qed.

Lemma quad_F : forall a d e v tx, F (elements_of (quad a d e)) v tx 0 = a * (v 0%nat * v 0%nat) + d * v 0%nat + e.
Proof. intros. cbv -[Rplus Rmult IZR Rminus]. ring. Qed.

Section Quad.
Variables a d e : R.
Variable cfg : settings.
Hypothesis Hdbg : set_debug cfg = false.

Lemma quad_build : exists cs ms0, build_colls (quad a d e) = Some cs /\ stamps_present cs /\
  build_stamper 0 0 skey_eqb pkey_eqb rkey_eqb input_eqb false cs = SOk ms0 /\
  (forall u tx, net_EL 0 false cs u tx = []) /\
  (forall u tx, Permutation (net_EN 0 false cs u tx) [EvY 0 0 (2 * a * u 0%nat + d); EvJ 0 (a * (u 0%nat * u 0%nat) - e)]) /\
  (forall u tx, net_RS 0 false cs u tx = [(0%nat, 0%nat, a * (u 0%nat * u 0%nat) + d * u 0%nat + e)]).
Proof.
  destruct (build_colls (quad a d e)) as [cs|] eqn:E; [|exfalso; revert E; cbv -[Rplus Rmult IZR Rminus]; discriminate].
  exists cs.
  assert (Hs : stamps_present cs).
  { assert (E' := E). cbv -[Rplus Rmult IZR Rminus] in E'. injection E' as <-. intros c [<-|[]] _ H. discriminate H. }
  destruct (build_ok 0 0 skey_eqb pkey_eqb rkey_eqb input_eqb skey_eqb_eq pkey_eqb_eq rkey_eqb_eq input_eqb_sound cs
     (wf_cs false _ cs E (quad_ok a d e) Hs) false) as [ms [Em _]].
  exists ms. split; [reflexivity|]. split; [exact Hs|]. split; [exact Em|]. clear Em Hs ms.
  injection E as <-. split; [|split].
  - intros. reflexivity.
  - intros. eapply Permutation_trans; [|apply perm_swap].
    match goal with |- Permutation ?x ?y => replace x with y; [apply Permutation_refl|] end.
    cbv -[Rplus Rmult IZR Rminus]. f_equal; [apply f_equal; ring|apply (f_equal (fun z => [z])); apply f_equal; ring].
  - intros. cbv -[Rplus Rmult IZR Rminus]. apply (f_equal (fun z => [z])). apply f_equal. ring.
Qed.

Definition quad_newton (x : R) : R := (a * (x * x) - e) / (2 * a * x + d).
Notation res x := (Rabs (a * (x * x) + d * x + e)).

Variables (cs : list (@coll R skey (list sym) rkey nat)) (ms0 : @mstamper R skey (list sym) nat) (tx : R).
Hypothesis Hb : build_colls (quad a d e) = Some cs.
Hypothesis Hst : stamps_present cs.
Hypothesis Hm : build_stamper 0 0 skey_eqb pkey_eqb rkey_eqb input_eqb false cs = SOk ms0.

Lemma quad_lists : (forall u tx, net_EL 0 false cs u tx = []) /\
  (forall u tx, Permutation (net_EN 0 false cs u tx) [EvY 0 0 (2 * a * u 0%nat + d); EvJ 0 (a * (u 0%nat * u 0%nat) - e)]) /\
  (forall u tx, net_RS 0 false cs u tx = [(0%nat, 0%nat, a * (u 0%nat * u 0%nat) + d * u 0%nat + e)]).
Proof. destruct quad_build as [cs' [ms' [E [_ [_ X]]]]]. rewrite Hb in E. injection E as <-. exact X. Qed.

(** [m] iterations that do not converge, followed by one more *)
Lemma quad_orbit : forall m (x : nat -> R), (m < 50)%nat -> (m < set_max_iters cfg)%nat ->
  (forall i, (i <= m)%nat -> 2 * a * x i + d <> 0) ->
  (forall i, (i < m)%nat -> quad_newton (x i) = x (S i) /\ set_tolerance cfg <= res (x i)) ->
  let hist := map (fun i => res (x i)) (seq 0 (S m)) in
  (bails_out hist = true -> exists st, network_run scalar_solve None cfg ms0 tt [x 0%nat] tx = NOk false [quad_newton (x m)] m st tt /\
      at_net 0 false cs st (vec [x m]) (Some tx) (Z.of_nat m)) /\
  (bails_out hist = false -> res (x m) < set_tolerance cfg ->
      exists st, network_run scalar_solve None cfg ms0 tt [x 0%nat] tx = NOk true [quad_newton (x m)] m st tt).
Proof.
  intros m x Hm50 Hmx Hy Hx hist.
  destruct quad_lists as [L1 [L2 L3]].
  assert (Ssp : forall so y z, y <> 0 -> exists so', scalar_solve so [(0%nat, 0%nat, y)] [z] = (so', Some [z / y]))
    by (intros; eexists; apply scalar_solve_total; auto).
  pose proof (net_reached 0 false (quad a d e) cs ms0 Hb (quad_ok a d e) Hst Hm [] ms0 [] eq_refl) as At0. simpl in At0.
  destruct (scalar_run (stamp_linear pkey_eqb) (stamp_nonlinear pkey_eqb) (calc_residuals pkey_eqb) scalar_solve None cfg
     (at_net 0 false cs) (net_EL 0 false cs) (net_lin 0 false cs) tx
     (fun u => L1 u tx) ms0 _ _ _ tt (x 0%nat) At0)
    as [st0 [Y [A1 [A2 [A3 A4]]]]].
  pose proof (scalar_orbit (stamp_nonlinear pkey_eqb) (calc_residuals pkey_eqb) scalar_solve None cfg
     (at_net 0 false cs) (net_EN 0 false cs) (net_RS 0 false cs) (net_nl 0 false cs) (net_res 0 false cs)
     (fun x => 2 * a * x + d) (fun x => a * (x * x) - e) (fun x => a * (x * x) + d * x + e) 0%nat tx
     (fun u => L2 u tx) (fun u => L3 u tx) Ssp eq_refl Hdbg m (S (set_max_iters cfg - S m)) 0 st0 tt Y [] _ _ x A1) as O.
  destruct O as [st2 [so2 [Y2 [w2 [j2 [B1 [B2 [B3 [B4 B5]]]]]]]]]; auto; [lia| |].
  { intros i Hi. simpl. split; [apply Hy; lia|]. destruct (Hx i Hi) as [X1 X2]. split; [exact X1|exact X2]. }
  destruct (scalar_step (stamp_nonlinear pkey_eqb) (calc_residuals pkey_eqb) scalar_solve None cfg
     (at_net 0 false cs) (net_EN 0 false cs) (net_RS 0 false cs) (net_nl 0 false cs) (net_res 0 false cs)
     (fun x => 2 * a * x + d) (fun x => a * (x * x) - e) (fun x => a * (x * x) + d * x + e) 0%nat tx
     (fun u => L2 u tx) (fun u => L3 u tx) Ssp eq_refl Hdbg (set_max_iters cfg - S m) m st2 so2 Y2 (x m)
     (map (fun i => res (x i)) (seq 0 m)) w2 j2 B1) as [st3 [so3 [Y3 [C1 [C2 [C3 C4]]]]]]; auto; [simpl in B2; lia|].
  cbn [plus app] in B5. replace (m + S (set_max_iters cfg - S m))%nat with (set_max_iters cfg) in B5 by lia.
  unfold network_run. rewrite A4, B5, C4.
  replace (map (fun i => res (x i)) (seq 0 m) ++ [res (x m)]) with hist
    by (unfold hist; rewrite seq_S, map_app; reflexivity).
  split.
  - intros ->. destruct so3. exists st3. split; [reflexivity|exact C1].
  - intros -> Hr. exists st3. unfold Rltb. destruct (Rlt_dec (res (x m)) (set_tolerance cfg)); [|lra]. destruct so3. reflexivity.
Qed.
End Quad.

Lemma Rltb_iff : forall x y, Rltb x y = true <-> x < y.
Proof. intros. unfold Rltb. destruct (Rlt_dec x y); split; intros; auto; try discriminate; contradiction. Qed.

(** C16: success in the first iteration, but the returned vector does not satisfy the tolerance *)
Lemma success_uncertified : forall tol n, 0 < tol -> (1 <= n)%nat ->
  exists (l : list (nat * option details * list R)) cs ms0 v0 v st',
    build_colls l = Some cs /\ (forall e, In e (elements_of l) -> element_ok false e) /\ stamps_present cs /\
    build_stamper 0 0 skey_eqb pkey_eqb rkey_eqb input_eqb false cs = SOk ms0 /\
    network_run scalar_solve None {| set_tolerance := tol; set_max_iters := n; set_debug := false |} ms0 tt v0 0 = NOk true v 0 st' tt /\
    length v = 1%nat /\ tol < Rabs (F (elements_of l) (vec v) 0 0).
Proof.
  intros tol n Ht Hn.
  set (a := 8 / tol). set (e := tol / 2).
  destruct (quad_build a 1 e) as [cs [ms0 [Hb [Hs [Hm _]]]]].
  pose proof (quad_orbit a 1 e {| set_tolerance := tol; set_max_iters := n; set_debug := false |} eq_refl cs ms0 0 Hb Hs Hm 0 (fun _ => 0)
    ltac:(lia) Hn ltac:(intros; lra) ltac:(intros; lia)) as [_ H].
  destruct H as [st Hr].
  - unfold bails_out. simpl. reflexivity.
  - simpl. replace (a * (0 * 0) + 1 * 0 + e) with e by ring. unfold e. rewrite Rabs_pos_eq; lra.
  - exists (quad a 1 e), cs, ms0, [0], [quad_newton a 1 e 0], st.
    split; [exact Hb|]. split; [apply quad_ok|]. split; [auto|]. split; [auto|]. split; [exact Hr|]. split; [reflexivity|].
    rewrite quad_F. unfold vec, quad_newton. simpl.
    replace (a * (_ * _) + 1 * _ + e) with (2 * tol) by (unfold a, e; field; lra).
    rewrite Rabs_pos_eq; lra.
Qed.

(** ** C19: an orbit of x -> (x - 1/x)/2, built backwards from 1/1000 *)
Definition up (y : R) : R := y + sqrt (y * y + 1).
Definition down (y : R) : R := if Rle_dec 0 y then y - sqrt (y * y + 1) else y + sqrt (y * y + 1).
Fixpoint back (i : nat) : R :=
  match i with O => 1 / 1000 | S j => if (j <? 6)%nat then up (back j) else down (back j) end.

Lemma sqrt_bounds : forall y, 0 <= y -> y <= sqrt (y * y + 1) /\ sqrt (y * y + 1) <= y + 1 /\ 1 <= sqrt (y * y + 1) /\
  sqrt (y * y + 1) * sqrt (y * y + 1) = y * y + 1.
Proof.
  intros y Hy. assert (P : 0 <= y * y + 1) by nra. pose proof (sqrt_sqrt _ P) as E. pose proof (sqrt_pos (y * y + 1)) as S.
  repeat split; auto; nra.
Qed.

Lemma up_newton : forall y, 0 <= y -> let x := up y in 1 <= x /\ 2 * y <= x /\ x <= 2 * y + 1 /\ x * x - 1 = 2 * x * y.
Proof. intros y Hy x. destruct (sqrt_bounds y Hy) as [A [B [C D]]]. unfold x, up. repeat split; nra. Qed.

Lemma down_newton : forall y, let x := down y in x <> 0 /\ x * x <= 1 /\ 1 <= (2 * Rabs y + 1) * Rabs x /\ x * x - 1 = 2 * x * y.
Proof.
  intros y x. unfold x, down. destruct (Rle_dec 0 y) as [H|H].
  - destruct (sqrt_bounds y H) as [A [B [C D]]]. set (s := sqrt (y * y + 1)) in *.
    rewrite (Rabs_pos_eq y H). assert (N : y - s < 0) by nra.
    rewrite (Rabs_left (y - s) N). repeat split; try lra; nra.
  - destruct (sqrt_bounds (- y) ltac:(lra)) as [A [B [C D]]]. replace (- y * - y + 1) with (y * y + 1) in * by ring.
    set (s := sqrt (y * y + 1)) in *.
    rewrite (Rabs_left y ltac:(lra)). assert (N : 0 < y + s) by nra.
    rewrite (Rabs_pos_eq (y + s)) by lra. repeat split; try lra; nra.
Qed.

Lemma back_up : forall i, (1 <= i <= 6)%nat -> 2 ^ (i - 1) <= back i /\ back i <= 1002 / 1000 * 2 ^ i - 1.
Proof.
  induction i as [|i IH]; intros Hi; [lia|].
  destruct (Nat.eq_dec i 0) as [->|N].
  - destruct (up_newton (1 / 1000) ltac:(lra)) as [A [B [C D]]]. cbn [back]. change (0 <? 6)%nat with true. cbv iota. simpl. lra.
  - destruct IH as [A B]; [lia|]. cbn [back]. replace (i <? 6)%nat with true by (symmetry; apply Nat.ltb_lt; lia).
    assert (1 <= 2 ^ (i - 1)) by (apply pow_R1_Rle; lra).
    destruct (up_newton (back i) ltac:(lra)) as [C [D [E G]]].
    replace (S i - 1)%nat with (S (i - 1)) by lia. cbn [pow]. lra.
Qed.
Lemma back_6 : 32 <= back 6 /\ back 6 <= 64.
Proof. destruct (back_up 6 ltac:(lia)) as [A B]. cbn [pow Nat.sub] in A, B. split; lra. Qed.

Lemma back_step : forall i, back (S i) <> 0 /\ back (S i) * back (S i) - 1 = 2 * back (S i) * back i.
Proof.
  intros i. destruct (Nat.ltb_spec i 6) as [H|H].
  - assert (P : 0 <= back i).
    { destruct i as [|i]; [simpl; lra|]. destruct (back_up (S i) ltac:(lia)) as [A _].
      assert (1 <= 2 ^ (S i - 1)) by (apply pow_R1_Rle; lra). lra. }
    destruct (up_newton (back i) P) as [A [B [C D]]]. cbn [back]. replace (i <? 6)%nat with true by (symmetry; apply Nat.ltb_lt; lia).
    split; lra.
  - destruct (down_newton (back i)) as [A [B [C D]]]. cbn [back]. replace (i <? 6)%nat with false by (symmetry; apply Nat.ltb_ge; lia). auto.
Qed.

Lemma back_small : forall i, (7 <= i)%nat -> back i * back i <= 1 /\ 1 <= 129 * Rabs (back i).
Proof.
  intros i Hi. destruct i as [|i]; [lia|]. cbn [back]. replace (i <? 6)%nat with false by (symmetry; apply Nat.ltb_ge; lia).
  destruct (down_newton (back i)) as [A [B [C D]]]. split; auto.
  destruct (Nat.eq_dec i 6) as [->|N].
  - destruct back_6 as [P Q]. rewrite (Rabs_pos_eq (back 6)) in C by lra.
    pose proof (Rabs_pos (down (back 6))). nra.
  - assert (B6 : back i * back i <= 1).
    { destruct i as [|i]; [lia|]. cbn [back]. replace (i <? 6)%nat with false by (symmetry; apply Nat.ltb_ge; lia).
      apply (down_newton (back i)). }
    assert (Rabs (back i) <= 1).
    { pose proof (Rabs_pos (back i)). assert (Rabs (back i) * Rabs (back i) = back i * back i) by (rewrite <- Rabs_mult; apply Rabs_pos_eq; nra). nra. }
    pose proof (Rabs_pos (down (back i))). nra.
Qed.

Lemma back_square : forall i, (1 <= i)%nat -> 1 / 100000 <= back i * back i.
Proof.
  intros i Hi. destruct (le_lt_dec 7 i) as [H|H].
  - destruct (back_small i H) as [A B].
    assert (E : back i * back i = Rabs (back i) * Rabs (back i)) by (rewrite <- Rabs_mult; symmetry; apply Rabs_pos_eq; nra).
    rewrite E. nra.
  - destruct (back_up i ltac:(lia)) as [A _]. assert (1 <= 2 ^ (i - 1)) by (apply pow_R1_Rle; lra). nra.
Qed.

Fixpoint zsum (n : nat) (f : nat -> Z) : Z := match n with O => 0%Z | S n => (zsum n f + f n)%Z end.
Lemma csum_le_zsum : forall n f (g : nat -> Z) A, (forall i, (i < n)%nat -> A * IZR (g i) <= f i) -> A * IZR (zsum n g) <= csum n f.
Proof.
  induction n; intros f g A H; simpl; [lra|]. rewrite plus_IZR. specialize (IHn f g A (fun i Hi => H i (Nat.lt_lt_succ_r _ _ Hi))).
  specialize (H n (Nat.lt_succ_diag_r n)). lra.
Qed.

Definition slope_bound (i : nat) : Z :=
  let c := (50 * Z.of_nat i - 1225)%Z in
  if (i <? 25)%nat then (2 * c)%Z else if (i =? 43)%nat then (1025 * c)%Z else c.

Lemma history_bails : forall A (y : nat -> R), 0 < A -> (forall i, (i < 50)%nat -> A <= y i) -> (forall i, (i < 25)%nat -> y i <= 2 * A) ->
  1025 * A <= y 43%nat -> bails_out (map y (seq 0 50)) = true.
Proof.
  intros A y HA H1 H2 H3. unfold bails_out. rewrite map_length, seq_length. change (50 mod 50 =? 0)%nat with true. cbn [andb].
  apply Rltb_iff. rewrite slope_expand. pose proof (lsq_denom 50 ltac:(lia)) as D.
  apply Rmult_lt_0_compat; [|now apply Rinv_0_lt_compat].
  pose proof (csum_INR 50) as E. assert (I : INR 50 = 50) by (rewrite INR_IZR_INZ; reflexivity). rewrite I in E |- *.
  assert (E' : csum 50 INR = 1225) by lra. rewrite E'. rewrite <- !csum_scale.
  assert (P : 50 * csum 50 (fun i => INR i * y i) - csum 50 (fun i => 1225 * y i) = csum 50 (fun i => (50 * INR i - 1225) * y i)).
  { rewrite csum_scale. generalize 50%nat at 1 2 3 as n. induction n; simpl; [ring|]. rewrite <- IHn. ring. }
  rewrite csum_scale, P.
  assert (Z1 : A * IZR (zsum 50 slope_bound) <= csum 50 (fun i => (50 * INR i - 1225) * y i)).
  { apply csum_le_zsum. intros i Hi. unfold slope_bound. pose proof (H1 i Hi) as L1.
    rewrite INR_IZR_INZ. set (c := (50 * Z.of_nat i - 1225)%Z).
    assert (Ec : 50 * IZR (Z.of_nat i) - 1225 = IZR c) by (unfold c; rewrite minus_IZR, mult_IZR; reflexivity). rewrite Ec.
    destruct (Nat.ltb_spec i 25) as [L|L].
    - specialize (H2 i L). rewrite mult_IZR. assert (IZR c <= 0) by (apply IZR_le; unfold c; lia). nra.
    - assert (0 <= IZR c) by (apply IZR_le; unfold c; lia).
      destruct (Nat.eqb_spec i 43) as [->|N]; [rewrite mult_IZR; nra|nra]. }
  assert (Z2 : 0 < IZR (zsum 50 slope_bound)) by (apply IZR_lt; vm_compute; reflexivity). nra.
Qed.

(** C19: the run whose 50th residual is the first one below the tolerance is reported as a failure *)
Lemma converged_run_discarded : forall tol n, 0 < tol -> (50 <= n)%nat ->
  let cfg := {| set_tolerance := tol; set_max_iters := n; set_debug := false |} in
  exists (l : list (nat * option details * list R)) cs ms0 x0 x1 v st' rd,
    build_colls l = Some cs /\ (forall e, In e (elements_of l) -> element_ok false e) /\ stamps_present cs /\
    build_stamper 0 0 skey_eqb pkey_eqb rkey_eqb input_eqb false cs = SOk ms0 /\
    network_run scalar_solve None cfg ms0 tt [x0] 0 = NOk false v 49 st' tt /\
    mk_residual_details (snd (calc_residuals pkey_eqb st' 0 (vec v) 49%Z)) 1 = Some rd /\ rd_max rd < tol /\
    exists st1, network_run scalar_solve None cfg ms0 tt [x1] 0 = NOk true v 48 st1 tt.
Proof.
  intros tol n Ht Hn cfg.
  set (A := tol * 100000 / 100001). assert (HA : 0 < A) by (unfold A; lra).
  set (x := fun i => back (49 - i)).
  assert (Hnz : forall i, (i <= 49)%nat -> 2 * A * x i + 0 <> 0).
  { intros i Hi. unfold x. assert (N : back (49 - i) <> 0).
    { destruct (49 - i)%nat as [|j] eqn:E; [simpl; lra|]. apply back_step. }
    intros E. apply N. nra. }
  assert (Hstep : forall i, (i < 49)%nat -> quad_newton A 0 A (x i) = x (S i)).
  { intros i Hi. unfold x, quad_newton. replace (49 - i)%nat with (S (49 - S i)) by lia.
    destruct (back_step (49 - S i)) as [N E]. set (u := back (S (49 - S i))) in *. set (w := back (49 - S i)) in *.
    replace (A * (u * u) - A) with (A * (u * u - 1)) by ring. rewrite E. field. lra. }
  assert (Habs : forall u, Rabs (A * (u * u) + 0 * u + A) = A * (u * u + 1)).
  { intros u. rewrite Rabs_pos_eq by nra. ring. }
  assert (Hbig : forall i, (i < 49)%nat -> tol <= Rabs (A * (x i * x i) + 0 * x i + A)).
  { intros i Hi. rewrite Habs. unfold x. pose proof (back_square (49 - i) ltac:(lia)). unfold A. nra. }
  assert (Hlast : Rabs (A * (x 49%nat * x 49%nat) + 0 * x 49%nat + A) < tol).
  { rewrite Habs. unfold x. simpl. unfold A. nra. }
  destruct (quad_build A 0 A) as [cs [ms0 [Hb [Hs [Hm [_ [_ L3]]]]]]].
  destruct (quad_orbit A 0 A cfg eq_refl cs ms0 0 Hb Hs Hm 49 x ltac:(lia) ltac:(simpl; lia) Hnz
     ltac:(intros i Hi; split; [apply Hstep|apply Hbig]; auto)) as [R1 _].
  destruct R1 as [st' [R1 At]].
  { apply (history_bails A); auto.
    - intros i Hi. rewrite Habs. nra.
    - intros i Hi. rewrite Habs. unfold x. destruct (back_small (49 - i) ltac:(lia)). nra.
    - rewrite Habs. unfold x. change (49 - 43)%nat with 6%nat. destruct back_6 as [B6 _]. set (z := back 6) in *. assert (1024 <= z * z) by nra. nra. }
  destruct (quad_orbit A 0 A cfg eq_refl cs ms0 0 Hb Hs Hm 48 (fun i => x (S i)) ltac:(lia) ltac:(simpl; lia)
     ltac:(intros; apply Hnz; lia) ltac:(intros i Hi; split; [apply Hstep|apply Hbig]; lia)) as [_ R2].
  destruct R2 as [st1 R2]; [|exact Hlast|].
  { unfold bails_out. rewrite map_length, seq_length. reflexivity. }
  destruct (net_res 0 false cs st' (vec [x 49%nat]) (Some 0) 49%Z 0 (vec [quad_newton A 0 A (x 49%nat)]) 49%Z At) as [_ P].
  rewrite L3 in P. apply Permutation_sym, Permutation_length_1_inv in P. change (vec [x 49%nat] 0%nat) with (x 49%nat) in P.
  exists (quad A 0 A), cs, ms0, (x 0%nat), (x 1%nat), [quad_newton A 0 A (x 49%nat)], st'.
  eexists. split; [exact Hb|]. split; [apply quad_ok|]. split; [auto|]. split; [auto|]. split; [exact R1|].
  split; [rewrite P; reflexivity|]. split; [|exists st1; exact R2].
  cbn [rd_max]. rewrite Rplus_0_l. exact Hlast.
Qed.
