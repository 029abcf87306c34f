(** Expressions that are affine in a set of names. *)
From Coq Require Import String List Bool Arith ZArith Reals Lra Lia.
From Verif Require Import Expr Segment ExprProofs Collect CollectProofs SpecSystem Components SpecComponents ComponentsProofs ElementProofs UnbalancedProofs SpecInfeasibility.
Import ListNotations.
Local Open Scope R_scope.

Definition free (X : list sym) (e : expr) : bool := forallb (fun s => negb (mem s X)) (fsyms e).
Fixpoint affine (X : list sym) (e : expr) : bool :=
  match e with
  | Const _ | Sym _ => true
  | Add a b => affine X a && affine X b
  | Mul a b => (free X a && affine X b) || (affine X a && free X b)
  | Pow a _ | Sin a | Cos a => free X a
  end.
Fixpoint homogeneous (X : list sym) (e : expr) : bool :=
  match e with
  | Const z => Z.eqb z 0
  | Sym s => mem s X
  | Add a b => homogeneous X a && homogeneous X b
  | Mul a b => homogeneous X a || homogeneous X b
  | _ => false
  end.
Lemma free_in : forall X e x, free X e = true -> In x X -> ~ In x (fsyms e).
Proof. intros X e x H Hx Hi. unfold free in H. rewrite forallb_forall in H. apply H in Hi. apply mem_In in Hx. rewrite Hx in Hi. discriminate. Qed.
Lemma free_den : forall X e r1 r2, free X e = true -> (forall s, ~ In s X -> r1 s = r2 s) -> den e r1 = den e r2.
Proof. intros. apply den_ext. intros s Hs. apply H0. intros Hx. eapply free_in; eauto. Qed.
Lemma free_diff : forall X e x rho, free X e = true -> In x X -> den (diff e x) rho = 0.
Proof. intros. apply den_diff_free. eapply free_in; eauto. Qed.

Lemma affine_diff : forall X e x r1 r2, affine X e = true -> In x X -> (forall s, ~ In s X -> r1 s = r2 s) ->
  den (diff e x) r1 = den (diff e x) r2.
Proof.
  intros X e x r1 r2. induction e; intros H Hx Hr; cbn [affine] in H.
  - reflexivity.
  - cbn [diff]. destruct (String.eqb s x); reflexivity.
  - apply andb_prop in H as [A B]. cbn [diff den]. now rewrite IHe1, IHe2.
  - apply orb_prop in H as [H|H]; apply andb_prop in H as [A B]; cbn [diff den].
    + rewrite !(free_diff X e1 x) by auto. rewrite IHe2 by auto. rewrite (free_den X e1 r1 r2); auto. ring.
    + rewrite !(free_diff X e2 x) by auto. rewrite IHe1 by auto. rewrite (free_den X e2 r1 r2); auto. ring.
  - rewrite !(free_diff X (Pow e n) x); auto.
  - rewrite !(free_diff X (Sin e) x); auto.
  - rewrite !(free_diff X (Cos e) x); auto.
Qed.
Lemma lsum_pick : forall (g : sym -> R) l s, NoDup l -> lsum (fun x => g x * (if String.eqb s x then 1 else 0)) l = if mem s l then g s else 0.
Proof.
  induction l as [|x l IH]; intros s H; [reflexivity|]. inversion H; subst. cbn [lsum fold_right]. fold (lsum (fun x => g x * (if String.eqb s x then 1 else 0)) l).
  rewrite IH by auto. unfold mem. cbn [existsb]. destruct (String.eqb_spec s x).
  - subst. cbn [orb]. destruct (existsb (String.eqb x) l) eqn:E; [|ring]. exfalso. apply H2. now apply mem_In.
  - cbn [orb]. ring.
Qed.
Lemma affine_change : forall X e r1 r2, NoDup X -> affine X e = true -> (forall s, ~ In s X -> r1 s = r2 s) ->
  den e r2 - den e r1 = lsum (fun x => (r2 x - r1 x) * den (diff e x) r1) X.
Proof.
  intros X e r1 r2 N. induction e; intros H Hr; cbn [affine] in H.
  - cbn [diff den]. rewrite lsum_zero; [ring|]. intros; ring.
  - cbn [den diff]. rewrite (lsum_ext _ _ (fun x => (r2 x - r1 x) * (if String.eqb s x then 1 else 0))).
    2:{ intros x _. destruct (String.eqb s x); reflexivity. }
    rewrite (lsum_pick (fun x => r2 x - r1 x)) by auto. destruct (mem s X) eqn:E; [reflexivity|]. rewrite Hr; [ring|]. intros Hs. apply mem_In in Hs. congruence.
  - apply andb_prop in H as [A B]. cbn [diff den]. rewrite (lsum_ext _ _ (fun x => (r2 x - r1 x) * den (diff e1 x) r1 + (r2 x - r1 x) * den (diff e2 x) r1)) by (intros; ring).
    rewrite lsum_add, <- IHe1, <- IHe2 by auto. ring.
  - apply orb_prop in H as [H|H]; apply andb_prop in H as [A B]; cbn [diff den].
    + rewrite (lsum_ext _ _ (fun x => den e1 r1 * ((r2 x - r1 x) * den (diff e2 x) r1))) by (intros; rewrite (free_diff X e1) by auto; ring).
      rewrite lsum_scale, <- IHe2 by auto. rewrite (free_den X e1 r2 r1) by (auto; intros; symmetry; auto). ring.
    + rewrite (lsum_ext _ _ (fun x => den e2 r1 * ((r2 x - r1 x) * den (diff e1 x) r1))) by (intros; rewrite (free_diff X e2) by auto; ring).
      rewrite lsum_scale, <- IHe1 by auto. rewrite (free_den X e2 r2 r1) by (auto; intros; symmetry; auto). ring.
  - rewrite lsum_zero; [|intros; rewrite (free_diff X (Pow e n)) by auto; ring]. rewrite (free_den X (Pow e n) r2 r1); [ring|auto|intros; symmetry; auto].
  - rewrite lsum_zero; [|intros; rewrite (free_diff X (Sin e)) by auto; ring]. rewrite (free_den X (Sin e) r2 r1); [ring|auto|intros; symmetry; auto].
  - rewrite lsum_zero; [|intros; rewrite (free_diff X (Cos e)) by auto; ring]. rewrite (free_den X (Cos e) r2 r1); [ring|auto|intros; symmetry; auto].
Qed.
Lemma homogeneous_zero : forall X e rho, homogeneous X e = true -> (forall s, In s X -> rho s = 0) -> den e rho = 0.
Proof.
  induction e; intros rho H Hr; cbn [homogeneous] in H; try discriminate; cbn [den].
  - apply Z.eqb_eq in H as ->. reflexivity.
  - apply Hr. now apply mem_In.
  - apply andb_prop in H as [A B]. rewrite IHe1, IHe2 by auto. ring.
  - apply orb_prop in H as [H|H]; [rewrite IHe1|rewrite IHe2]; auto; ring.
Qed.

Definition bilinear (s : segment) : bool :=
  affine (sg_primals s) (sg_lagrange s) && affine (sg_duals s) (sg_lagrange s) && homogeneous (sg_duals s) (sg_lagrange s) &&
  nodupb (sg_constants s ++ sg_primals s ++ sg_duals s).
Lemma linear_bilinear : forall s, In s linear_segments -> bilinear s = true.
Proof. intros s H. repeat (destruct H as [<-|H]; [vm_compute; reflexivity|]). destruct H. Qed.

(** *** sums over rows *)
Lemma sum_rows : forall (f : nat -> R) P N o k, (forall i, o = Some i -> (i < N)%nat /\ P i = true) ->
  lsum (fun r => if P r then f r * (hit o r * k) else 0) (seq 0 N) = match o with Some i => f i | None => 0 end * k.
Proof.
  intros f P N [i|] k H.
  - destruct (H i eq_refl) as [A B]. rewrite (lsum_one _ _ i).
    + rewrite B. unfold hit. rewrite Nat.eqb_refl. ring.
    + apply seq_NoDup.
    + apply in_seq0. auto.
    + intros j _ Hj. destruct (P j); auto. unfold hit. destruct (Nat.eqb_spec i j); [congruence|ring].
  - rewrite lsum_zero; [ring|]. intros. destruct (P x); auto. unfold hit. ring.
Qed.
(** rows selected by [P], weighted *)
Definition weigh (P : nat -> bool) (N : nat) (f : nat -> R) (es : list element) (v : nat -> R) (tx : R) : R :=
  lsum (fun r => if P r then f r * F es v tx r else 0) (seq 0 N).
Lemma weigh_app : forall P N f a b v tx, weigh P N f (a ++ b) v tx = weigh P N f a v tx + weigh P N f b v tx.
Proof. intros. unfold weigh. rewrite <- lsum_add. apply lsum_ext. intros r _. rewrite F_app. destruct (P r); ring. Qed.
Lemma weigh_nil : forall P N f v tx, weigh P N f [] v tx = 0.
Proof. intros. unfold weigh. apply lsum_zero. intros. rewrite F_nil. destruct (P x); ring. Qed.
Lemma weigh_zero : forall P N f es v tx, (forall r, (r < N)%nat -> P r = true -> F es v tx r = 0) -> weigh P N f es v tx = 0.
Proof. intros. unfold weigh. apply lsum_zero. intros r Hr. apply in_seq0 in Hr. destruct (P r) eqn:E; auto. rewrite H by auto. ring. Qed.

Definition idx (f : nat -> R) (d : details) (x : sym) : R := match lookup (sd_var d) x with Some (Some i) => f i | _ => 0 end.
Lemma weigh_hsum : forall P N f d rho l, sd_eqn d = None -> sd_opt d = true ->
  (forall x i, In x l -> lookup (sd_var d) x = Some (Some i) -> (i < N)%nat /\ P i = true) ->
  lsum (fun r => if P r then f r * hsum d rho r l else 0) (seq 0 N) = lsum (fun x => idx f d x * den (diff (sg_lagrange (sd_seg d)) x) rho) l.
Proof.
  intros P N f d rho l He Ho. induction l as [|x l IH]; intros H.
  - apply lsum_zero. intros r _. cbn [hsum]. destruct (P r); ring.
  - cbn [hsum]. rewrite (lsum_ext _ _ (fun r => (if P r then f r * (hit (where_ d x) r * den (diff (sg_lagrange (sd_seg d)) x) rho) else 0) +
      (if P r then f r * hsum d rho r l else 0))) by (intros r _; destruct (P r); ring).
    rewrite lsum_add, IH by (intros; apply (H x0); auto; now right). cbn [lsum fold_right]. f_equal.
    assert (W : where_ d x = match lookup (sd_var d) x with Some o => o | None => None end).
    { unfold where_, row_index, sd_eqn_map. rewrite Ho, He. reflexivity. }
    rewrite W. rewrite sum_rows.
    + unfold idx. destruct (lookup (sd_var d) x) as [[i|]|]; reflexivity.
    + intros i Hi. apply (H x i); [now left|]. destruct (lookup (sd_var d) x); congruence.
Qed.
Lemma weigh_hsum_none : forall P N f d rho l, sd_eqn d = None -> sd_opt d = true ->
  (forall x i, In x l -> lookup (sd_var d) x = Some (Some i) -> P i = false) ->
  lsum (fun r => if P r then f r * hsum d rho r l else 0) (seq 0 N) = 0.
Proof.
  intros P N f d rho l He Ho H. apply lsum_zero. intros r _. destruct (P r) eqn:E; auto. rewrite hsum_free; [ring|].
  intros x Hx. apply hit_miss. unfold where_, row_index, sd_eqn_map. rewrite Ho, He. destruct (lookup (sd_var d) x) as [[i|]|] eqn:L; try discriminate.
  intros X. injection X as ->. rewrite (H x r) in E; auto. discriminate.
Qed.

(** *** one element *)
Definition lagr (e : element) (lam x : nat -> R) (P : nat -> bool) (tx : R) : R :=
  den (sg_lagrange (sd_seg (fst e))) (sym_val e (fun i => if P i then x i else lam i) tx).
Lemma weigh_one : forall P N f e v tx, weigh P N f [e] v tx =
  lsum (fun r => if P r then f r * hsum (fst e) (sym_val e v tx) r (first_orders (fst e)) else 0) (seq 0 N).
Proof. intros. unfold weigh. apply lsum_ext. intros r _. rewrite F_cons, F_nil, Rplus_0_r. reflexivity. Qed.
Lemma not_const : forall s x, bilinear s = true -> In x (sg_primals s ++ sg_duals s) -> index_of x (sg_constants s) = None.
Proof.
  intros s x H Hx. unfold bilinear in H. apply andb_prop in H as [_ H]. apply nodupb_NoDup in H.
  destruct (index_of x (sg_constants s)) eqn:E; auto. exfalso. eapply NoDup_app_disj; [exact H| |exact Hx]. apply index_of_In. eauto.
Qed.
Lemma sym_idx : forall e v tx x, bilinear (sd_seg (fst e)) = true -> In x (sg_primals (sd_seg (fst e)) ++ sg_duals (sd_seg (fst e))) ->
  sym_val e v tx x = idx v (fst e) x.
Proof. intros. unfold sym_val. rewrite not_const by auto. reflexivity. Qed.
Lemma NoDup_app_r : forall A (a b : list A), NoDup (a ++ b) -> NoDup b.
Proof. induction a; intros b H; auto. inversion H; auto. Qed.
Lemma NoDup_app_l : forall A (a b : list A), NoDup (a ++ b) -> NoDup a.
Proof. induction a; intros b H; constructor; inversion H; subst; eauto. intros X. apply H2. apply in_or_app. auto. Qed.

(** the rows of the multipliers: the Lagrangian *)
Lemma element_duals : forall P N e lam w tx, linear_element e -> separated P N e ->
  weigh (fun i => negb (P i)) N lam [e] w tx = lagr e lam w P tx.
Proof.
  intros P N e lam w tx [Hs He Ho] [Sp Sd]. pose proof (linear_bilinear _ Hs) as B. set (s := sd_seg (fst e)) in *.
  pose proof B as B'. unfold bilinear in B'. apply andb_prop in B' as [B' Nd]. apply andb_prop in B' as [B' Hh]. apply andb_prop in B' as [Ap Ad].
  apply nodupb_NoDup in Nd. apply NoDup_app_r in Nd. pose proof (NoDup_app_r _ _ _ Nd) as Nd2.
  rewrite weigh_one. unfold first_orders. rewrite Ho. unfold sg_variables. fold s.
  rewrite (lsum_ext _ _ (fun r => (if negb (P r) then lam r * hsum (fst e) (sym_val e w tx) r (sg_primals s) else 0) +
     (if negb (P r) then lam r * hsum (fst e) (sym_val e w tx) r (sg_duals s) else 0)))
     by (intros r _; rewrite hsum_app; destruct (negb (P r)); ring).
  rewrite lsum_add. rewrite (weigh_hsum_none (fun i => negb (P i))); auto.
  2:{ intros x i Hx Hl. destruct (Sp x i Hx Hl) as [_ ->]. reflexivity. }
  rewrite Rplus_0_l. rewrite (weigh_hsum (fun i => negb (P i))); auto.
  2:{ intros x i Hx Hl. destruct (Sd x i Hx Hl) as [? ->]. auto. }
  fold s. unfold lagr. fold s.
  set (r1 := fun y : sym => if mem y (sg_duals s) then 0 else sym_val e w tx y).
  set (r2 := sym_val e (fun i => if P i then w i else lam i) tx).
  assert (S2 : forall y, ~ In y (sg_duals s) -> r1 y = r2 y \/ ~ In y (fsyms (sg_lagrange s))).
  { intros y Hy. destruct (mem y (sg_duals s)) eqn:E; [apply mem_In in E; contradiction|].
    destruct (in_dec string_dec y (sg_constants s)) as [Hc|Hc].
    - left. unfold r1, r2. rewrite E. unfold sym_val. fold s. apply index_of_In in Hc as [n ->]. reflexivity.
    - destruct (in_dec string_dec y (sg_primals s)) as [Hp|Hp].
      + left. unfold r1, r2. rewrite E. rewrite !sym_idx by (auto; apply in_or_app; auto). unfold idx.
        destruct (lookup (sd_var (fst e)) y) as [[i|]|] eqn:L; auto. destruct (Sp y i Hp L) as [_ ->]. reflexivity.
      + right. intros X. revert X. clear - Hs Hy Hc Hp.
        assert (C : forallb (fun z => forallb (fun y => mem y (sg_constants z ++ sg_primals z ++ sg_duals z)) (fsyms (sg_lagrange z))) linear_segments = true) by (vm_compute; reflexivity).
        rewrite forallb_forall in C. specialize (C _ Hs). fold s in C. rewrite forallb_forall in C. intros X. apply C in X. apply mem_In in X.
        apply in_app_or in X as [X|X]; auto. apply in_app_or in X as [X|X]; auto. }
  (* replace r2 outside the expression *)
  set (r3 := fun y : sym => if mem y (sg_duals s) then r2 y else r1 y).
  assert (E3 : den (sg_lagrange s) r2 = den (sg_lagrange s) r3).
  { apply den_ext. intros y Hy. unfold r3. destruct (mem y (sg_duals s)) eqn:E; auto. destruct (S2 y) as [Z|Z]; auto. - intros X. apply mem_In in X. congruence. - contradiction. }
  rewrite E3.
  assert (O : forall y, ~ In y (sg_duals s) -> r1 y = r3 y).
  { intros y Hy. unfold r3. destruct (mem y (sg_duals s)) eqn:E; auto. apply mem_In in E. contradiction. }
  pose proof (affine_change (sg_duals s) (sg_lagrange s) r1 r3 Nd2 Ad O) as K.
  rewrite (homogeneous_zero (sg_duals s) (sg_lagrange s) r1 Hh) in K.
  2:{ intros y Hy. unfold r1. apply mem_In in Hy. now rewrite Hy. }
  rewrite Rminus_0_r in K. rewrite K. apply lsum_ext. intros y Hy.
  rewrite (affine_diff (sg_duals s) (sg_lagrange s) y (sym_val e w tx) r1); auto.
  2:{ intros z Hz. unfold r1. destruct (mem z (sg_duals s)) eqn:E; auto. apply mem_In in E. contradiction. }
  f_equal. unfold r3, r1. pose proof Hy as Hy'. apply mem_In in Hy'. rewrite Hy'. unfold r2. rewrite sym_idx by (auto; apply in_or_app; auto).
  unfold idx. destruct (lookup (sd_var (fst e)) y) as [[i|]|] eqn:L; try ring. destruct (Sd y i Hy L) as [_ ->]. ring.
Qed.

(** the rows of the unknowns: change of the Lagrangian *)
Lemma element_primals : forall P N e v w tx, linear_element e -> separated P N e ->
  weigh P N (fun i => w i - v i) [e] v tx = lagr e v w P tx - lagr e v v P tx.
Proof.
  intros P N e v w tx [Hs He Ho] [Sp Sd]. pose proof (linear_bilinear _ Hs) as B. set (s := sd_seg (fst e)) in *.
  pose proof B as B'. unfold bilinear in B'. apply andb_prop in B' as [B' Nd]. apply andb_prop in B' as [B' Hh]. apply andb_prop in B' as [Ap Ad].
  apply nodupb_NoDup in Nd. apply NoDup_app_r in Nd. pose proof (NoDup_app_l _ _ _ Nd) as Nd2.
  rewrite weigh_one. unfold first_orders. rewrite Ho. unfold sg_variables. fold s.
  rewrite (lsum_ext _ _ (fun r => (if P r then (w r - v r) * hsum (fst e) (sym_val e v tx) r (sg_primals s) else 0) +
     (if P r then (w r - v r) * hsum (fst e) (sym_val e v tx) r (sg_duals s) else 0)))
     by (intros r _; rewrite hsum_app; destruct (P r); ring).
  rewrite lsum_add. rewrite (weigh_hsum P); auto.
  rewrite (weigh_hsum_none P); auto.
  2:{ intros x i Hx Hl. now destruct (Sd x i Hx Hl). }
  rewrite Rplus_0_r. fold s. unfold lagr. fold s.
  set (r1 := sym_val e (fun i => if P i then v i else v i) tx).
  set (r2 := sym_val e (fun i => if P i then w i else v i) tx).
  assert (E1 : forall y, r1 y = sym_val e v tx y).
  { intros y. unfold r1, sym_val. destruct (index_of y (sg_constants (sd_seg (fst e)))); auto. destruct (lookup (sd_var (fst e)) y) as [[i|]|]; auto. now destruct (P i). }
  assert (S2 : forall y, ~ In y (sg_primals s) -> In y (fsyms (sg_lagrange s)) -> r1 y = r2 y).
  { intros y Hy Hf. destruct (in_dec string_dec y (sg_constants s)) as [Hc|Hc].
    - unfold r1, r2, sym_val. fold s. apply index_of_In in Hc as [n ->]. reflexivity.
    - assert (Hd : In y (sg_duals s)).
      { assert (C : forallb (fun z => forallb (fun y => mem y (sg_constants z ++ sg_primals z ++ sg_duals z)) (fsyms (sg_lagrange z))) linear_segments = true) by (vm_compute; reflexivity).
        rewrite forallb_forall in C. specialize (C _ Hs). fold s in C. rewrite forallb_forall in C. apply C in Hf. apply mem_In in Hf.
        apply in_app_or in Hf as [X|X]; [contradiction|]. apply in_app_or in X as [X|X]; auto. contradiction. }
      unfold r1, r2. rewrite !sym_idx by (auto; apply in_or_app; auto). unfold idx.
      destruct (lookup (sd_var (fst e)) y) as [[i|]|] eqn:L; auto. destruct (Sd y i Hd L) as [_ ->]. reflexivity. }
  set (r3 := fun y : sym => if mem y (sg_primals s) then r2 y else r1 y).
  assert (E3 : den (sg_lagrange s) r2 = den (sg_lagrange s) r3).
  { apply den_ext. intros y Hy. unfold r3. destruct (mem y (sg_primals s)) eqn:E; auto. symmetry. apply S2; auto. intros X. apply mem_In in X. congruence. }
  rewrite E3. rewrite (affine_change (sg_primals s) (sg_lagrange s) r1 r3 Nd2 Ap).
  2:{ intros y Hy. unfold r3. destruct (mem y (sg_primals s)) eqn:E; auto. apply mem_In in E. contradiction. }
  apply lsum_ext. intros y Hy. f_equal.
  - unfold r3. pose proof Hy as Hy'. apply mem_In in Hy'. rewrite Hy'. unfold r1, r2. rewrite !sym_idx by (auto; apply in_or_app; auto). unfold idx.
    destruct (lookup (sd_var (fst e)) y) as [[i|]|] eqn:L; try ring. destruct (Sp y i Hy L) as [_ ->]. reflexivity.
  - apply den_ext. intros; symmetry; apply E1.
Qed.
