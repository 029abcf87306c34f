(** Lemmas for C147: with optimisation every block of unknowns is followed by the block of its multipliers; the rows of the multipliers are
    the rows of the network without optimisation, and the rows of the unknowns vanish when all multipliers do. *)
From Coq Require Import String List Bool Arith ZArith Reals Lra Lia.
From Verif Require Import Expr Segment ExprProofs Collect SpecSystem Components SpecComponents ComponentsProofs ElementProofs UnbalancedLine
  Network SpecNetwork NetworkAssign.
Import ListNotations.
Local Open Scope R_scope.

(** *** Lagrangians that are linear in the multipliers *)
Fixpoint lin (D : list sym) (e : expr) : bool :=
  match e with
  | Const _ => true
  | Add a b => lin D a && lin D b
  | Mul (Sym d) K => mem d D && forallb (fun s => negb (mem s D)) (fsyms K)
  | _ => false
  end.
Lemma mem_in s l : mem s l = true <-> In s l.
Proof. unfold mem. rewrite existsb_exists. split; [intros [x [H E]]; apply String.eqb_eq in E as ->; auto|intros H; exists s; split; auto; apply String.eqb_refl]. Qed.
Lemma mem_out s l : mem s l = false <-> ~ In s l.
Proof. rewrite <- mem_in. destruct (mem s l); split; congruence. Qed.
Lemma diff_free K x rho : ~ In x (fsyms K) -> den (diff K x) rho = 0.
Proof. intros H. rewrite <- dden_snd. now apply dden_not_free. Qed.
Lemma lin_mul D d K : lin D (Mul (Sym d) K) = true -> In d D /\ forall s, In s (fsyms K) -> ~ In s D.
Proof.
  cbn [lin]. rewrite andb_true_iff, mem_in, forallb_forall. intros [H1 H2]. split; auto. intros s Hs. apply mem_out. specialize (H2 s Hs). now destruct (mem s D).
Qed.
Lemma lin_dual D x r1 r2 : In x D -> forall e, lin D e = true -> (forall s, In s (fsyms e) -> ~ In s D -> r1 s = r2 s) -> den (diff e x) r1 = den (diff e x) r2.
Proof.
  intros Hx. induction e; intros L H; try discriminate; [reflexivity| |].
  - cbn [lin] in L. apply andb_true_iff in L as [L1 L2]. cbn [diff den]. rewrite IHe1, IHe2; auto; intros s Hs; apply H; cbn [fsyms]; apply in_app_iff; auto.
  - destruct e1; try discriminate. apply lin_mul in L as [Hd HK]. clear IHe1 IHe2. cbn [diff]. cbn [den].
    assert (~ In x (fsyms e2)) by (intros Y; now apply (HK x)). rewrite !(diff_free e2 x) by auto.
    rewrite (den_ext e2 r1 r2). 2:{ intros t Ht. apply H; [cbn [fsyms]; apply in_app_iff; auto|auto]. }
    destruct (String.eqb s x); cbn [den]; ring.
Qed.
Lemma lin_primal D p rho : ~ In p D -> (forall d, In d D -> rho d = 0) -> forall e, lin D e = true -> den (diff e p) rho = 0.
Proof.
  intros Hp H0. induction e; intros L; try discriminate; [reflexivity| |].
  - cbn [lin] in L. apply andb_true_iff in L as [L1 L2]. cbn [diff den]. rewrite IHe1, IHe2; auto. ring.
  - destruct e1; try discriminate. apply lin_mul in L as [Hd HK]. cbn [diff den]. rewrite (H0 _ Hd).
    destruct (String.eqb_spec s p) as [->|_]; [contradiction|]. cbn [den]. ring.
Qed.

(** *** segments *)
Record seg_fine (s : segment) : Prop := {
  sf_lin : lin (sg_duals s) (sg_lagrange s) = true;
  sf_fst : map fst (combine (sg_primals s) (sg_duals s)) = sg_primals s;
  sf_dual : forallb (fun x => match sg_dual_primal s x with
              | Some p => existsb (fun q => String.eqb (fst q) p && String.eqb (snd q) x) (combine (sg_primals s) (sg_duals s))
              | None => false end) (sg_duals s) = true;
  sf_apart : forallb (fun x => negb (mem x (sg_duals s))) (sg_primals s) = true;
  sf_const : forallb (fun x => match index_of x (sg_constants s) with None => true | Some _ => false end) (sg_variables s) = true;
  sf_closed : forallb (fun x => mem x (sg_parameters s)) (fsyms (sg_lagrange s)) = true }.
Ltac fine := constructor; vm_compute; reflexivity.
Lemma fine_pq : seg_fine lh_pq. Proof. fine. Qed.
Lemma fine_Ic : seg_fine lh_Ic. Proof. fine. Qed.
Lemma fine_line : seg_fine line_lh. Proof. fine. Qed.
Lemma fine_shunt : seg_fine shunt_lh. Proof. fine. Qed.
Lemma fine_gen : seg_fine gen_lh. Proof. fine. Qed.
Lemma fine_slack : seg_fine slack_lh. Proof. fine. Qed.
Lemma fine_vs : seg_fine vs_lh. Proof. fine. Qed.
Lemma fine_xf : seg_fine xfrmr_lh. Proof. fine. Qed.
Lemma fine_ct : seg_fine center_tap_lh. Proof. fine. Qed.

Section Twin.
Variables sig del : nat -> nat.
Hypothesis del_inj : forall a b, del a = del b -> a = b.
Hypothesis apart : forall a b, sig a <> del b.

Definition paired (d0 d1 : details) (q : sym * sym) : Prop := exists o w,
  lookup (sd_var d0) (fst q) = Some o /\ lookup (sd_var d1) (fst q) = Some (option_map sig o) /\ lookup (sd_var d1) (snd q) = Some (option_map del o) /\
  lookup (sd_eqn_map d0) (fst q) = Some w /\ lookup (sd_eqn_map d1) (fst q) = Some (option_map sig w) /\ lookup (sd_eqn_map d1) (snd q) = Some (option_map del w).
Record twin_details (d0 d1 : details) : Prop := {
  td_seg : sd_seg d1 = sd_seg d0;
  td_fine : seg_fine (sd_seg d0);
  td_opt : sd_opt d0 = false /\ sd_opt d1 = true;
  td_pairs : Forall (paired d0 d1) (combine (sg_primals (sd_seg d0)) (sg_duals (sd_seg d0))) }.
Inductive twin_elem : element -> element -> Prop :=
| twin_both d0 d1 c : twin_details d0 d1 -> twin_elem (d0, c) (d1, c).

Lemma hit_del q r : hit (option_map del q) (del r) = hit q r.
Proof.
  destruct q as [q|]; [|reflexivity]. cbn [option_map hit]. destruct (Nat.eqb_spec (del q) (del r)) as [E|E].
  - apply del_inj in E as ->. now rewrite Nat.eqb_refl.
  - destruct (Nat.eqb_spec q r); [subst; congruence|reflexivity].
Qed.
Lemma hit_sig_del q r : hit (option_map sig q) (del r) = 0.
Proof. apply hit_miss. destruct q as [q|]; cbn; [|discriminate]. intros E. injection E. apply apart. Qed.
Lemma hit_del_sig q r : hit (option_map del q) (sig r) = 0.
Proof. apply hit_miss. destruct q as [q|]; cbn; [|discriminate]. intros E. injection E as E. symmetry in E. now apply apart in E. Qed.

Section Element.
Variables (d0 d1 : details) (c : list R) (v : nat -> R) (tx : R).
Hypothesis T : twin_details d0 d1.
Let s := sd_seg d0.
Let r0 := sym_val (d0, c) (fun i => v (sig i)) tx.
Let r1 := sym_val (d1, c) v tx.

Lemma dual_pair x : In x (sg_duals s) -> exists p, sg_dual_primal s x = Some p /\ In (p, x) (combine (sg_primals s) (sg_duals s)).
Proof.
  intros H. pose proof (sf_dual s (td_fine d0 d1 T)) as Q. rewrite forallb_forall in Q. specialize (Q x H).
  destruct (sg_dual_primal s x) as [p|]; [|discriminate]. exists p. split; auto. apply existsb_exists in Q as [[p' x'] [Hi E]].
  cbn [fst snd] in E. apply andb_true_iff in E as [E1 E2]. apply String.eqb_eq in E1 as ->. apply String.eqb_eq in E2 as ->. exact Hi.
Qed.
Lemma primal_pair p : In p (sg_primals s) -> exists x, In (p, x) (combine (sg_primals s) (sg_duals s)).
Proof.
  intros H. rewrite <- (sf_fst s (td_fine d0 d1 T)) in H. apply in_map_iff in H as [[p' x] [E Hi]]. cbn in E. subst p'. eauto.
Qed.
Lemma pair_of_twin q : In q (combine (sg_primals s) (sg_duals s)) -> paired d0 d1 q.
Proof. pose proof (td_pairs d0 d1 T) as Q. rewrite Forall_forall in Q. apply Q. Qed.
Lemma no_const x : In x (sg_variables s) -> index_of x (sg_constants s) = None.
Proof.
  intros H. pose proof (sf_const s (td_fine d0 d1 T)) as Q. rewrite forallb_forall in Q. specialize (Q x H). now destruct (index_of x (sg_constants s)).
Qed.
Lemma primal_not_dual p : In p (sg_primals s) -> ~ In p (sg_duals s).
Proof.
  intros H. pose proof (sf_apart s (td_fine d0 d1 T)) as Q. rewrite forallb_forall in Q. specialize (Q p H). apply mem_out. now destruct (mem p (sg_duals s)).
Qed.
Lemma same_values x : In x (fsyms (sg_lagrange s)) -> ~ In x (sg_duals s) -> r1 x = r0 x.
Proof.
  intros H N. pose proof (sf_closed s (td_fine d0 d1 T)) as Q. rewrite forallb_forall in Q. specialize (Q x H). apply mem_in in Q.
  unfold r1, r0, sym_val. cbn [fst snd]. rewrite (td_seg d0 d1 T). fold s. unfold sg_parameters, sg_variables in Q.
  destruct (index_of x (sg_constants s)) as [k|] eqn:E; [reflexivity|].
  destruct (primal_pair x) as [y Hy].
  { rewrite !in_app_iff in Q. destruct Q as [Q|[Q|Q]]; [|auto|contradiction]. exfalso. revert Q E. clear. generalize (sg_constants s).
    induction l as [|k l IH]; [intros []|]. cbn [index_of In]. destruct (String.eqb_spec x k); [discriminate|]. intros [Q|Q] E; [congruence|].
    destruct (index_of x l); [discriminate|]. now apply IH. }
  destruct (pair_of_twin _ Hy) as [o [w [H1 [H2 _]]]]. cbn [fst] in H1, H2. rewrite H1, H2. now destruct o.
Qed.
Lemma row_dual r : elem_row (d1, c) v tx (del r) = elem_row (d0, c) (fun i => v (sig i)) tx r.
Proof.
  rewrite !elem_row_hsum. cbn [fst]. fold r0 r1. unfold first_orders. destruct (td_opt d0 d1 T) as [-> ->]. rewrite (td_seg d0 d1 T). fold s.
  unfold sg_variables. rewrite hsum_app, (hsum_free d1 r1 (del r) (sg_primals s)).
  - rewrite Rplus_0_l. pose proof (incl_refl (sg_duals s)) as I. revert I. generalize (sg_duals s) at 1 3 4. induction l as [|x l IH]; intros I; [reflexivity|].
    cbn [hsum]. rewrite IH by (intros y Hy; apply I; now right). f_equal. destruct (dual_pair x) as [p [Hp Hi]]; [apply I; now left|].
    destruct (pair_of_twin _ Hi) as [o [w [_ [_ [_ [H4 [_ H6]]]]]]]. cbn [fst snd] in *.
    unfold where_, row_index. destruct (td_opt d0 d1 T) as [-> ->]. fold s. rewrite Hp, H4, H6, hit_del. f_equal.
    rewrite (td_seg d0 d1 T). fold s. apply (lin_dual (sg_duals s)); [apply I; now left|apply (sf_lin s (td_fine d0 d1 T))|apply same_values].
  - intros p Hp. destruct (primal_pair p Hp) as [x Hi]. destruct (pair_of_twin _ Hi) as [o [w [_ [_ [_ [_ [H5 _]]]]]]]. cbn [fst] in H5.
    unfold where_, row_index. destruct (td_opt d0 d1 T) as [_ ->]. rewrite H5. apply hit_sig_del.
Qed.
Lemma row_primal r : (forall i, v (del i) = 0) -> elem_row (d1, c) v tx (sig r) = 0.
Proof.
  intros Z. rewrite elem_row_hsum. cbn [fst]. fold r1. unfold first_orders. destruct (td_opt d0 d1 T) as [_ ->]. rewrite (td_seg d0 d1 T). fold s.
  unfold sg_variables. rewrite hsum_app, (hsum_free d1 r1 (sig r) (sg_duals s)).
  - rewrite Rplus_0_r. pose proof (incl_refl (sg_primals s)) as I. revert I. generalize (sg_primals s) at 1 3. induction l as [|x l IH]; intros I; [reflexivity|].
    cbn [hsum]. rewrite IH by (intros y Hy; apply I; now right). rewrite (td_seg d0 d1 T). fold s.
    rewrite (lin_primal (sg_duals s)); [ring|apply primal_not_dual, I; now left| |apply (sf_lin s (td_fine d0 d1 T))].
    intros y Hy. unfold r1, sym_val. cbn [fst snd]. rewrite (td_seg d0 d1 T). fold s. rewrite no_const by (unfold sg_variables; apply in_app_iff; auto).
    destruct (dual_pair y Hy) as [p [_ Hi]]. destruct (pair_of_twin _ Hi) as [o [w [_ [_ [H3 _]]]]]. cbn [snd] in H3. rewrite H3. destruct o; cbn; auto.
  - intros x Hx. destruct (dual_pair x Hx) as [p [_ Hi]]. destruct (pair_of_twin _ Hi) as [o [w [_ [_ [_ [_ [_ H6]]]]]]]. cbn [snd] in H6.
    unfold where_, row_index. destruct (td_opt d0 d1 T) as [_ ->]. rewrite H6. apply hit_del_sig.
Qed.
End Element.

Lemma rows_dual es0 es1 v tx r : Forall2 twin_elem es0 es1 -> F es1 v tx (del r) = F es0 (fun i => v (sig i)) tx r.
Proof.
  induction 1 as [|e0 e1 es0 es1 H _ IH]; [reflexivity|]. destruct H as [d0 d1 c H]. unfold F in *. cbn [fold_right]. rewrite IH. f_equal. now apply row_dual.
Qed.
Lemma rows_primal es0 es1 v tx r : Forall2 twin_elem es0 es1 -> (forall i, v (del i) = 0) -> F es1 v tx (sig r) = 0.
Proof.
  intros H Z. induction H as [|e0 e1 es0 es1 H _ IH]; [reflexivity|]. destruct H as [d0 d1 c H]. unfold F in *. cbn [fold_right]. rewrite IH, (row_primal d0 d1); auto. ring.
Qed.

(** *** elements *)
Definition twin (b : nodes) : nodes :=
  {| n_Vr := option_map sig (n_Vr b); n_Vi := option_map sig (n_Vi b); n_Lr := option_map del (n_Vr b); n_Li := option_map del (n_Vi b) |}.
(** blocks of the given widths from index [n] on *)
Fixpoint laid (n : nat) (ws : list nat) : Prop :=
  match ws with
  | [] => True
  | w :: ws => (forall i, (i < w)%nat -> sig (n + i) = (2 * n + i)%nat /\ del (n + i) = (2 * n + w + i)%nat) /\ laid (n + w) ws
  end.
Ltac one := eexists _, _; cbn [fst snd]; split; [reflexivity|split; [try reflexivity|split; [try reflexivity|split; [reflexivity|split; try reflexivity]]]].
Lemma twin_line f t sh : twin_details (line_details f t false sh) (line_details (twin f) (twin t) true sh).
Proof. constructor; [reflexivity|destruct sh; [apply fine_shunt|apply fine_line]|split; reflexivity|]. destruct sh; repeat (constructor; [one|]); constructor. Qed.
Lemma twin_unb s fi ti fj tj : s = line_lh \/ s = shunt_lh -> twin_details (unb_details s fi ti fj tj false) (unb_details s (twin fi) (twin ti) (twin fj) (twin tj) true).
Proof.
  intros [-> | ->]; (constructor; [reflexivity|first [apply fine_shunt|apply fine_line]|split; reflexivity|]); repeat (constructor; [one|]); constructor.
Qed.
Definition tt0 s f t n := fst (two_terminal_details s f t n false).
Definition tt1 s f t n := fst (two_terminal_details s (twin f) (twin t) (2 * n) true).
Ltac norm E := rewrite ?Nat.add_0_r, ?Nat.add_1_r in E; lia.
Ltac place H := lazy -[Nat.mul Nat.add]; apply f_equal, f_equal; let E := fresh in
  first [ destruct (H 0%nat ltac:(lia)) as [E _]; norm E | destruct (H 1%nat ltac:(lia)) as [E _]; norm E
        | destruct (H 0%nat ltac:(lia)) as [_ E]; norm E | destruct (H 1%nat ltac:(lia)) as [_ E]; norm E ].
Lemma twin_pq f t n : twin_details (tt0 lh_pq f t n) (tt1 lh_pq f t n).
Proof. constructor; [reflexivity|apply fine_pq|split; reflexivity|]. repeat (constructor; [one|]); constructor. Qed.
Lemma twin_Ic f t n : twin_details (tt0 lh_Ic f t n) (tt1 lh_Ic f t n).
Proof. constructor; [reflexivity|apply fine_Ic|split; reflexivity|]. repeat (constructor; [one|]); constructor. Qed.
Lemma twin_gen f t n : laid n [1%nat] -> twin_details (tt0 gen_lh f t n) (tt1 gen_lh f t n).
Proof. intros [H _]. constructor; [reflexivity|apply fine_gen|split; reflexivity|]. repeat (constructor; [one; place H|]); constructor. Qed.
Lemma twin_slack f t n : laid n [2%nat] -> twin_details (tt0 slack_lh f t n) (tt1 slack_lh f t n).
Proof. intros [H _]. constructor; [reflexivity|apply fine_slack|split; reflexivity|]. repeat (constructor; [one; place H|]); constructor. Qed.
Lemma twin_vs f t n : laid n [2%nat] -> twin_details (tt0 vs_lh f t n) (tt1 vs_lh f t n).
Proof. intros [H _]. constructor; [reflexivity|apply fine_vs|split; reflexivity|]. repeat (constructor; [one; place H|]); constructor. Qed.

Lemma twin_current n : laid n [4%nat] -> xf_current (2 * n) true = twin (xf_current n false).
Proof.
  intros [H _]. unfold xf_current, twin. cbn [n_Vr n_Vi n_Lr n_Li option_map].
  destruct (H 0%nat ltac:(lia)) as [A B]. destruct (H 1%nat ltac:(lia)) as [A1 B1]. rewrite Nat.add_0_r in A, B. rewrite Nat.add_1_r in A1, B1.
  rewrite A, B, A1, B1. f_equal; f_equal; lia.
Qed.
Lemma twin_secondary n : laid n [4%nat] -> xf_secondary (2 * n) true = twin (xf_secondary n false).
Proof.
  intros [H _]. unfold xf_secondary, twin. cbn [n_Vr n_Vi n_Lr n_Li option_map].
  destruct (H 2%nat ltac:(lia)) as [A B]. destruct (H 3%nat ltac:(lia)) as [A1 B1].
  rewrite A, B, A1, B1. f_equal; f_equal; lia.
Qed.
Lemma twin_ct_current j n : (j < 2)%nat -> laid n [4%nat] -> ct_current j (2 * n) true = twin (ct_current j n false).
Proof.
  intros Hj [H _]. unfold ct_current, twin. cbn [n_Vr n_Vi n_Lr n_Li option_map].
  destruct (H (2 * j)%nat ltac:(lia)) as [A B]. destruct (H (2 * j + 1)%nat ltac:(lia)) as [A1 B1]. rewrite !Nat.add_assoc in *.
  rewrite A, B, A1, B1. f_equal; f_equal; lia.
Qed.
Definition xf_details (fp fn tn i s : nodes) (opt : bool) : details := {| sd_seg := xfrmr_lh; sd_var := xf_map fp fn tn i s; sd_eqn := None; sd_opt := opt |}.
Definition ct_details (p l1 l2 i1 i2 : nodes) (opt : bool) : details := {| sd_seg := center_tap_lh; sd_var := ct_map p l1 l2 i1 i2; sd_eqn := None; sd_opt := opt |}.
Lemma twin_xf fp fn tn i s : twin_details (xf_details fp fn tn i s false) (xf_details (twin fp) (twin fn) (twin tn) (twin i) (twin s) true).
Proof. constructor; [reflexivity|apply fine_xf|split; reflexivity|]. repeat (constructor; [one|]); constructor. Qed.
Lemma twin_ct p l1 l2 i1 i2 : twin_details (ct_details p l1 l2 i1 i2 false) (ct_details (twin p) (twin l1) (twin l2) (twin i1) (twin i2) true).
Proof. constructor; [reflexivity|apply fine_ct|split; reflexivity|]. repeat (constructor; [one|]); constructor. Qed.

(** stampers *)
Definition twins (l0 l1 : list stamper) : Prop := Forall2 twin_elem (present l0) (present l1).
Lemma twins_nil : twins [] []. Proof. constructor. Qed.
Lemma twins_some d0 d1 c l0 l1 : twin_details d0 d1 -> twins l0 l1 -> twins ((Some d0, c) :: l0) ((Some d1, c) :: l1).
Proof. intros H H'. constructor; [constructor; exact H|exact H']. Qed.
Lemma twins_none c l0 l1 : twins l0 l1 -> twins ((None, c) :: l0) ((None, c) :: l1).
Proof. intros H. exact H. Qed.
Lemma twins_app a0 a1 b0 b1 : twins a0 a1 -> twins b0 b1 -> twins (a0 ++ b0) (a1 ++ b1).
Proof. unfold twins, present. rewrite !flat_map_app. apply Forall2_app. Qed.
Lemma twins_flat {A} (f g : A -> list stamper) l : (forall x, In x l -> twins (f x) (g x)) -> twins (flat_map f l) (flat_map g l).
Proof.
  induction l as [|x l IH]; intros H; [apply twins_nil|]. cbn [flat_map]. apply twins_app; [apply H; now left|apply IH; intros; apply H; now right].
Qed.
Definition blocks (e : elem) : list nat :=
  match e with
  | ELine _ _ _ | EUnb _ _ _ _ | ELoad _ _ _ | EShunt _ _ _ | ECap _ _ _ _ => []
  | EXf _ _ _ _ _ | ECt _ _ _ _ _ _ _ => [4%nat]
  | ESlack _ | EVs _ _ _ _ | EFuse _ _ _ => [2%nat]
  | ESwitch closed _ _ => if closed then [2%nat] else []
  | EGen _ => [1%nat]
  | EReg _ _ _ _ => [4%nat; 2%nat]
  end.
Lemma blocks_sum e : list_sum (blocks e) = own_unknowns e.
Proof. destruct e; try reflexivity. destruct closed; reflexivity. Qed.

Lemma twins_vs vr vi f t n : laid n [2%nat] -> twins (fst (vs_stampers vr vi f t n false)) (fst (vs_stampers vr vi (twin f) (twin t) (2 * n) true)).
Proof. intros H. apply twins_some; [exact (twin_vs f t n H)|apply twins_nil]. Qed.
Lemma twins_xf x fp fn tp tn n : laid n [4%nat] ->
  twins (fst (xf_stampers x fp fn tp tn n false)) (fst (xf_stampers x (twin fp) (twin fn) (twin tp) (twin tn) (2 * n) true)).
Proof.
  intros H. unfold xf_stampers. rewrite (twin_current n H), (twin_secondary n H). cbn [fst]. apply twins_some; [apply (twin_xf fp fn tn)|].
  apply twins_some; [apply twin_line|apply twins_nil].
Qed.
Lemma twins_assign tbl0 tbl1 n e : (forall r, In r (refs e) -> at_ref tbl1 r = twin (at_ref tbl0 r)) -> laid n (blocks e) ->
  twins (fst (assign_elem false tbl0 n e)) (fst (assign_elem true tbl1 (2 * n) e)).
Proof.
  intros HR HL. destruct e; cbn [refs blocks] in HR, HL; cbn [assign_elem].
  - rewrite !HR by (simpl; auto). cbn [fst]. unfold line_stampers. change GROUND with (twin GROUND) at 3 4. repeat (apply twins_some; [apply twin_line|]). apply twins_nil.
  - cbn [fst]. unfold unb_stampers. cbv zeta. rewrite !map_length.
    apply twins_flat. intros i Hi. apply twins_flat. intros j Hj. apply in_seq in Hi, Hj. destruct Hi as [_ Hi], Hj as [_ Hj]. cbn [Nat.add] in Hi, Hj.
    assert (P : forall k, (k < length phases)%nat -> exists f t, phase (map (fun p => (at_ref tbl0 (fst p), at_ref tbl0 (snd p))) phases) k = (f, t) /\
                phase (map (fun p => (at_ref tbl1 (fst p), at_ref tbl1 (snd p))) phases) k = (twin f, twin t)).
    { intros k Hk. destruct (nth_error phases k) as [p|] eqn:E; [|apply nth_error_None in E; lia].
      exists (at_ref tbl0 (fst p)), (at_ref tbl0 (snd p)). unfold phase. pose proof (nth_error_In _ _ E) as Hp.
      split; [apply nth_error_nth, (map_nth_error (fun p => (at_ref tbl0 (fst p), at_ref tbl0 (snd p))) _ _ E)|].
      rewrite <- !HR by (apply in_flat_map; exists p; split; [exact Hp|simpl; auto]).
      apply nth_error_nth, (map_nth_error (fun p => (at_ref tbl1 (fst p), at_ref tbl1 (snd p))) _ _ E). }
    unfold unb_pair. destruct (P i Hi) as [fi [ti [-> ->]]]. destruct (P j Hj) as [fj [tj [-> ->]]]. change GROUND with (twin GROUND) at 5 6 7 8.
    apply twins_some; [apply twin_unb; destruct (Nat.eqb i j); auto|]. do 2 (apply twins_some; [apply twin_unb; auto|]). apply twins_nil.
  - rewrite !HR by (simpl; auto). now apply twins_xf.
  - rewrite !HR by (simpl; tauto). unfold ct_stampers. rewrite !twin_ct_current by (auto; lia). cbn [fst]. apply twins_some; [apply (twin_ct (at_ref tbl0 pri))|].
    repeat (apply twins_some; [apply twin_line|]). apply twins_nil.
  - rewrite !HR by (simpl; auto). apply twins_some; [exact (twin_slack _ GROUND n HL)|apply twins_nil].
  - rewrite !HR by (simpl; auto). destruct closed; [now apply twins_vs|apply twins_nil].
  - rewrite !HR by (simpl; auto). apply twins_some; [exact (twin_gen _ GROUND n HL)|apply twins_nil].
  - rewrite !HR by (simpl; auto). unfold load_stampers. destruct (both0 (ld_P l) (ld_Q l)), (both0 (ld_IP l) (ld_IQ l)), (both0 (ld_Zr l) (ld_Zi l));
      repeat first [apply twins_none | apply twins_nil | apply twins_some; [first [exact (twin_pq _ _ n) | exact (twin_Ic _ _ n) | apply twin_line]|]].
  - rewrite !HR by (simpl; auto). now apply twins_vs.
  - rewrite !HR by (simpl; auto). cbn [fst]. unfold shunt_stampers. change GROUND with (twin GROUND) at 2. apply twins_some; [apply twin_line|apply twins_nil].
  - rewrite !HR by (simpl; auto). unfold reg_stampers. destruct HL as [H1 H2].
    pose proof (twins_xf {| xf_tr := ratio; xf_ang := 0; xf_G := series_G (1 / 10000) 0; xf_B := series_B (1 / 10000) 0 |}
      (at_ref tbl0 f) GROUND (at_ref tbl0 cur) GROUND n (conj H1 I)) as X. change (twin GROUND) with GROUND in X.
    pose proof (twins_vs 0 0 (at_ref tbl0 cur) (at_ref tbl0 t) (n + 4) H2) as Y. replace (2 * (n + 4))%nat with (2 * n + 8)%nat in Y by lia.
    cbv [xf_stampers] in X |- *. cbn [fst] in X. destruct (vs_stampers 0 0 (at_ref tbl0 cur) (at_ref tbl0 t) (n + 4) false) as [s0 m0].
    destruct (vs_stampers 0 0 (twin (at_ref tbl0 cur)) (twin (at_ref tbl0 t)) (2 * n + 8) true) as [s1 m1]. cbn [fst] in *. now apply twins_app.
  - rewrite !HR by (simpl; auto). unfold fuse_stampers. pose proof (twins_vs 0 0 (at_ref tbl0 interior) (at_ref tbl0 t) n HL) as Y.
    destruct (vs_stampers 0 0 (at_ref tbl0 interior) (at_ref tbl0 t) n false) as [s0 m0].
    destruct (vs_stampers 0 0 (twin (at_ref tbl0 interior)) (twin (at_ref tbl0 t)) (2 * n) true) as [s1 m1]. cbn [fst] in *. apply twins_some; [apply twin_line|exact Y].
  - rewrite !HR by (simpl; auto). cbn [fst]. destruct closed; [apply twins_some; [apply twin_line|]|]; apply twins_nil.
Qed.
Lemma laid_app a : forall n b, laid n (a ++ b) <-> laid n a /\ laid (n + list_sum a) b.
Proof.
  induction a as [|w a IH]; intros n b; cbn [app laid list_sum fold_right]; [rewrite Nat.add_0_r; tauto|]. rewrite IH. fold (list_sum a). rewrite Nat.add_assoc. tauto.
Qed.
Lemma twins_elems tbl0 tbl1 es : forall n, (forall e, In e es -> forall r, In r (refs e) -> at_ref tbl1 r = twin (at_ref tbl0 r)) -> laid n (flat_map blocks es) ->
  Forall2 twin_elem (flat_map present (fst (assign_elems false tbl0 n es))) (flat_map present (fst (assign_elems true tbl1 (2 * n) es))).
Proof.
  induction es as [|e es IH]; intros n HR HL; [constructor|]. cbn [flat_map] in HL. apply laid_app in HL as [L1 L2]. rewrite blocks_sum in L2.
  pose proof (twins_assign tbl0 tbl1 n e (HR e (or_introl eq_refl)) L1) as X. cbn [assign_elems].
  pose proof (elem_size false tbl0 n e) as S0. pose proof (elem_size true tbl1 (2 * n) e) as S1.
  destruct (assign_elem false tbl0 n e) as [s0 n0]. destruct (assign_elem true tbl1 (2 * n) e) as [s1 n1]. cbn [fst snd] in *.
  specialize (IH (n + own_unknowns e)%nat (fun x Hx => HR x (or_intror Hx)) L2).
  replace n0 with (n + own_unknowns e)%nat by lia. replace n1 with (2 * (n + own_unknowns e))%nat by lia.
  destruct (assign_elems false tbl0 (n + own_unknowns e) es) as [r0 m0]. destruct (assign_elems true tbl1 (2 * (n + own_unknowns e)) es) as [r1 m1].
  cbn [fst flat_map] in *. now apply Forall2_app.
Qed.
End Twin.

(** *** the places of the unknowns and of their multipliers, for blocks of given widths *)
Fixpoint sig (ws : list nat) (r : nat) : nat :=
  match ws with [] => 2 * r | w :: ws => if Nat.ltb r w then r else 2 * w + sig ws (r - w) end%nat.
Fixpoint del (ws : list nat) (r : nat) : nat :=
  match ws with [] => 2 * r + 1 | w :: ws => if Nat.ltb r w then w + r else 2 * w + del ws (r - w) end%nat.
Fixpoint back (ws : list nat) (q : nat) : nat * bool :=
  match ws with
  | [] => (Nat.div2 q, Nat.even q)
  | w :: ws => if Nat.ltb q w then (q, true) else if Nat.ltb q (2 * w) then (q - w, false) else let (r, b) := back ws (q - 2 * w) in (w + r, b)
  end%nat.
Ltac cases := repeat match goal with |- context [Nat.ltb ?a ?b] => destruct (Nat.ltb_spec a b) end.
Lemma back_sig ws : forall r, back ws (sig ws r) = (r, true).
Proof.
  induction ws as [|w ws IH]; intros r; cbn [sig back].
  - rewrite Nat.div2_double. f_equal. rewrite Nat.even_mul. reflexivity.
  - destruct (Nat.ltb_spec r w); cases; try lia; [reflexivity|]. replace (2 * w + sig ws (r - w) - 2 * w)%nat with (sig ws (r - w)) by lia. rewrite IH. f_equal. lia.
Qed.
Lemma back_del ws : forall r, back ws (del ws r) = (r, false).
Proof.
  induction ws as [|w ws IH]; intros r; cbn [del back].
  - f_equal; [|rewrite Nat.add_1_r, Nat.even_succ, Nat.odd_mul; reflexivity]. rewrite Nat.add_1_r. apply Nat.div2_succ_double.
  - destruct (Nat.ltb_spec r w); cases; try lia; [f_equal; lia|]. replace (2 * w + del ws (r - w) - 2 * w)%nat with (del ws (r - w)) by lia. rewrite IH. f_equal. lia.
Qed.
Lemma del_inj ws a b : del ws a = del ws b -> a = b.
Proof. intros E. pose proof (back_del ws a) as A. rewrite E, back_del in A. congruence. Qed.
Lemma sig_del ws a b : sig ws a <> del ws b.
Proof. intros E. pose proof (back_sig ws a) as A. rewrite E, back_del in A. congruence. Qed.
Lemma sig_or_del ws : forall q, exists r, q = sig ws r \/ q = del ws r.
Proof.
  induction ws as [|w ws IH]; intros q; cbn [sig del].
  - exists (Nat.div2 q). pose proof (Nat.div2_odd q) as E. destruct (Nat.odd q); cbn [Nat.b2n] in E; lia.
  - destruct (Nat.lt_ge_cases q w) as [H|H]; [exists q; left; now destruct (Nat.ltb_spec q w); [|lia]|].
    destruct (Nat.lt_ge_cases q (2 * w)) as [H'|H']; [exists (q - w)%nat; right; destruct (Nat.ltb_spec (q - w) w); lia|].
    destruct (IH (q - 2 * w)%nat) as [r [E|E]]; exists (w + r)%nat; [left|right]; destruct (Nat.ltb_spec (w + r) w); try lia; replace (w + r - w)%nat with r by lia; lia.
Qed.
Lemma sig_bound ws : forall r, (r < list_sum ws <-> sig ws r < 2 * list_sum ws)%nat.
Proof.
  induction ws as [|w ws IH]; intros r; cbn [sig list_sum fold_right]; [lia|]. fold (list_sum ws). specialize (IH (r - w)%nat). destruct (Nat.ltb_spec r w); lia.
Qed.
Lemma del_bound ws : forall r, (r < list_sum ws <-> del ws r < 2 * list_sum ws)%nat.
Proof.
  induction ws as [|w ws IH]; intros r; cbn [del list_sum fold_right]; [lia|]. fold (list_sum ws). specialize (IH (r - w)%nat). destruct (Nat.ltb_spec r w); lia.
Qed.
Lemma laid_ext s1 d1 s2 d2 : (forall i, s1 i = s2 i) -> (forall i, d1 i = d2 i) -> forall ws n, laid s1 d1 n ws -> laid s2 d2 n ws.
Proof. intros E1 E2. induction ws as [|w ws IH]; intros n; cbn [laid]; auto. intros [H1 H2]. split; auto. intros i Hi. rewrite <- E1, <- E2. auto. Qed.
Lemma laid_shift s d w : forall ws n, laid s d n ws -> laid (fun r => if Nat.ltb r w then r else (2 * w + s (r - w))%nat) (fun r => if Nat.ltb r w then (w + r)%nat else (2 * w + d (r - w))%nat) (w + n) ws.
Proof.
  induction ws as [|x ws IH]; intros n; cbn [laid]; auto. intros [H1 H2]. split.
  - intros i Hi. destruct (Nat.ltb_spec (w + n + i) w); [lia|]. replace (w + n + i - w)%nat with (n + i)%nat by lia. destruct (H1 i Hi). lia.
  - replace (w + n + x)%nat with (w + (n + x))%nat by lia. auto.
Qed.
Lemma laid_all ws : laid (sig ws) (del ws) 0 ws.
Proof.
  induction ws as [|w ws IH]; [exact I|]. cbn [laid]. split.
  - intros i Hi. cbn [sig del Nat.add]. destruct (Nat.ltb_spec i w); lia.
  - apply (laid_shift _ _ w) in IH. rewrite Nat.add_0_r in IH. exact IH.
Qed.
