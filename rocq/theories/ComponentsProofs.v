(** Proofs for C30-C41. *)
From Coq Require Import String List Bool Arith ZArith Reals Lra Lia.
From Verif Require Import Expr Segment SpecSegment ExprProofs SegmentProofs Collect SpecSystem Components SpecComponents.
Import ListNotations.
Local Open Scope R_scope.

Definition where_ (d : details) (x : sym) : option nat := match row_index d x with Some o => o | None => None end.
Fixpoint hsum (d : details) (rho : env) (r : nat) (l : list sym) : R :=
  match l with [] => 0 | x :: l => hit (where_ d x) r * den (diff (sg_lagrange (sd_seg d)) x) rho + hsum d rho r l end.

Lemma elem_row_hsum : forall e v tx r, elem_row e v tx r = hsum (fst e) (sym_val e v tx) r (first_orders (fst e)).
Proof.
  intros e v tx r. unfold elem_row. induction (first_orders (fst e)) as [|x l IH]; [reflexivity|].
  cbn [fold_right hsum]. rewrite <- IH. unfold where_. destruct (row_index (fst e) x) as [[n|]|]; simpl; try ring.
  destruct (Nat.eqb n r); ring.
Qed.
Lemma F_cons : forall e es v tx r, F (e :: es) v tx r = hsum (fst e) (sym_val e v tx) r (first_orders (fst e)) + F es v tx r.
Proof. intros. unfold F. cbn [fold_right]. now rewrite elem_row_hsum. Qed.
Lemma F_nil : forall v tx r, F [] v tx r = 0.
Proof. reflexivity. Qed.
Lemma F_app : forall a b v tx r, F (a ++ b) v tx r = F a v tx r + F b v tx r.
Proof. induction a; intros; [cbn [app]; rewrite F_nil; ring|]. cbn [app]. rewrite !F_cons, IHa. ring. Qed.

Lemma free_hit : forall l r, free_row true l r -> forall o, In o l -> hit o r = 0.
Proof.
  intros l r H o Ho. unfold hit. destruct o as [n|]; auto. destruct (Nat.eqb n r) eqn:E; auto.
  apply Nat.eqb_eq in E as ->. exfalso. now apply H.
Qed.
Lemma inv1 : forall x, powerRZ x (-1) = / x.
Proof. intros. unfold powerRZ. change (Pos.to_nat 1) with 1%nat. simpl. now rewrite Rmult_1_r. Qed.
Lemma sq2 : forall x, powerRZ x 2 = x * x.
Proof. intros. unfold powerRZ. change (Pos.to_nat 2) with 2%nat. simpl. ring. Qed.

Lemma hit_none : forall r, hit None r = 0.
Proof. reflexivity. Qed.
Lemma neg1 : forall x, IZR (-1) * x = - x.
Proof. intros. ring. Qed.
Lemma hsum_app : forall d rho r a b, hsum d rho r (a ++ b) = hsum d rho r a + hsum d rho r b.
Proof. induction a; intros; cbn [app hsum]; [ring|]. rewrite IHa. ring. Qed.
Lemma hsum_free : forall d rho r l, (forall x, In x l -> hit (where_ d x) r = 0) -> hsum d rho r l = 0.
Proof.
  induction l as [|x l IH]; intros H; cbn [hsum]; auto. rewrite (H x) by now left. rewrite IH by (intros; apply H; now right). ring.
Qed.
(** only the equations (derivatives by multipliers) matter outside the rows of the unknowns *)
Lemma rows_of_duals : forall d consts v tx r, sd_eqn d = None -> free_row (sd_opt d) (map (fun x => match lookup (sd_var d) x with Some o => o | None => None end) (sg_primals (sd_seg d))) r ->
  F [(d, consts)] v tx r = hsum d (sym_val (d, consts) v tx) r (sg_duals (sd_seg d)).
Proof.
  intros d consts v tx r He H. rewrite F_cons, F_nil, Rplus_0_r. cbn [fst]. unfold first_orders, sg_variables.
  destruct (sd_opt d) eqn:E; [|reflexivity]. rewrite hsum_app. rewrite (hsum_free d _ r (sg_primals _)); [ring|].
  intros x Hx. unfold where_, row_index. rewrite E. unfold sd_eqn_map. rewrite He.
  apply (free_hit _ _ H). apply in_map_iff. exists x. split; auto.
Qed.
Lemma F_one : forall e es v tx r, F (e :: es) v tx r = F [e] v tx r + F es v tx r.
Proof. intros. unfold F. cbn [fold_right]. ring. Qed.
Lemma free_incl : forall opt l l' r, (forall o, In o l' -> None = o \/ In o l) -> free_row opt l r -> free_row opt l' r.
Proof. intros opt l l' r I H Ho X. apply (H Ho). destruct (I _ X); [discriminate|auto]. Qed.


(** *** the equations of a two-terminal definition, and of a dot product *)
Fixpoint nodupb (l : list sym) : bool := match l with [] => true | x :: l => negb (mem x l) && nodupb l end.
Lemma mem_In : forall x l, mem x l = true <-> In x l.
Proof.
  intros x l. unfold mem. rewrite existsb_exists. split.
  - intros [y [A B]]. apply String.eqb_eq in B. now subst.
  - intros H. exists x. split; auto. apply String.eqb_refl.
Qed.
Lemma nodupb_NoDup : forall l, nodupb l = true -> NoDup l.
Proof.
  induction l as [|x l IH]; intros H; constructor; simpl in H; apply andb_prop in H as [A B]; auto.
  intros X. apply mem_In in X. rewrite X in A. discriminate.
Qed.
Definition tt_fine (t : two_terminal) : bool :=
  tt_checks t && check_missing_symbols (tt_constants t ++ tt_variables t) (tt_kcl_i_from t) &&
  forallb (fun l => negb (mem l (tt_constants t ++ tt_variables t))) (multipliers t) &&
  nodupb (multipliers t).
Lemma tt_rows : forall t rho, tt_fine t = true ->
  den (diff (tt_lagrange t) Lr_from) rho = den (tt_kcl_r_from t) rho /\
  den (diff (tt_lagrange t) Li_from) rho = den (tt_kcl_i_from t) rho /\
  den (diff (tt_lagrange t) Lr_to) rho = - den (fst (tt_to t)) rho /\
  den (diff (tt_lagrange t) Li_to) rho = - den (snd (tt_to t)) rho /\
  (forall l e, In (l, e) (tt_equalities t) -> den (diff (tt_lagrange t) l) rho = den e rho).
Proof.
  intros t rho H. unfold tt_fine in H. apply andb_prop in H as [H H4]. apply andb_prop in H as [H H3]. apply andb_prop in H as [H1 H2].
  assert (S : tt_segment t = Some (seg_of t)) by (unfold tt_segment; now rewrite H1).
  assert (D : only_declared t (tt_kcl_i_from t)).
  { intros x Hx. unfold check_missing_symbols in H2. rewrite forallb_forall in H2. specialize (H2 x Hx). apply mem_In in H2.
    apply in_app_or in H2 as [H2|H2]; [left|right]; auto. }
  assert (U : forall l, In l (multipliers t) -> ~ declared t l).
  { intros l Hl X. rewrite forallb_forall in H3. specialize (H3 l Hl). apply negb_true_iff in H3.
    assert (mem l (tt_constants t ++ tt_variables t) = true); [|congruence]. apply mem_In, in_or_app. destruct X; auto. }
  assert (N : NoDup (multipliers t)) by now apply nodupb_NoDup.
  assert (G : forall x, dv_expr (gen_derivative (seg_of t) x) = diff (tt_lagrange t) x).
  { intros x. unfold gen_derivative. destruct (split_expr _ _). reflexivity. }
  assert (I : forall x, In x (multipliers t) -> In (x, gen_derivative (seg_of t) x) (generate_derivatives (seg_of t))).
  { intros x Hx. unfold generate_derivatives. apply in_map_iff. exists x. split; auto. apply in_or_app. now right. }
  destruct (C05_lemma t (seg_of t) rho S D U N) as [A [B [Cc [Dd E]]]].
  assert (Im : forall x, In x [Lr_from; Li_from; Lr_to; Li_to] -> In x (multipliers t)) by (intros; apply in_or_app; auto).
  rewrite <- !G. repeat split.
  - apply A, I, Im. simpl; tauto.
  - apply B, I, Im. simpl; tauto.
  - apply Cc, I, Im. simpl; tauto.
  - apply Dd, I, Im. simpl; tauto.
  - intros l e He. rewrite <- G. apply (E l e); auto. apply I. apply in_or_app. right. now apply (in_map fst) in He.
Qed.

(** sum over the rows of a two-terminal definition *)
Fixpoint esum (d : details) (rho : env) (r : nat) (l : list (sym * expr)) : R :=
  match l with [] => 0 | q :: l => hit (where_ d (fst q)) r * den (snd q) rho + esum d rho r l end.
Lemma tt_hsum : forall t d rho r, sd_seg d = seg_of t -> tt_fine t = true -> tt_kcl_to t = None ->
  hsum d rho r (sg_duals (sd_seg d)) =
  (hit (where_ d Lr_from) r - hit (where_ d Lr_to) r) * den (tt_kcl_r_from t) rho +
  (hit (where_ d Li_from) r - hit (where_ d Li_to) r) * den (tt_kcl_i_from t) rho + esum d rho r (tt_equalities t).
Proof.
  intros t d rho r S H N. destruct (tt_rows t rho H) as [A [B [Cc [D E]]]]. rewrite S. unfold seg_of at 1. cbn [sg_duals].
  cbn [app hsum]. rewrite S. cbn [sg_lagrange seg_of]. rewrite A, B, Cc, D. unfold tt_to. rewrite N. cbn [fst snd].
  assert (X : hsum d rho r (map fst (tt_equalities t)) = esum d rho r (tt_equalities t)).
  { assert (Hi : incl (tt_equalities t) (tt_equalities t)) by apply incl_refl. revert Hi.
    generalize (tt_equalities t) at 1 3 4. induction l as [|[x e] l IH]; intros Hi; cbn [map hsum esum fst snd]; auto.
    rewrite IH by (intros y Hy; apply Hi; now right). rewrite S. cbn [sg_lagrange seg_of]. rewrite (E x e) by (apply Hi; now left). reflexivity. }
  rewrite X. ring.
Qed.


Lemma den_diff_free : forall e rho x, ~ In x (fsyms e) -> den (diff e x) rho = 0.
Proof. intros. rewrite <- dden_snd. now apply dden_not_free. Qed.
Fixpoint dsum (d : details) (rho : env) (r : nat) (ds : list sym) (es : list expr) : R :=
  match ds, es with x :: ds, e :: es => hit (where_ d x) r * den e rho + dsum d rho r ds es | _, _ => 0 end.
Definition edot_fine (ds : list sym) (es : list expr) : bool :=
  nodupb ds && forallb (fun e => forallb (fun d => negb (mem d (fsyms e))) ds) es && Nat.eqb (List.length ds) (List.length es).
Lemma edot_out : forall ds es rho x, ~ In x ds -> (forall e, In e es -> ~ In x (fsyms e)) -> den (diff (edot ds es) x) rho = 0.
Proof.
  induction ds as [|d ds IH]; intros es rho x H He; [reflexivity|]. destruct es as [|e es]; [reflexivity|]. cbn [edot diff den].
  rewrite IH; [|intros X; apply H; now right|intros; apply He; now right]. rewrite (den_diff_free e) by (apply He; now left).
  destruct (String.eqb d x) eqn:E; [apply String.eqb_eq in E; exfalso; apply H; now left|]. simpl. ring.
Qed.
Lemma edot_gen : forall d rho r ds es pre prees, NoDup (pre ++ ds) -> List.length pre = List.length prees -> List.length ds = List.length es ->
  (forall e x, In e (prees ++ es) -> In x (pre ++ ds) -> ~ In x (fsyms e)) -> sg_lagrange (sd_seg d) = edot (pre ++ ds) (prees ++ es) ->
  hsum d rho r ds = dsum d rho r ds es.
Proof.
  intros d rho r. induction ds as [|x ds IH]; intros es pre prees N L1 L2 Hf E; [reflexivity|].
  destruct es as [|e es]; [discriminate|]. cbn [hsum dsum]. f_equal.
  - f_equal. rewrite E. clear IH E. assert (Nx : ~ In x pre) by (intros X; apply NoDup_remove_2 in N; apply N; apply in_or_app; auto).
    revert prees L1 Hf N Nx. induction pre as [|y pre IH]; intros prees L1 Hf N Nx.
    + destruct prees; [|discriminate]. cbn [app edot diff den]. rewrite String.eqb_refl. inversion N; subst.
      rewrite (den_diff_free e) by (apply Hf; [now left|now left]). rewrite edot_out; auto.
      * simpl. ring.
      * intros e' He'. apply Hf; [now right|now left].
    + destruct prees as [|e' prees]; [discriminate|]. cbn [app edot diff den]. injection L1 as L1.
      destruct (String.eqb y x) eqn:Ey; [apply String.eqb_eq in Ey; exfalso; apply Nx; now left|].
      rewrite (den_diff_free e') by (apply Hf; [now left|right; apply in_or_app; right; now left]).
      inversion N; subst. rewrite (IH prees); auto; [simpl; ring| |intros X; apply Nx; now right].
      intros a b Ha Hb. apply Hf; [now right|now right].
  - apply (IH es (pre ++ [x]) (prees ++ [e])).
    + now rewrite <- app_assoc.
    + rewrite !app_length. simpl. lia.
    + now injection L2.
    + intros a b. rewrite <- !app_assoc. apply Hf.
    + now rewrite <- !app_assoc.
Qed.
Lemma edot_hsum : forall d rho r ds es, edot_fine ds es = true -> sg_duals (sd_seg d) = ds -> sg_lagrange (sd_seg d) = edot ds es ->
  hsum d rho r (sg_duals (sd_seg d)) = dsum d rho r ds es.
Proof.
  intros d rho r ds es H Hd Hl. unfold edot_fine in H. apply andb_prop in H as [H H3]. apply andb_prop in H as [H1 H2]. rewrite Hd.
  apply (edot_gen d rho r ds es [] []); auto.
  - now apply nodupb_NoDup.
  - now apply Nat.eqb_eq.
  - intros e x He Hx X. rewrite forallb_forall in H2. specialize (H2 e He). rewrite forallb_forall in H2. specialize (H2 x Hx).
    apply mem_In in X. rewrite X in H2. discriminate.
Qed.

Ltac free H := eapply free_incl; [|exact H]; cbn; intros ?o Ho; cbn in Ho |- *; tauto.
Ltac tt_duals t H := rewrite rows_of_duals; [rewrite (tt_hsum t) by reflexivity|reflexivity|free H].
Ltac expand_rows :=
  cbn -[Rplus Rmult Rminus Ropp Rinv Rdiv IZR powerRZ sin cos hit]; rewrite ?inv1, ?sq2, ?hit_none.
Ltac show_spec := unfold balance, at_bus, at_lambda, volt, mult, SpecComponents.read, Cadd, Copp, Csub, Cmul, Cconj, Cscale, Cpolar, C0;
  cbn [fst snd n_Vr n_Vi n_Lr n_Li GROUND pair_at].

(** *** one branch of each kind *)
Definition branch_current (G B : R) (V : C) : C := (G * fst V - B * snd V, G * snd V + B * fst V).
Lemma line_branch : forall G B f t opt v tx r, free_row opt (bus_unknowns f ++ bus_unknowns t) r ->
  F [(line_details f t opt false, [G; B; 0])] v tx r =
  let I := Cscale (1 + 20 * tx) (branch_current G B (Csub (volt v f) (volt v t))) in
  balance opt f I r + balance opt t (Copp I) r.
Proof.
  intros G B f t opt v tx r H. tt_duals tt_line H. unfold branch_current. destruct opt; expand_rows;
  unfold TX_LARGE_G, TX_LARGE_B; show_spec; ring.
Qed.
Lemma shunt_branch : forall G B f t opt v tx r, free_row opt (bus_unknowns f ++ bus_unknowns t) r ->
  F [(line_details f t opt true, [G; B; 0])] v tx r =
  let I := Cscale (1 - tx) (branch_current G B (Csub (volt v f) (volt v t))) in
  balance opt f I r + balance opt t (Copp I) r.
Proof.
  intros G B f t opt v tx r H. tt_duals tt_shunt H. unfold branch_current. destruct opt; expand_rows; show_spec; ring.
Qed.
Definition pq_current (P Q : R) (V : C) : C := Cscale (/ Cnorm2 V) (P * fst V + Q * snd V, P * snd V - Q * fst V).
Lemma pq_branch : forall P Q f t n opt v tx r, free_row opt (bus_unknowns f ++ bus_unknowns t) r ->
  F [(fst (two_terminal_details lh_pq f t n opt), [P; Q])] v tx r =
  let I := pq_current P Q (Csub (volt v f) (volt v t)) in
  balance opt f I r + balance opt t (Copp I) r.
Proof.
  intros P Q f t n opt v tx r H. unfold pq_current. destruct opt; tt_duals tt_pq H; expand_rows; unfold Cnorm2; show_spec;
  unfold Rminus; rewrite ?neg1; ring.
Qed.
Lemma Ic_branch : forall P Q f t n opt v tx r, free_row opt (bus_unknowns f ++ bus_unknowns t) r ->
  F [(fst (two_terminal_details lh_Ic f t n opt), [P; Q])] v tx r = balance opt f (P, Q) r + balance opt t (Copp (P, Q)) r.
Proof.
  intros P Q f t n opt v tx r H. destruct opt; tt_duals tt_Ic H; expand_rows; show_spec; ring.
Qed.

(** where the additional equation number k of a two-terminal element sits, [m] being the number of its additional unknowns *)
Definition eq_at (opt : bool) (n m k : nat) : option nat := Some (if opt then n + m + k else n + k)%nat.
Lemma gen_branch : forall P Vset b n opt v tx r, free_row opt (bus_unknowns b ++ [Some n]) r ->
  F [(fst (two_terminal_details gen_lh b GROUND n opt), [P; Vset])] v tx r =
  balance opt b (pq_current P (v n) (volt v b)) r + hit (eq_at opt n 1 0) r * (Vset * Vset - Cnorm2 (volt v b)).
Proof.
  intros P Vset b n opt v tx r H. unfold pq_current, eq_at. replace (n + 1 + 0)%nat with (S n) by lia. rewrite Nat.add_0_r.
  destruct opt; tt_duals tt_gen H; expand_rows; unfold Cnorm2; show_spec; unfold Rminus; rewrite ?neg1, ?Ropp_0, ?Rplus_0_r; cbn [hit]; ring.
Qed.
Lemma slack_branch : forall Vr Vi b n opt v tx r, free_row opt (bus_unknowns b ++ [Some n; Some (S n)]) r ->
  F [(fst (two_terminal_details slack_lh b GROUND n opt), [Vr; Vi])] v tx r =
  balance opt b (v n, v (S n)) r +
  hit (eq_at opt n 2 0) r * (fst (volt v b) - Vr) + hit (eq_at opt n 2 1) r * (snd (volt v b) - Vi).
Proof.
  intros Vr Vi b n opt v tx r H. unfold eq_at. replace (n + 2 + 0)%nat with (S (S n)) by lia. replace (n + 2 + 1)%nat with (S (S (S n))) by lia.
  replace (n + 1)%nat with (S n) by lia. rewrite Nat.add_0_r.
  destruct opt; tt_duals tt_slack H; expand_rows; show_spec; unfold Rminus; rewrite ?neg1, ?Ropp_0, ?Rplus_0_r; cbn -[hit Nat.eqb]; ring.
Qed.
Lemma vs_branch : forall Vr Vi f t n opt v tx r, free_row opt (bus_unknowns f ++ bus_unknowns t ++ [Some n; Some (S n)]) r ->
  F [(fst (two_terminal_details vs_lh f t n opt), [Vr; Vi])] v tx r =
  balance opt f (v n, v (S n)) r + balance opt t (Copp (v n, v (S n))) r +
  hit (eq_at opt n 2 0) r * (Vr - (fst (volt v f) - fst (volt v t))) + hit (eq_at opt n 2 1) r * (Vi - (snd (volt v f) - snd (volt v t))).
Proof.
  intros Vr Vi f t n opt v tx r H. unfold eq_at. replace (n + 2 + 0)%nat with (S (S n)) by lia. replace (n + 2 + 1)%nat with (S (S (S n))) by lia.
  replace (n + 1)%nat with (S n) by lia. rewrite Nat.add_0_r.
  destruct opt; tt_duals tt_vs H; expand_rows; show_spec; unfold Rminus; rewrite ?neg1, ?Ropp_0, ?Rplus_0_r; cbn -[hit Nat.eqb]; ring.
Qed.

(** ratio of a transformer at a homotopy factor *)
Definition xf_ratio (tr ang tx : R) : C := Cpolar (tr + (1 - tr) * tx) (ang * (1 - tx)).
Ltac edot_duals ds es H := rewrite rows_of_duals; [rewrite (edot_hsum _ _ _ ds es) by reflexivity|reflexivity|free H].
Lemma xf_branch : forall tr ang fp fn tn i s opt v tx r,
  free_row opt (bus_unknowns fp ++ bus_unknowns fn ++ bus_unknowns tn ++ bus_unknowns i ++ bus_unknowns s) r ->
  F [({| sd_seg := xfrmr_lh; sd_var := xf_map fp fn tn i s; sd_eqn := None; sd_opt := opt |}, [tr; ang; 0])] v tx r =
  let k := xf_ratio tr ang tx in
  let I := volt v i in
  let Is := Copp (Cmul (Cconj k) I) in
  balance opt fp I r + balance opt fn (Copp I) r + balance opt s Is r + balance opt tn (Copp Is) r +
  balance opt i (Csub (Csub (volt v fp) (volt v fn)) (Cmul k (Csub (volt v s) (volt v tn)))) r.
Proof.
  intros tr ang fp fn tn i s opt v tx r H. unfold xf_ratio. edot_duals xf_duals xf_eqns H.
  replace (ang * (1 - tx)) with (ang + IZR (-1) * (ang * tx)) by ring.
  destruct opt; expand_rows; show_spec; ring.
Qed.
Lemma ct_branch : forall tr p l1 l2 i1 i2 opt v tx r,
  free_row opt (bus_unknowns p ++ bus_unknowns l1 ++ bus_unknowns l2 ++ bus_unknowns i1 ++ bus_unknowns i2) r ->
  F [({| sd_seg := center_tap_lh; sd_var := ct_map p l1 l2 i1 i2; sd_eqn := None; sd_opt := opt |}, [tr; 0])] v tx r =
  let k := / (tr + (1 - tr) * tx) in
  balance opt p (Cscale k (Csub (volt v i2) (volt v i1))) r + balance opt l1 (volt v i1) r + balance opt l2 (volt v i2) r +
  balance opt i1 (Csub (volt v l1) (Cscale k (volt v p))) r + balance opt i2 (Cadd (volt v l2) (Cscale k (volt v p))) r.
Proof.
  intros tr p l1 l2 i1 i2 opt v tx r H. edot_duals ct_duals ct_eqns H.
  destruct opt; expand_rows; show_spec; unfold Rminus; rewrite ?neg1; ring.
Qed.
