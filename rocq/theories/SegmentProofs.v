(** Lemmas about split_expr and the derivative entries. *)
From Coq Require Import ZArith Reals List String Bool Lia Lra Permutation.
From Verif Require Import Expr Segment SpecSegment ExprProofs.
Import ListNotations.
Local Open Scope string_scope.
Local Open Scope R_scope.
Local Open Scope list_scope.

Lemma mem_In : forall s l, mem s l = true <-> In s l.
Proof.
  intros. unfold mem. rewrite existsb_exists. split.
  - intros [x [H1 H2]]. apply String.eqb_eq in H2. now subst x.
  - intros. exists s. split; auto. apply String.eqb_refl.
Qed.

Lemma mem_not_In : forall s l, mem s l = false <-> ~ In s l.
Proof.
  intros. rewrite <- mem_In. destruct (mem s l); split; intros; try congruence; tauto.
Qed.

Lemma is_constant_spec : forall e vars, is_constant e vars = true <-> (forall s, In s (fsyms e) -> ~ In s vars).
Proof.
  intros. unfold is_constant. rewrite forallb_forall. split; intros H s Hs.
  - apply mem_not_In. specialize (H s Hs). now destruct (mem s vars).
  - specialize (H s Hs). apply mem_not_In in H. now rewrite H.
Qed.

Lemma vars_of_spec : forall e vars s, In s (vars_of e vars) <-> In s (fsyms e) /\ In s vars.
Proof.
  intros. unfold vars_of. rewrite nodup_In, filter_In, mem_In. tauto.
Qed.

Lemma has_pow_of_factors : forall fs, has_pow (of_factors fs) = false -> Forall (fun f => snd f = 1%Z) fs.
Proof.
  assert (Hf : forall f, has_pow (of_factor f) = false -> snd f = 1%Z).
  { intros [b k]. unfold of_factor. destruct (Z.eqb_spec k 1); simpl; auto; discriminate. }
  induction fs as [|f fs IH]; intros H; constructor.
  - apply Hf. destruct fs as [|f' fs]; [exact H|].
    change (has_pow (of_factor f) || has_pow (of_factors (f' :: fs)) = false) in H.
    now apply orb_false_iff in H.
  - apply IH. destruct fs as [|f' fs]; [reflexivity|].
    change (has_pow (of_factor f) || has_pow (of_factors (f' :: fs)) = false) in H.
    now apply orb_false_iff in H.
Qed.

Lemma has_pow_of_mono : forall m, has_pow (of_mono m) = false -> Forall (fun f => snd f = 1%Z) (snd m).
Proof.
  intros [c fs] H. unfold of_mono in H. destruct fs as [|f fs]; [constructor|].
  destruct (Z.eqb c 1); apply has_pow_of_factors; auto.
Qed.

Lemma dfac_app : forall f g rho dlt, dfac (f ++ g) rho dlt = dmul (dfac f rho dlt) (dfac g rho dlt).
Proof.
  induction f as [|[b k] f IH]; intros; simpl; [ring|]. rewrite IH. ring.
Qed.

Lemma dfac_not_free : forall fs rho x, ~ In x (fs_factors fs) -> snd (dfac fs rho (dir x)) = 0.
Proof.
  intros. rewrite <- dden_of_factors. apply dden_not_free. now rewrite fsyms_of_factors.
Qed.

(** what is needed of a monomial of an expansion *)
Definition good_mono (vars : list sym) (m : mono) : Prop :=
  NDmono m /\ Qmono Qatom m /\ Qmono (Qtrig vars) m.

Lemma linear_term_ok : forall vars m, good_mono vars m -> is_linear (of_mono m) vars = true ->
  exists t, get_linear_term (of_mono m) vars = Some t /\ In t vars /\
    (forall rho, den (of_mono m) rho = den (diff (of_mono m) t) rho * rho t) /\
    (forall rho x, In x vars -> x <> t -> den (diff (of_mono m) x) rho = 0).
Proof.
  intros vars [c fs] [Hnd [Hat Htr]] Hlin.
  unfold get_linear_term. rewrite Hlin.
  unfold is_linear in Hlin. rewrite !andb_true_iff in Hlin. destruct Hlin as [[_ Hone] Hnp].
  apply Nat.eqb_eq in Hone. apply negb_true_iff in Hnp.
  assert (Hk := has_pow_of_mono _ Hnp). simpl in Hk.
  destruct (vars_of (of_mono (c, fs)) vars) as [|t [|? ?]] eqn:Ev; try discriminate.
  assert (Huniq : forall s, In s (fs_factors fs) -> In s vars -> s = t).
  { intros s H1 H2. assert (In s (vars_of (of_mono (c, fs)) vars)).
    { apply vars_of_spec. split; auto. now rewrite fsyms_of_mono. }
    rewrite Ev in H. destruct H as [H|[]]. auto. }
  assert (Ht : In t (fsyms (of_mono (c, fs))) /\ In t vars).
  { apply vars_of_spec. rewrite Ev. now left. }
  destruct Ht as [Htf Htv]. rewrite fsyms_of_mono in Htf. simpl in Htf.
  (* every factor mentioning an unknown is the symbol t itself *)
  assert (Hbase : forall b k x, In (b, k) fs -> In x (fsyms b) -> In x vars -> b = Sym t).
  { intros b k x Hin Hx Hxv.
    unfold Qmono in *; simpl in *. rewrite Forall_forall in Hat, Htr, Hk.
    specialize (Hat _ Hin). specialize (Htr _ Hin). specialize (Hk _ Hin). simpl in *. subst k.
    unfold Qatom, Qtrig in *; simpl in *.
    assert (E : x = t). { apply Huniq; auto. apply in_flat_map. exists (b, 1%Z); auto. }
    subst x. specialize (Hat ltac:(reflexivity)).
    destruct b; try contradiction.
    - simpl in Hx. destruct Hx as [->|[]]. reflexivity.
    - exfalso. now apply (Htr t).
    - exfalso. now apply (Htr t). }
  apply in_flat_map in Htf as [[b k] [Hin Hx]]. simpl in Hx.
  assert (Eb : b = Sym t) by (eapply Hbase; eauto). subst b.
  assert (Ek : k = 1%Z). { rewrite Forall_forall in Hk. exact (Hk _ Hin). } subst k.
  apply in_split in Hin as [l1 [l2 El]]. subst fs.
  assert (Hrest : forall x, In x vars -> ~ In x (fs_factors (l1 ++ l2))).
  { intros x Hxv Hxin. apply in_flat_map in Hxin as [[b k] [Hb Hxb]]. simpl in Hxb.
    assert (Hb' : In (b, k) (l1 ++ (Sym t, 1%Z) :: l2)).
    { rewrite in_app_iff in *. simpl. tauto. }
    assert (b = Sym t) by (eapply Hbase; eauto). subst b.
    unfold NDmono in Hnd; simpl in Hnd. rewrite map_app in Hnd. simpl in Hnd.
    apply NoDup_remove_2 in Hnd. apply Hnd. rewrite <- map_app.
    apply in_map_iff. exists (Sym t, k); auto. }
  assert (Hval : forall rho dlt, dden (of_mono (c, l1 ++ (Sym t, 1%Z) :: l2)) rho dlt =
            dmul (dmul (dconst c) (dfac (l1 ++ l2) rho dlt)) (rho t, dlt t)).
  { intros. rewrite dden_of_mono. unfold dmono; simpl fst; simpl snd.
    rewrite !dfac_app. simpl dfac. rewrite dpow_1. simpl dden. ring. }
  exists t. split; [reflexivity|]. split; [auto|]. split.
  - intros rho. rewrite <- dden_snd, Hval. rewrite <- (dden_fst _ rho (dir t)), Hval. simpl.
    rewrite (dfac_not_free (l1 ++ l2) rho t) by auto.
    unfold dir. rewrite String.eqb_refl. ring.
  - intros rho x Hxv Hxt. rewrite <- dden_snd, Hval. simpl.
    rewrite (dfac_not_free (l1 ++ l2) rho x) by auto.
    unfold dir. destruct (String.eqb_spec t x); [congruence|]. ring.
Qed.

(** ** Values of the pair (constant_expr, variable_expr_dict) *)
Section Split.
Variable rho : env.

Definition pv (p : poly) : R := den (of_poly p) rho.

Fixpoint dsum (d : vdict) : R :=
  match d with [] => 0 | (k, p) :: r => pv p * rho k + dsum r end.
Fixpoint dcoef (d : vdict) (x : sym) : R :=
  match d with [] => 0 | (k, p) :: r => (if String.eqb k x then pv p else 0) + dcoef r x end.
Definition wd_dict (d : vdict) := Forall (fun kv => wd_poly rho (snd kv)) d.

Lemma pv_nil : pv [] = 0. Proof. reflexivity. Qed.

Lemma pv_expand : forall e, wd e rho -> pv (expand e) = den e rho.
Proof.
  intros e H. unfold pv. rewrite <- (dden_fst _ rho (dir "")), dden_of_poly.
  destruct (expand_ok rho (dir "") e H) as [_ E]. now rewrite E, dden_fst.
Qed.

Lemma wd_expand : forall e, wd e rho -> wd_poly rho (expand e).
Proof. intros e H. apply (expand_ok rho (dir "") e H). Qed.

Lemma pv_padd : forall p q, wd_poly rho p -> wd_poly rho q -> pv (padd p q) = pv p + pv q.
Proof.
  intros. unfold pv. rewrite <- !(dden_fst _ rho (dir "")), !dden_of_poly.
  destruct (padd_ok rho (dir "") p q H H0) as [_ E]. now rewrite E.
Qed.

Lemma wd_padd : forall p q, wd_poly rho p -> wd_poly rho q -> wd_poly rho (padd p q).
Proof. intros. now apply (padd_ok rho (dir "")). Qed.

Lemma dict_add_ok : forall d k p, wd_dict d -> wd_poly rho p ->
  wd_dict (dict_add d k p) /\ dsum (dict_add d k p) = dsum d + pv p * rho k /\
  (forall x, dcoef (dict_add d k p) x = dcoef d x + (if String.eqb k x then pv p else 0)).
Proof.
  induction d as [|[k' q] d IH]; intros k p Hd Hp; simpl.
  - repeat split.
    + constructor; auto.
    + ring.
    + intros. ring.
  - inversion Hd; subst. simpl in H1. destruct (String.eqb_spec k k').
    + subst k'. repeat split.
      * constructor; auto. simpl. now apply wd_padd.
      * simpl. rewrite pv_padd by auto. ring.
      * intros x. simpl. rewrite pv_padd by auto. destruct (String.eqb k x); ring.
    + destruct (IH k p H2 Hp) as [I1 [I2 I3]]. repeat split.
      * constructor; auto.
      * simpl. rewrite I2. ring.
      * intros x. simpl. rewrite I3. ring.
Qed.

Lemma dict_add_fold : forall Y d, wd_dict d -> wd_dict Y ->
  let d' := fold_left (fun d kv => dict_add d (fst kv) (snd kv)) Y d in
  wd_dict d' /\ dsum d' = dsum d + dsum Y /\ (forall x, dcoef d' x = dcoef d x + dcoef Y x).
Proof.
  induction Y as [|[k p] Y IH]; intros d Hd HY; simpl.
  - repeat split; auto; intros; ring.
  - inversion HY; subst. simpl in H1. destruct (dict_add_ok d k p Hd H1) as [I1 [I2 I3]].
    destruct (IH _ I1 H2) as [J1 [J2 J3]]. repeat split; auto.
    + rewrite J2, I2. ring.
    + intros x. rewrite J3, I3. ring.
Qed.

Lemma linearize_ok : forall e vars, wd e rho -> NoDup vars ->
  let (J, Y) := linearize_expr e vars in
  wd_poly rho J /\ wd_dict Y /\ dsum Y - pv J = den e rho /\
  (forall x, In x vars -> dcoef Y x = den (diff e x) rho).
Proof.
  intros e vars He Hnd. unfold linearize_expr.
  assert (Hd : forall v, wd (diff e v) rho) by (intros; now apply wd_diff).
  assert (HJ : forall vs p, wd_poly rho p ->
     wd_poly rho (fold_left (fun acc v => padd acc (expand (Mul (diff e v) (Sym v)))) vs p) /\
     pv (fold_left (fun acc v => padd acc (expand (Mul (diff e v) (Sym v)))) vs p)
       = pv p + dsum (map (fun v => (v, expand (diff e v))) vs)).
  { induction vs as [|v vs IH]; intros p Hp; cbn [fold_left map dsum]; [split; auto; ring|].
    assert (W : wd (Mul (diff e v) (Sym v)) rho) by (split; [apply Hd|exact I]).
    assert (W' := wd_expand _ W).
    destruct (IH _ (wd_padd _ _ Hp W')) as [I1 I2]. split; auto.
    rewrite I2, pv_padd, pv_expand, pv_expand by auto. simpl. ring. }
  assert (Wn : wd (Neg e) rho) by (split; [exact I|auto]).
  destruct (HJ vars _ (wd_expand _ Wn)) as [K1 K2]. repeat split; auto.
  - unfold wd_dict. apply Forall_map. apply Forall_forall. intros v _. simpl. now apply wd_expand.
  - rewrite K2, pv_expand by auto. unfold Neg. simpl. ring.
  - intros x Hx. clear HJ K1 K2. induction vars as [|v vs IH]; [destruct Hx|].
    inversion Hnd; subst. simpl. rewrite pv_expand by auto.
    assert (Hz : forall vs', ~ In x vs' -> dcoef (map (fun v => (v, expand (diff e v))) vs') x = 0).
    { induction vs' as [|w vs' IHv]; simpl; intros Hn; auto.
      destruct (String.eqb_spec w x); [exfalso; auto|]. rewrite IHv by auto. ring. }
    destruct Hx as [->|Hx].
    + rewrite String.eqb_refl, Hz by auto. ring.
    + destruct (String.eqb_spec v x); [subst; contradiction|]. rewrite IH by auto. ring.
Qed.

Lemma split_term_ok : forall vars m c d, NoDup vars ->
  wd_mono rho m -> wd_poly rho c -> wd_dict d ->
  let (c', d') := split_term vars (c, d) m in
  wd_poly rho c' /\ wd_dict d' /\
  (good_mono vars m -> dsum d' - pv c' = dsum d - pv c + den (of_mono m) rho) /\
  (good_mono vars m -> forall x, In x vars -> dcoef d' x = dcoef d x + den (diff (of_mono m) x) rho).
Proof.
  intros vars m c d Hnd Hm Hc Hd. unfold split_term.
  assert (W : wd (of_mono m) rho) by (now apply wd_of_mono).
  destruct (is_constant (of_mono m) vars) eqn:Ec.
  - assert (Wn : wd (Neg (of_mono m)) rho) by (split; [exact I|auto]).
    repeat split; auto.
    + apply wd_padd; auto. now apply wd_expand.
    + intros _. rewrite pv_padd, pv_expand; auto; [|now apply wd_expand]. unfold Neg; simpl. ring.
    + intros _ x Hx. rewrite <- dden_snd, dden_not_free; [ring|].
      intros K. apply (proj1 (is_constant_spec _ _) Ec x K Hx).
  - destruct (is_linear (of_mono m) vars) eqn:El.
    + destruct (get_linear_term (of_mono m) vars) as [t|] eqn:Eg.
      * assert (Wd : wd (diff (of_mono m) t) rho) by (now apply wd_diff).
        destruct (dict_add_ok d t (expand (diff (of_mono m) t)) Hd (wd_expand _ Wd)) as [I1 [I2 I3]].
        repeat split; auto.
        { intros G. destruct (linear_term_ok vars m G El) as [t' [E [Hin [H1 H2]]]].
          rewrite Eg in E. injection E as <-. rewrite I2, pv_expand, (H1 rho) by auto. ring. }
        { intros G x Hx. destruct (linear_term_ok vars m G El) as [t' [E [Hin [H1 H2]]]].
          rewrite Eg in E. injection E as <-. rewrite I3, pv_expand by auto.
          destruct (String.eqb_spec t x); [now subst|]. rewrite H2 by auto. ring. }
      * repeat split; auto; intros G; destruct (linear_term_ok vars m G El) as [t' [E _]]; congruence.
    + assert (L := linearize_ok (of_mono m) vars W Hnd).
      destruct (linearize_expr (of_mono m) vars) as [J Y]. destruct L as [L1 [L2 [L3 L4]]].
      destruct (dict_add_fold Y d Hd L2) as [K1 [K2 K3]]. repeat split; auto.
      * now apply wd_padd.
      * intros _. rewrite K2, pv_padd by auto. lra.
      * intros _ x Hx. rewrite K3, L4 by auto. ring.
Qed.

Lemma pv_cons : forall m p, pv (m :: p) = den (of_mono m) rho + pv p.
Proof.
  intros. unfold pv. rewrite <- !(dden_fst _ rho (dir "")), !dden_of_poly, dden_of_mono. reflexivity.
Qed.

Lemma pd_cons : forall m p x, den (diff (of_poly (m :: p)) x) rho
   = den (diff (of_mono m) x) rho + den (diff (of_poly p) x) rho.
Proof.
  intros. rewrite <- !dden_snd, !dden_of_poly, dden_of_mono. reflexivity.
Qed.

Lemma split_fold_ok : forall vars ms c d, NoDup vars ->
  Forall (wd_mono rho) ms -> Forall (good_mono vars) ms -> wd_poly rho c -> wd_dict d ->
  let (c', d') := fold_left (split_term vars) ms (c, d) in
  wd_poly rho c' /\ wd_dict d' /\
  dsum d' - pv c' = dsum d - pv c + pv ms /\
  (forall x, In x vars -> dcoef d' x = dcoef d x + den (diff (of_poly ms) x) rho).
Proof.
  induction ms as [|m ms IH]; intros c d Hnd Hw Hg Hc Hd.
  - simpl. rewrite pv_nil. repeat split; auto; try ring. intros; ring.
  - inversion Hw; inversion Hg; subst.
    change (fold_left (split_term vars) (m :: ms) (c, d))
      with (fold_left (split_term vars) ms (split_term vars (c, d) m)).
    assert (S1 := split_term_ok vars m c d Hnd H1 Hc Hd).
    destruct (split_term vars (c, d) m) as [c1 d1]. destruct S1 as [S1 [S2 [S3 S4]]].
    specialize (IH c1 d1 Hnd H2 H6 S1 S2).
    destruct (fold_left (split_term vars) ms (c1, d1)) as [c2 d2].
    destruct IH as [I1 [I2 [I3 I4]]]. repeat split; auto.
    + rewrite I3, S3, pv_cons by auto. ring.
    + intros x Hx. rewrite I4, S4, pd_cons by auto. ring.
Qed.

Lemma expand_good : forall vars e, trig_ok vars e -> Forall (good_mono vars) (expand e).
Proof.
  intros vars e H. assert (A := expand_ND e). assert (B := expand_Qatom e).
  assert (C := expand_Qtrig vars e H). unfold NDpoly, Qpoly in *.
  rewrite Forall_forall in *. intros m Hm. repeat split; auto.
Qed.

Lemma split_expr_ok : forall vars e, NoDup vars -> wd e rho -> trig_ok vars e ->
  let (c, d) := split_expr e vars in
  wd_poly rho c /\ wd_dict d /\ dsum d - pv c = den e rho /\
  (forall x, In x vars -> dcoef d x = den (diff e x) rho).
Proof.
  intros vars e Hnd He Ht.
  assert (S := split_fold_ok vars (expand e) [] [] Hnd (wd_expand e He) (expand_good vars e Ht)
     ltac:(constructor) ltac:(constructor)).
  match type of S with let (_, _) := ?X in _ => change (split_expr e vars) with X; destruct X as [c d] end.
  destruct S as [S1 [S2 [S3 S4]]]. repeat split; auto.
  - rewrite S3, pv_nil, pv_expand by auto. simpl. ring.
  - intros x Hx. rewrite S4 by auto. simpl dcoef.
    rewrite <- !dden_snd, dden_of_poly. destruct (expand_ok rho (dir x) e He) as [_ E]. rewrite E. ring.
Qed.

(** C02 does not need the trigonometric restriction *)
Lemma linear_term_coef : forall vars m, is_linear (of_mono m) vars = true ->
  exists t, get_linear_term (of_mono m) vars = Some t /\ In t vars /\
    (forall x, In x vars -> x <> t -> den (diff (of_mono m) x) rho = 0).
Proof.
  intros vars m Hlin. unfold get_linear_term. rewrite Hlin.
  unfold is_linear in Hlin. rewrite !andb_true_iff in Hlin. destruct Hlin as [[_ Hone] _].
  apply Nat.eqb_eq in Hone.
  destruct (vars_of (of_mono m) vars) as [|t [|? ?]] eqn:Ev; try discriminate.
  exists t. split; [reflexivity|]. split.
  - apply (vars_of_spec (of_mono m) vars t). rewrite Ev. now left.
  - intros x Hx Hxt. rewrite <- dden_snd. apply dden_not_free. intros K.
    assert (In x (vars_of (of_mono m) vars)) by (now apply vars_of_spec).
    rewrite Ev in H. destruct H as [H|[]]. congruence.
Qed.

Lemma split_fold_coef : forall vars ms c d, NoDup vars ->
  Forall (wd_mono rho) ms -> wd_poly rho c -> wd_dict d ->
  let (c', d') := fold_left (split_term vars) ms (c, d) in
  forall x, In x vars -> dcoef d' x = dcoef d x + den (diff (of_poly ms) x) rho.
Proof.
  induction ms as [|m ms IH]; intros c d Hnd Hw Hc Hd.
  - simpl. intros; ring.
  - inversion Hw; subst.
    change (fold_left (split_term vars) (m :: ms) (c, d))
      with (fold_left (split_term vars) ms (split_term vars (c, d) m)).
    assert (W : wd (of_mono m) rho) by (now apply wd_of_mono).
    assert (S1 := split_term_ok vars m c d Hnd H1 Hc Hd).
    assert (S4 : forall x, In x vars ->
        dcoef (snd (split_term vars (c, d) m)) x = dcoef d x + den (diff (of_mono m) x) rho).
    { clear S1. unfold split_term. intros x Hx. destruct (is_constant (of_mono m) vars) eqn:Ec.
      - simpl. rewrite <- dden_snd, dden_not_free; [ring|].
        intros K. apply (proj1 (is_constant_spec _ _) Ec x K Hx).
      - destruct (is_linear (of_mono m) vars) eqn:El.
        + destruct (linear_term_coef vars m El) as [t [E [Hin H3]]]. rewrite E. simpl.
          assert (Wd : wd (diff (of_mono m) t) rho) by (now apply wd_diff).
          destruct (dict_add_ok d t (expand (diff (of_mono m) t)) Hd (wd_expand _ Wd)) as [_ [_ I3]].
          rewrite I3, pv_expand by auto.
          destruct (String.eqb_spec t x); [now subst|]. rewrite H3 by auto. ring.
        + assert (L := linearize_ok (of_mono m) vars W Hnd).
          destruct (linearize_expr (of_mono m) vars) as [J Y]. destruct L as [L1 [L2 [L3 L4]]].
          destruct (dict_add_fold Y d Hd L2) as [K1 [K2 K3]]. simpl. rewrite K3, L4 by auto. ring. }
    destruct (split_term vars (c, d) m) as [c1 d1]. destruct S1 as [S1 [S2 _]]. simpl in S4.
    specialize (IH c1 d1 Hnd H2 S1 S2).
    destruct (fold_left (split_term vars) ms (c1, d1)) as [c2 d2].
    intros x Hx. rewrite IH, S4, pd_cons by auto. ring.
Qed.

Lemma split_expr_coef : forall vars e, NoDup vars -> wd e rho ->
  forall x, In x vars -> dcoef (snd (split_expr e vars)) x = den (diff e x) rho.
Proof.
  intros vars e Hnd He x Hx.
  assert (S := split_fold_coef vars (expand e) [] [] Hnd (wd_expand e He)
     ltac:(constructor) ltac:(constructor)).
  match type of S with let (_, _) := ?X in _ => change (split_expr e vars) with X; destruct X as [c d] end. simpl.
  rewrite S by auto. simpl dcoef.
  rewrite <- !dden_snd, dden_of_poly. destruct (expand_ok rho (dir x) e He) as [_ E]. rewrite E. ring.
Qed.
End Split.

Lemma Ysum_app : forall a b rho, Ysum (a ++ b) rho = Ysum a rho + Ysum b rho.
Proof. induction a; simpl; intros; [ring|]. rewrite IHa. ring. Qed.
Lemma Jsum_app : forall a b rho, Jsum (a ++ b) rho = Jsum a rho + Jsum b rho.
Proof. induction a; simpl; intros; [ring|]. rewrite IHa. ring. Qed.
Lemma Ycoef_app : forall a b x rho, Ycoef (a ++ b) x rho = Ycoef a x rho + Ycoef b x rho.
Proof. induction a; simpl; intros; [ring|]. rewrite IHa. ring. Qed.

Lemma mk_evals_ok : forall c d vars rho,
  Ysum (mk_evals c d vars) rho = dsum rho d /\ Jsum (mk_evals c d vars) rho = pv rho c /\
  (forall x, Ycoef (mk_evals c d vars) x rho = dcoef rho d x).
Proof.
  intros c d vars rho. unfold mk_evals.
  set (F := flat_map _ d).
  assert (HF : Ysum F rho = dsum rho d /\ Jsum F rho = 0 /\ (forall x, Ycoef F x rho = dcoef rho d x)).
  { unfold F. induction d as [|[k p] d IH]; [repeat split; auto|].
    destruct IH as [I1 [I2 I3]].
    destruct p as [|m p]; cbn [flat_map snd fst app Ysum Jsum Ycoef ev_yth ev_expr dsum dcoef].
    - rewrite I1, I2, pv_nil. repeat split; auto; [ring|]. intros x. rewrite I3.
      destruct (String.eqb k x); ring.
    - rewrite I1, I2. repeat split; [ring|]. intros x. rewrite I3. reflexivity. }
  destruct HF as [H1 [H2 H3]]. rewrite Ysum_app, Jsum_app, H1, H2.
  destruct c as [|m c]; simpl; repeat split; try (unfold pv; simpl; ring).
  - intros x. rewrite H3. reflexivity.
  - intros x. rewrite H3. ring.
Qed.

Theorem linearisation_identity : forall s x rho,
  NoDup (sg_variables s) -> wd (sg_lagrange s) rho -> trig_ok (sg_variables s) (sg_lagrange s) ->
  let d := gen_derivative s x in
  Ysum (dv_evals d) rho - Jsum (dv_evals d) rho = den (dv_expr d) rho.
Proof.
  intros s x rho Hnd Hw Ht. unfold gen_derivative.
  assert (S := split_expr_ok rho (sg_variables s) (diff (sg_lagrange s) x) Hnd (wd_diff _ _ x Hw)
                 (trig_ok_diff _ _ x Ht)).
  destruct (split_expr (diff (sg_lagrange s) x) (sg_variables s)) as [c d]. simpl.
  destruct (mk_evals_ok c d (sg_variables s) rho) as [E1 [E2 _]]. rewrite E1, E2. apply S.
Qed.

Theorem coefficient_is_partial_derivative : forall s x y rho,
  NoDup (sg_variables s) -> wd (sg_lagrange s) rho -> In y (sg_variables s) ->
  let d := gen_derivative s x in
  derivable_pt_lim (fun t => den (dv_expr d) (upd rho y t)) (rho y) (Ycoef (dv_evals d) y rho).
Proof.
  intros s x y rho Hnd Hw Hy. unfold gen_derivative.
  assert (S := split_expr_coef rho (sg_variables s) (diff (sg_lagrange s) x) Hnd (wd_diff _ _ x Hw) y Hy).
  destruct (split_expr (diff (sg_lagrange s) x) (sg_variables s)) as [c d]. simpl in *.
  destruct (mk_evals_ok c d (sg_variables s) rho) as [_ [_ E3]]. rewrite E3, S.
  apply den_derivable. now apply wd_diff.
Qed.

(** the equation itself is the partial derivative of the Lagrangian *)
Theorem equation_is_lagrange_derivative : forall s x rho, wd (sg_lagrange s) rho ->
  derivable_pt_lim (fun t => den (sg_lagrange s) (upd rho x t)) (rho x) (den (dv_expr (gen_derivative s x)) rho).
Proof.
  intros s x rho Hw. unfold gen_derivative.
  destruct (split_expr (diff (sg_lagrange s) x) (sg_variables s)) as [c d]. simpl. now apply den_derivable.
Qed.

(** every entry belongs to an unknown of the segment or to J *)
Lemma dict_add_keys : forall d k p x, In x (map fst (dict_add d k p)) -> x = k \/ In x (map fst d).
Proof.
  induction d as [|[k' q] d IH]; simpl; intros k p x H; [intuition|].
  destruct (String.eqb k k'); simpl in *; [intuition|]. destruct H as [H|H]; auto.
  apply IH in H. intuition.
Qed.

Lemma fold_dict_keys : forall Y d x,
  In x (map fst (fold_left (fun d (kv : sym * poly) => dict_add d (fst kv) (snd kv)) Y d)) ->
  In x (map fst Y) \/ In x (map fst d).
Proof.
  induction Y as [|[k p] Y IH]; simpl; intros d x H; auto. apply IH in H as [H|H]; auto.
  apply dict_add_keys in H. intuition.
Qed.

Lemma split_keys : forall vars ms c d x, (forall y, In y (map fst d) -> In y vars) ->
  In x (map fst (snd (fold_left (split_term vars) ms (c, d)))) -> In x vars.
Proof.
  induction ms as [|m ms IH]; intros c d x Hd H; [apply Hd; exact H|].
  change (fold_left (split_term vars) (m :: ms) (c, d))
    with (fold_left (split_term vars) ms (split_term vars (c, d) m)) in H.
  destruct (split_term vars (c, d) m) as [c1 d1] eqn:E. apply IH in H; auto.
  intros y Hy. unfold split_term in E. destruct (is_constant (of_mono m) vars).
  - injection E as <- <-. auto.
  - destruct (is_linear (of_mono m) vars) eqn:El.
    + destruct (linear_term_coef (fun _ => 0) vars m El) as [t [Et [Hin _]]]. rewrite Et in E.
      injection E as <- <-. apply dict_add_keys in Hy as [->|Hy]; auto.
    + unfold linearize_expr in E. injection E as <- <-.
      apply fold_dict_keys in Hy as [Hy|Hy]; auto.
      rewrite map_map in Hy. simpl in Hy. now rewrite map_id in Hy.
Qed.

Theorem evals_unknowns : forall s x ev y,
  In ev (dv_evals (gen_derivative s x)) -> ev_yth ev = Some y -> In y (sg_variables s).
Proof.
  intros s x ev y Hin Hy. unfold gen_derivative in Hin.
  destruct (split_expr (diff (sg_lagrange s) x) (sg_variables s)) as [c d] eqn:E. simpl in Hin.
  assert (K : In y (map fst d)).
  { unfold mk_evals in Hin. apply in_app_or in Hin as [Hin|Hin].
    - destruct c; [destruct Hin|]. destruct Hin as [<-|[]]. discriminate.
    - apply in_flat_map in Hin as [[k p] [H1 H2]]. simpl in H2. destruct p; [destruct H2|].
      destruct H2 as [<-|[]]. simpl in Hy. injection Hy as <-. apply in_map_iff. exists (k, m :: p); auto. }
  eapply (split_keys (sg_variables s) (expand (diff (sg_lagrange s) x)) [] []).
  - intros z [].
  - change (In y (map fst (snd (split_expr (diff (sg_lagrange s) x) (sg_variables s))))). rewrite E. exact K.
Qed.

(** ** the linear flag *)
Theorem linear_entry_constant : forall s x ev rho rho',
  In ev (dv_evals (gen_derivative s x)) -> ev_linear ev = true ->
  (forall y, ~ In y (sg_variables s) -> rho y = rho' y) ->
  den (ev_expr ev) rho = den (ev_expr ev) rho'.
Proof.
  intros s x ev rho rho' Hin Hl Hr.
  assert (K : no_variable_in (ev_expr ev) (sg_variables s) = true).
  { unfold gen_derivative in Hin.
    destruct (split_expr (diff (sg_lagrange s) x) (sg_variables s)) as [c d]. simpl in Hin.
    unfold mk_evals in Hin. apply in_app_or in Hin as [Hin|Hin].
    - destruct c; [destruct Hin|]. destruct Hin as [<-|[]]. exact Hl.
    - apply in_flat_map in Hin as [[k p] [H1 H2]]. simpl in H2. destruct p; [destruct H2|].
      destruct H2 as [<-|[]]. exact Hl. }
  apply den_ext. intros y Hy. apply Hr. intros Hv.
  unfold no_variable_in in K. apply negb_true_iff in K.
  assert (existsb (fun z => mem z (fsyms (ev_expr ev))) (sg_variables s) = true).
  { apply existsb_exists. exists y. split; auto. now apply mem_In. }
  congruence.
Qed.

(** an entry not flagged linear really mentions an unknown *)
Theorem nonlinear_entry_mentions : forall s x ev,
  In ev (dv_evals (gen_derivative s x)) -> ev_linear ev = false ->
  exists y, In y (sg_variables s) /\ In y (fsyms (ev_expr ev)).
Proof.
  intros s x ev Hin Hl.
  assert (K : no_variable_in (ev_expr ev) (sg_variables s) = false).
  { unfold gen_derivative in Hin.
    destruct (split_expr (diff (sg_lagrange s) x) (sg_variables s)) as [c d]. simpl in Hin.
    unfold mk_evals in Hin. apply in_app_or in Hin as [Hin|Hin].
    - destruct c; [destruct Hin|]. destruct Hin as [<-|[]]. exact Hl.
    - apply in_flat_map in Hin as [[k p] [H1 H2]]. simpl in H2. destruct p; [destruct H2|].
      destruct H2 as [<-|[]]. exact Hl. }
  unfold no_variable_in in K. apply negb_false_iff in K.
  apply existsb_exists in K as [y [H1 H2]]. exists y. split; auto. now apply mem_In.
Qed.

(** ** counterexample for an unknown inside a cosine *)
Definition cos_segment : segment :=
  {| sg_lagrange := Mul (Sym "lam") (Cos (Sym "x"));
     sg_constants := []; sg_primals := ["x"%string]; sg_duals := ["lam"%string] |}.

Theorem trig_identity_fails :
  exists s x rho, NoDup (sg_variables s) /\ wd (sg_lagrange s) rho /\ In x (sg_duals s) /\
    Ysum (dv_evals (gen_derivative s x)) rho - Jsum (dv_evals (gen_derivative s x)) rho
      <> den (dv_expr (gen_derivative s x)) rho.
Proof.
  exists cos_segment, "lam"%string, (fun _ => 0). repeat split.
  - simpl. constructor; [|constructor; [|constructor]]; simpl; intuition congruence.
  - simpl. auto.
  - set (evs := dv_evals (gen_derivative cos_segment "lam")). vm_compute in evs. subst evs.
    set (e := dv_expr (gen_derivative cos_segment "lam")). vm_compute in e. subst e.
    simpl. rewrite cos_0. lra.
Qed.

(** ** two-terminal models *)
Definition duals_of (t : two_terminal) : list sym :=
  [Lr_from; Li_from; Lr_to; Li_to] ++ map fst (tt_equalities t).

Definition lag_eqs (eqs : list (sym * expr)) (base : expr) : expr :=
  fold_left (fun acc q => Add acc (Mul (Sym (fst q)) (snd q))) eqs base.

Lemma lag_eqs_dden : forall eqs base rho dlt,
  dden (lag_eqs eqs base) rho dlt =
  dadd (dden base rho dlt)
    (fold_right (fun q acc => dadd (dmul (rho (fst q), dlt (fst q)) (dden (snd q) rho dlt)) acc) d0 eqs).
Proof.
  induction eqs as [|q eqs IH]; intros; simpl; [ring|].
  unfold lag_eqs in *. simpl. rewrite IH. simpl. ring.
Qed.

Lemma eqs_no_sym : forall eqs rho l, (forall q, In q eqs -> ~ In l (fsyms (snd q)) /\ fst q <> l) ->
  snd (fold_right (fun q acc => dadd (dmul (rho (fst q), dir l (fst q)) (dden (snd q) rho (dir l))) acc) d0 eqs) = 0.
Proof.
  induction eqs as [|q eqs IH]; intros rho l H; simpl; auto.
  rewrite IH by (intros; apply H; now right).
  destruct (H q (or_introl eq_refl)) as [H1 H2].
  rewrite (dden_not_free (snd q) rho l H1). unfold dir.
  destruct (String.eqb_spec (fst q) l); [congruence|]. ring.
Qed.

Lemma eqs_one_sym : forall eqs rho l e, NoDup (map fst eqs) -> In (l, e) eqs ->
  (forall q, In q eqs -> ~ In l (fsyms (snd q))) ->
  snd (fold_right (fun q acc => dadd (dmul (rho (fst q), dir l (fst q)) (dden (snd q) rho (dir l))) acc) d0 eqs)
   = den e rho.
Proof.
  induction eqs as [|q eqs IH]; intros rho l e Hnd Hin H; [destruct Hin|].
  inversion Hnd; subst. destruct Hin as [->|Hin]; simpl.
  - rewrite eqs_no_sym.
    + rewrite (dden_not_free e rho l) by (apply (H (l, e)); now left). rewrite dden_fst.
      unfold dir. rewrite String.eqb_refl. ring.
    + intros q Hq. split; [apply H; now right|]. intros E. apply H2. simpl.
      rewrite <- E. apply in_map_iff. exists q; auto.
  - rewrite (IH rho l e); auto; [|intros; apply H; now right].
    rewrite (dden_not_free (snd q) rho l) by (apply H; now left).
    unfold dir. destruct (String.eqb_spec (fst q) l).
    + exfalso. apply H2. rewrite e0. apply in_map_iff. exists (l, e); auto.
    + ring.
Qed.

(** All parts of a definition are free of multipliers. *)
Definition dual_free (t : two_terminal) : Prop :=
  forall l, In l (duals_of t) ->
    (match tt_objective t with Some o => ~ In l (fsyms o) | None => True end) /\
    ~ In l (fsyms (tt_kcl_r_from t)) /\ ~ In l (fsyms (tt_kcl_i_from t)) /\
    ~ In l (fsyms (fst (tt_to t))) /\ ~ In l (fsyms (snd (tt_to t))) /\
    (forall q, In q (tt_equalities t) -> ~ In l (fsyms (snd q))).

Lemma tt_lagrange_rows : forall t rho, dual_free t -> NoDup (duals_of t) ->
  den (diff (tt_lagrange t) Lr_from) rho = den (tt_kcl_r_from t) rho /\
  den (diff (tt_lagrange t) Li_from) rho = den (tt_kcl_i_from t) rho /\
  den (diff (tt_lagrange t) Lr_to) rho = - den (fst (tt_to t)) rho /\
  den (diff (tt_lagrange t) Li_to) rho = - den (snd (tt_to t)) rho /\
  (forall l e, In (l, e) (tt_equalities t) -> den (diff (tt_lagrange t) l) rho = den e rho).
Proof.
  intros t rho Hf Hnd.
  unfold duals_of in Hnd.
  assert (Hne : forall l q, In l [Lr_from; Li_from; Lr_to; Li_to] -> In q (tt_equalities t) -> fst q <> l).
  { intros l q Hl Hq E. assert (Hin : In l (map fst (tt_equalities t))).
    { rewrite <- E. apply in_map_iff. exists q; auto. }
    apply in_split in Hl as [l1 [l2 El]]. rewrite El in Hnd. rewrite <- app_assoc in Hnd. simpl in Hnd.
    apply NoDup_remove_2 in Hnd. apply Hnd. rewrite !in_app_iff. auto. }
  assert (Hobj : forall l, In l (duals_of t) ->
     snd (dden (match tt_objective t with Some o => o | None => Const 0 end) rho (dir l)) = 0).
  { intros l Hl. destruct (Hf l Hl) as [H _]. destruct (tt_objective t); [|reflexivity].
    now apply dden_not_free. }
  assert (Base : forall l, In l (duals_of t) ->
    den (diff (tt_lagrange t) l) rho =
      dir l Lr_from * den (tt_kcl_r_from t) rho + dir l Li_from * den (tt_kcl_i_from t) rho
      - dir l Lr_to * den (fst (tt_to t)) rho - dir l Li_to * den (snd (tt_to t)) rho
      + snd (fold_right (fun q acc => dadd (dmul (rho (fst q), dir l (fst q)) (dden (snd q) rho (dir l))) acc) d0
               (tt_equalities t))).
  { intros l Hl. rewrite <- dden_snd. unfold tt_lagrange.
    change (fold_left _ (tt_equalities t) ?b) with (lag_eqs (tt_equalities t) b).
    rewrite lag_eqs_dden. simpl. rewrite (Hobj l Hl).
    destruct (Hf l Hl) as [_ [H1 [H2 [H3 [H4 H5]]]]].
    rewrite (dden_not_free (tt_kcl_r_from t)), (dden_not_free (tt_kcl_i_from t)),
      (dden_not_free (fst (tt_to t))), (dden_not_free (snd (tt_to t))) by auto.
    rewrite !dden_fst. ring. }
  assert (Hin : forall l, In l [Lr_from; Li_from; Lr_to; Li_to] -> In l (duals_of t)).
  { intros. unfold duals_of. apply in_or_app. now left. }
  assert (Hz : forall l, In l [Lr_from; Li_from; Lr_to; Li_to] ->
     snd (fold_right (fun q acc => dadd (dmul (rho (fst q), dir l (fst q)) (dden (snd q) rho (dir l))) acc) d0
               (tt_equalities t)) = 0).
  { intros l Hl. apply eqs_no_sym. intros q Hq. split; [|now apply Hne]. destruct (Hf l (Hin l Hl)) as [_ [_ [_ [_ [_ H5]]]]].
    now apply H5. }
  repeat split.
  - rewrite Base, Hz by (try apply Hin; simpl; auto). unfold dir; simpl. ring.
  - rewrite Base, Hz by (try apply Hin; simpl; auto). unfold dir; simpl. ring.
  - rewrite Base, Hz by (try apply Hin; simpl; auto). unfold dir; simpl. ring.
  - rewrite Base, Hz by (try apply Hin; simpl; auto). unfold dir; simpl. ring.
  - intros l e Hle.
    assert (Hl : In l (duals_of t)).
    { unfold duals_of. apply in_or_app. right. apply in_map_iff. exists (l, e); auto. }
    rewrite Base by auto.
    rewrite (eqs_one_sym _ rho l e); auto.
    + assert (Hd : forall l0, In l0 [Lr_from; Li_from; Lr_to; Li_to] -> dir l l0 = 0).
      { intros l0 Hl0. unfold dir. destruct (String.eqb_spec l0 l); auto. exfalso.
        subst l0. apply (Hne l (l, e) Hl0 Hle). reflexivity. }
      rewrite !Hd by (simpl; auto). ring.
    + simpl in Hnd. do 4 (apply NoDup_cons_iff in Hnd as [_ Hnd]). exact Hnd.
    + destruct (Hf l Hl) as [_ [_ [_ [_ [_ H5]]]]]. exact H5.
Qed.

Lemma check_spec : forall declared e,
  check_missing_symbols declared e = true <-> incl (fsyms e) declared.
Proof.
  intros. unfold check_missing_symbols, incl. rewrite forallb_forall.
  split; intros H s Hs; specialize (H s Hs); now apply mem_In.
Qed.

(** exactly which definitions are accepted *)
Theorem tt_accepts : forall t, (exists s, tt_segment t = Some s) <->
  (forall o, tt_objective t = Some o -> incl (fsyms o) (tt_constants t ++ tt_variables t)) /\
  incl (fsyms (tt_kcl_r_from t)) (tt_constants t ++ tt_variables t) /\
  incl (fsyms (fst (tt_to t))) (tt_constants t ++ tt_variables t) /\
  incl (fsyms (snd (tt_to t))) (tt_constants t ++ tt_variables t) /\
  (forall l e, In (l, e) (tt_equalities t) -> incl (fsyms e) (tt_constants t ++ tt_variables t)).
Proof.
  intros t. unfold tt_segment. set (D := tt_constants t ++ tt_variables t).
  assert (E : tt_checks t = true <->
    (forall o, tt_objective t = Some o -> incl (fsyms o) D) /\
    incl (fsyms (tt_kcl_r_from t)) D /\ incl (fsyms (fst (tt_to t))) D /\
    incl (fsyms (snd (tt_to t))) D /\ (forall l e, In (l, e) (tt_equalities t) -> incl (fsyms e) D)).
  { unfold tt_checks. fold D. rewrite !andb_true_iff, !check_spec, forallb_forall. split.
    - intros [[[[[H1 H2] _] H3] H4] H5]. repeat split; auto.
      + intros o Eo. rewrite Eo in H1. now apply check_spec.
      + intros l e Hin. apply check_spec. exact (H5 _ Hin).
    - intros [H1 [H2 [H3 [H4 H5]]]]. repeat split; auto.
      + destruct (tt_objective t); auto. apply check_spec. now apply H1.
      + intros [l e] Hin. apply check_spec. eapply H5; eauto. }
  rewrite <- E. destruct (tt_checks t); split; intros H; eauto; try discriminate.
  destruct H; discriminate.
Qed.

Lemma generate_In : forall s x d, In (x, d) (generate_derivatives s) -> In x (sg_variables s) /\ d = gen_derivative s x.
Proof.
  intros s x d H. unfold generate_derivatives in H. apply in_map_iff in H as [y [E Hy]].
  injection E as -> <-. auto.
Qed.

Lemma dv_expr_gen : forall s x, dv_expr (gen_derivative s x) = diff (sg_lagrange s) x.
Proof.
  intros. unfold gen_derivative. now destruct (split_expr (diff (sg_lagrange s) x) (sg_variables s)).
Qed.

Lemma C01_lemma : forall s x d rho,
  In (x, d) (generate_derivatives s) ->
  NoDup (sg_variables s) -> wd (sg_lagrange s) rho -> trig_ok (sg_variables s) (sg_lagrange s) ->
  Ysum (dv_evals d) rho - Jsum (dv_evals d) rho = den (dv_expr d) rho /\
  derivable_pt_lim (fun t => den (sg_lagrange s) (upd rho x t)) (rho x) (den (dv_expr d) rho).
Proof.
  intros s x d rho Hin Hnd Hw Ht. apply generate_In in Hin as [_ ->]. split.
  - now apply linearisation_identity.
  - now apply equation_is_lagrange_derivative.
Qed.

Lemma C02_lemma : forall s x d y rho,
  In (x, d) (generate_derivatives s) ->
  NoDup (sg_variables s) -> wd (sg_lagrange s) rho -> In y (sg_variables s) ->
  derivable_pt_lim (fun t => den (dv_expr d) (upd rho y t)) (rho y) (Ycoef (dv_evals d) y rho).
Proof.
  intros s x d y rho Hin Hnd Hw Hy. apply generate_In in Hin as [_ ->].
  now apply coefficient_is_partial_derivative.
Qed.

(** Newton step: the linear equation handed to the solver is the first order expansion. *)
Lemma Ysum_split : forall evs vars rho rho', NoDup vars ->
  (forall ev y, In ev evs -> ev_yth ev = Some y -> In y vars) ->
  let Yat := fold_right (fun ev a => match ev_yth ev with Some y => den (ev_expr ev) rho * rho' y | None => 0 end + a) 0 evs in
  Yat = fold_right (fun y a => Ycoef evs y rho * rho' y + a) 0 vars.
Proof.
  induction evs as [|ev evs IH]; intros vars rho rho' Hnd Hv.
  - simpl. clear. induction vars; simpl; auto. rewrite <- IHvars. ring.
  - cbn [fold_right]. rewrite (IH vars); auto; [|intros; eapply Hv; eauto; now right].
    cbn [Ycoef].
    assert (E : forall c vs, fold_right (fun y a => (c y + Ycoef evs y rho) * rho' y + a) 0 vs
       = fold_right (fun y a => c y * rho' y + a) 0 vs + fold_right (fun y a => Ycoef evs y rho * rho' y + a) 0 vs).
    { intros c vs. induction vs; simpl; [ring|]. rewrite IHvs. ring. }
    rewrite (E (fun y => match ev_yth ev with Some z => if String.eqb z y then den (ev_expr ev) rho else 0 | None => 0 end)).
    f_equal. destruct (ev_yth ev) as [z|] eqn:Ez.
    + assert (Hz : In z vars) by (eapply Hv; eauto; now left).
      clear - Hnd Hz. induction vars as [|w vars IHv]; [destruct Hz|]. inversion Hnd; subst.
      cbn [fold_right]. destruct (String.eqb_spec z w).
      * subst w. assert (Z : forall vs, ~ In z vs ->
           fold_right (fun y a => (if String.eqb z y then den (ev_expr ev) rho else 0) * rho' y + a) 0 vs = 0).
        { induction vs as [|u vs IHs]; simpl; intros Hn; auto. rewrite IHs by auto.
          destruct (String.eqb_spec z u); [exfalso; auto|]. ring. }
        rewrite Z by auto. ring.
      * destruct Hz as [->|Hz]; [congruence|]. rewrite <- (IHv H2 Hz). ring.
    + clear. induction vars; simpl; auto. rewrite <- IHvars. ring.
Qed.

(** ** C05 / C06 *)
Lemma multipliers_duals : forall t, multipliers t = duals_of t.
Proof. reflexivity. Qed.

Lemma only_declared_incl : forall t e, only_declared t e <-> incl (fsyms e) (tt_constants t ++ tt_variables t).
Proof.
  intros. unfold only_declared, declared, incl. split; intros H x Hx; specialize (H x Hx); rewrite in_app_iff in *; auto.
Qed.

Lemma tt_segment_form : forall t s, tt_segment t = Some s ->
  sg_lagrange s = tt_lagrange t /\ sg_duals s = multipliers t /\ sg_constants s = tt_constants t /\
  sg_primals s = tt_variables t.
Proof.
  intros t s H. unfold tt_segment in H. destruct (tt_checks t); [|discriminate].
  injection H as <-. repeat split.
Qed.

Lemma C05_lemma : forall t s rho,
  tt_segment t = Some s ->
  only_declared t (tt_kcl_i_from t) ->
  (forall l, In l (multipliers t) -> ~ declared t l) ->
  NoDup (multipliers t) ->
  (forall d, In (Lr_from, d) (generate_derivatives s) -> den (dv_expr d) rho = den (tt_kcl_r_from t) rho) /\
  (forall d, In (Li_from, d) (generate_derivatives s) -> den (dv_expr d) rho = den (tt_kcl_i_from t) rho) /\
  (forall d, In (Lr_to, d) (generate_derivatives s) -> den (dv_expr d) rho = - den (fst (tt_to t)) rho) /\
  (forall d, In (Li_to, d) (generate_derivatives s) -> den (dv_expr d) rho = - den (snd (tt_to t)) rho) /\
  (forall l e d, In (l, e) (tt_equalities t) -> In (l, d) (generate_derivatives s) -> den (dv_expr d) rho = den e rho).
Proof.
  intros t s rho Hs Hi Hl Hnd.
  assert (Ha : exists s, tt_segment t = Some s) by eauto.
  apply tt_accepts in Ha as [A1 [A2 [A3 [A4 A5]]]].
  apply tt_segment_form in Hs as [Es _].
  assert (Hf : dual_free t).
  { intros l Hin. specialize (Hl l Hin).
    assert (K : forall e, incl (fsyms e) (tt_constants t ++ tt_variables t) -> ~ In l (fsyms e)).
    { intros e He Hx. apply Hl. apply only_declared_incl in He. exact (He l Hx). }
    apply only_declared_incl in Hi.
    split; [destruct (tt_objective t); auto|]. do 4 (split; [auto|]).
    intros [l' e] Hq. simpl. eauto. }
  destruct (tt_lagrange_rows t rho Hf Hnd) as [R1 [R2 [R3 [R4 R5]]]].
  repeat split; intros; match goal with H : In (_, ?d) (generate_derivatives s) |- _ =>
    apply generate_In in H as [_ ->]; rewrite dv_expr_gen, Es; auto end.
Qed.

(** the imaginary from-KCL escapes the check when to-KCLs are given *)
Definition leaky : two_terminal := {|
  tt_variables := [Vr_from; Vi_from; Vr_to; Vi_to];
  tt_constants := [];
  tt_kcl_r_from := Sym Vr_from;
  tt_kcl_i_from := Sym "typo";
  tt_kcl_to := Some (Sym Vr_from, Sym Vi_from);
  tt_equalities := [];
  tt_objective := None |}.

Lemma C06_leak : exists t s, tt_segment t = Some s /\ ~ only_declared t (tt_kcl_i_from t).
Proof.
  exists leaky, {| sg_lagrange := tt_lagrange leaky; sg_constants := []; sg_primals := tt_variables leaky;
     sg_duals := multipliers leaky |}. split; [reflexivity|].
  intros H. specialize (H "typo"%string (or_introl eq_refl)). destruct H as [H|H]; simpl in H; [tauto|].
  unfold Vr_from, Vi_from, Vr_to, Vi_to in H. intuition discriminate.
Qed.

Lemma C06_lemma : forall t, (exists s, tt_segment t = Some s) <->
  (forall o, tt_objective t = Some o -> only_declared t o) /\
  only_declared t (tt_kcl_r_from t) /\
  only_declared t (fst (tt_to t)) /\ only_declared t (snd (tt_to t)) /\
  (forall l e, In (l, e) (tt_equalities t) -> only_declared t e).
Proof.
  intros t. rewrite tt_accepts. setoid_rewrite only_declared_incl. tauto.
Qed.

Lemma C05_cancel_lemma : forall t s rho dr di tr ti,
  tt_segment t = Some s -> tt_kcl_to t = None ->
  (forall l, In l (multipliers t) -> ~ declared t l) -> NoDup (multipliers t) ->
  In (Lr_from, dr) (generate_derivatives s) -> In (Li_from, di) (generate_derivatives s) ->
  In (Lr_to, tr) (generate_derivatives s) -> In (Li_to, ti) (generate_derivatives s) ->
  den (dv_expr dr) rho + den (dv_expr tr) rho = 0 /\ den (dv_expr di) rho + den (dv_expr ti) rho = 0.
Proof.
  intros t s rho dr di tr ti Hs Hto Hl Hnd H1 H2 H3 H4.
  assert (Hi : only_declared t (tt_kcl_i_from t)).
  { assert (Ha : exists s, tt_segment t = Some s) by eauto. apply C06_lemma in Ha as [_ [_ [_ [A4 _]]]].
    unfold tt_to in A4. rewrite Hto in A4. exact A4. }
  destruct (C05_lemma t s rho Hs Hi Hl Hnd) as [R1 [R2 [R3 [R4 _]]]].
  rewrite (R1 _ H1), (R2 _ H2), (R3 _ H3), (R4 _ H4). unfold tt_to. rewrite Hto. simpl. lra.
Qed.
