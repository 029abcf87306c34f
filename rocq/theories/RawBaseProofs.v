(** Lemmas about single records of a RAW case and about the loops that only append. *)
From Coq Require Import Reals ZArith List Bool Lra Lia.
From Verif Require Import Components RawTransformers RawParser SpecRaw.
Import ListNotations.
Local Open Scope R_scope.

Lemma rltb_spec : forall x y, if rltb x y then x < y else ~ x < y.
Proof. intros. unfold rltb. destruct (Rlt_dec x y); auto. Qed.
Lemma rltb_iff : forall x y, rltb x y = true <-> x < y.
Proof. intros. unfold rltb. destruct (Rlt_dec x y); split; intros; auto; discriminate || contradiction. Qed.
Lemma rltb_niff : forall x y, rltb x y = false <-> ~ x < y.
Proof. intros. unfold rltb. destruct (Rlt_dec x y); split; intros; auto; discriminate || contradiction. Qed.
Lemma reqb_iff : forall x y, reqb x y = true <-> x = y.
Proof. intros. unfold reqb. destruct (Req_EM_T x y); split; intros; auto; discriminate || contradiction. Qed.
Lemma reqb_niff : forall x y, reqb x y = false <-> x <> y.
Proof. intros. unfold reqb. destruct (Req_EM_T x y); split; intros; auto; discriminate || contradiction. Qed.
Lemma rltb_t : forall x y, x < y -> rltb x y = true.
Proof. intros. apply rltb_iff; auto. Qed.
Lemma rltb_f : forall x y, y <= x -> rltb x y = false.
Proof. intros. apply rltb_niff. lra. Qed.
Lemma reqb_t : forall x y, x = y -> reqb x y = true.
Proof. intros. apply reqb_iff; auto. Qed.
Lemma reqb_f : forall x y, x <> y -> reqb x y = false.
Proof. intros. apply reqb_niff; auto. Qed.

Lemma pbind_ok : forall A B (m : pres A) (f : A -> pres B) b,
  pbind m f = Ok b <-> exists a, m = Ok a /\ f a = Ok b.
Proof.
  intros A B [a|e] f b; simpl; split.
  - intros H. exists a. auto.
  - intros (a' & H & H'). injection H as <-. auto.
  - discriminate.
  - intros (a' & H & _). discriminate.
Qed.
Lemma guard_ok : forall b e u, guard b e = Ok u <-> b = true.
Proof. intros [|] e []; simpl; split; congruence. Qed.
Lemma pdiv_ok : forall x y z, pdiv x y = Ok z <-> y <> 0 /\ z = x / y.
Proof.
  intros. unfold pdiv. destruct (reqb y 0) eqn:E.
  - apply reqb_iff in E. split; [discriminate|intros (H & _); contradiction].
  - apply reqb_niff in E. split; [intros H; injection H as <-; auto|intros (_ & ->); auto].
Qed.
Lemma psqrt_ok : forall x z, psqrt x = Ok z <-> 0 <= x /\ z = sqrt x.
Proof.
  intros. unfold psqrt. destruct (rltb x 0) eqn:E.
  - apply rltb_iff in E. split; [discriminate|intros (H & _); lra].
  - apply rltb_niff in E. split; [intros H; injection H as <-; split; [lra|auto]|intros (_ & ->); auto].
Qed.

Lemma memz_iff : forall n l, memz n l = true <-> In n l.
Proof.
  intros. unfold memz. rewrite existsb_exists. split.
  - intros (x & H & E). apply Z.eqb_eq in E. subst. auto.
  - intros H. exists n. split; [auto|apply Z.eqb_refl].
Qed.
Lemma memz_niff : forall n l, memz n l = false <-> ~ In n l.
Proof. intros. rewrite <- memz_iff. destruct (memz n l); split; congruence. Qed.

Section Case.
Variable c : raw_case.
Notation bs := (rc_buses c).

Lemma typed_iff : forall n ty, existsb (fun b => Z.eqb (b_num b) n && Z.eqb (b_ide b) ty) bs = true <-> has_type c n ty.
Proof.
  intros. rewrite existsb_exists. unfold has_type, bus_at. split.
  - intros (b & H & E). apply andb_prop in E as [E1 E2]. apply Z.eqb_eq in E1, E2. exists b. auto.
  - intros (b & (H & E1) & E2). exists b. rewrite E1, E2, !Z.eqb_refl. auto.
Qed.
Lemma typed_niff : forall n ty, existsb (fun b => Z.eqb (b_num b) n && Z.eqb (b_ide b) ty) bs = false <-> ~ has_type c n ty.
Proof. intros. rewrite <- typed_iff. destruct existsb; split; congruence. Qed.
Lemma has_type_dec : forall n ty, has_type c n ty \/ ~ has_type c n ty.
Proof. intros. rewrite <- typed_iff. destruct existsb; auto. Qed.
Lemma online_iff : forall n, online bs n = true <-> exists_online c n.
Proof.
  intros. unfold online. rewrite existsb_exists. unfold exists_online, bus_at. split.
  - intros (b & H & E). apply andb_prop in E as [E1 E2]. apply Z.eqb_eq in E1.
    exists b. repeat split; auto. intros E. rewrite E, Z.eqb_refl in E2. discriminate.
  - intros (b & (H & E1) & E2). exists b. split; [auto|]. rewrite E1, Z.eqb_refl. simpl.
    destruct (Z.eqb_spec (b_ide b) 4); [contradiction|auto].
Qed.
Lemma bus_key_ok : forall n m, bus_key bs n = Ok m <-> exists_online c n /\ m = n.
Proof.
  intros. unfold bus_key. rewrite <- online_iff. destruct (online bs n); split; intros H.
  - injection H as <-. auto.
  - destruct H as (_ & ->). auto.
  - discriminate.
  - destruct H. discriminate.
Qed.

Hypothesis UNI : NoDup (map b_num bs).

Lemma bus_unique : forall n b b', bus_at c n b -> bus_at c n b' -> b = b'.
Proof.
  unfold bus_at. intros n b b' (H & E) (H' & E'). revert UNI H H'. generalize bs as l.
  induction l as [|x l IH]; simpl; [intros _ []|]. intros ND [<-|H] [<-|H']; auto; inversion ND; subst.
  - exfalso. match goal with N : ~ In _ _ |- _ => apply N end. rewrite <- E'. apply in_map. auto.
  - exfalso. match goal with N : ~ In _ _ |- _ => apply N end. apply in_map_iff. exists b. split; [congruence|auto].
  - apply IH; auto.
Qed.
Lemma has_type_unique : forall n a b, has_type c n a -> has_type c n b -> a = b.
Proof. intros n a b (x & Hx & <-) (y & Hy & <-). rewrite (bus_unique _ _ _ Hx Hy). auto. Qed.
Lemma has_type_online : forall n ty, has_type c n ty -> ty <> 4%Z -> exists_online c n.
Proof. intros n ty (b & H & E) N. exists b. split; [auto|congruence]. Qed.
Lemma bus_data_ok : forall n b, bus_data bs n = Ok b <-> bus_at c n b.
Proof.
  intros. unfold bus_data. destruct (find _ bs) as [x|] eqn:E.
  - apply find_some in E as (H & E). apply Z.eqb_eq in E. split; intros H'.
    + injection H' as <-. split; auto.
    + f_equal. apply (bus_unique n); [split; auto|auto].
  - split; [discriminate|]. intros (H & E'). exfalso. pose proof (find_none _ _ E _ H) as F. simpl in F.
    rewrite E', Z.eqb_refl in F. discriminate.
Qed.

(** generators *)
Lemma sgn_np : forall x, sgn_is x (np_sign x).
Proof.
  intros. unfold sgn_is, np_sign. destruct (rltb x 0) eqn:A; [apply rltb_iff in A; auto|].
  apply rltb_niff in A. destruct (rltb 0 x) eqn:B; [apply rltb_iff in B; auto|].
  apply rltb_niff in B. right; left. split; [lra|auto].
Qed.
Lemma sgn_fun : forall x a b, sgn_is x a -> sgn_is x b -> a = b.
Proof. unfold sgn_is. intros. lra. Qed.
Lemma limits_fun : forall g a b a' b', limits g a b -> limits g a' b' -> a = a' /\ b = b'.
Proof.
  intros g a b a' b' (H1 & H2) (H1' & H2'). destruct (Z.eq_dec (g_wmod g) 3) as [E|E].
  - destruct (H2 E) as (s & Hs & -> & P & N). destruct (H2' E) as (s' & Hs' & -> & P' & N').
    rewrite <- (sgn_fun _ _ _ Hs Hs') in *. destruct (Rlt_le_dec 0 (g_wpf g)) as [L|L].
    + rewrite (P L), (P' L). auto.
    + rewrite (N L), (N' L). auto.
  - destruct (H1 E) as (-> & ->), (H1' E) as (-> & ->). auto.
Qed.
Lemma output_fun : forall g t b q q', output_q g t b q -> output_q g t b q' -> q = q'.
Proof.
  intros g t b q q' (H & N) (H' & N'). unfold narrow in *. destruct (Rlt_dec (Rabs (t - b)) (1 / 1000000)) as [L|L].
  - rewrite H, H'; auto.
  - rewrite N, N'; auto.
Qed.

Definition wind_fine (g : raw_gen) : Prop :=
  g_wmod g = 2%Z \/ g_wmod g = 3%Z ->
  g_wpf g <> 0 /\ 0 <= (g_pg g / g_wpf g) * (g_pg g / g_wpf g) - g_pg g * g_pg g.

Lemma wind_q_ok : forall p w q, wind_q p w = Ok q <-> (w <> 0 /\ 0 <= (p / w) * (p / w) - p * p) /\ q = pf_power p w.
Proof.
  intros. unfold wind_q. rewrite pbind_ok. split.
  - intros (a & H & H'). apply pdiv_ok in H as (H & ->). apply psqrt_ok in H' as (H' & ->). auto.
  - intros ((H & H') & ->). exists (p / w). split; [apply pdiv_ok; auto|apply psqrt_ok; auto].
Qed.

Lemma gen_data_ok : forall g q, gen_data_of g = Ok q ->
  wind_fine g /\ limits g (q_qt q) (q_qb q) /\ output_q g (q_qt q) (q_qb q) (q_qg q).
Proof.
  intros g q H. unfold gen_data_of, gen_data in H. apply pbind_ok in H as ([t b] & H & E).
  injection E as <-. cbn [q_qt q_qb q_qg].
  assert (O : output_q g t b (if rltb (Rabs (t - b)) (1 / 1000000) then t else g_qg g)).
  { unfold output_q, narrow. destruct (rltb (Rabs (t - b)) (1 / 1000000)) eqn:L.
    - apply rltb_iff in L. split; [auto|intros N; contradiction].
    - apply rltb_niff in L. split; [intros N; contradiction|auto]. }
  unfold wind_fine, limits. destruct (Z.eqb_spec (g_wmod g) 2) as [E2|E2].
  - apply pbind_ok in H as (u & H & E). injection E as <- <-. apply wind_q_ok in H as (H & _).
    split; [auto|split; [|auto]]. rewrite E2. split; [auto|discriminate].
  - destruct (Z.eqb_spec (g_wmod g) 3) as [E3|E3].
    + apply pbind_ok in H as (u & H & E). apply wind_q_ok in H as (H & ->). injection E as <- <-.
      split; [auto|split; [|auto]]. split; [contradiction|]. intros _. exists (np_sign (g_pg g)).
      split; [apply sgn_np|split; [auto|]]. split; intros L.
      * rewrite rltb_t by auto. auto.
      * rewrite rltb_f by auto. auto.
    + injection H as <- <-. split; [intros [?|?]; contradiction|split; [|auto]].
      split; [auto|contradiction].
Qed.
Lemma gen_data_total : forall g, wind_fine g -> exists q, gen_data_of g = Ok q.
Proof.
  intros g W. unfold gen_data_of, gen_data, wind_fine in *.
  destruct (Z.eqb_spec (g_wmod g) 2) as [E2|E2].
  - assert (H : exists u, wind_q (g_pg g) (g_wpf g) = Ok u) by (eexists; apply wind_q_ok; auto).
    destruct H as (u & ->). simpl. eauto.
  - destruct (Z.eqb_spec (g_wmod g) 3) as [E3|E3]; [|simpl; eauto].
    assert (H : exists u, wind_q (g_pg g) (g_wpf g) = Ok u) by (eexists; apply wind_q_ok; auto).
    destruct H as (u & ->). simpl. eauto.
Qed.

Lemma almost_iff : forall a b, almost_equal a b = true <-> narrow a b.
Proof. intros. unfold almost_equal, narrow. rewrite rltb_iff, Rabs_minus_sym. tauto. Qed.

Lemma slack_bus_iff : forall n, slack_bus bs n = true <-> has_type c n 3.
Proof. intros. apply typed_iff. Qed.
Lemma pv_bus_iff : forall n, pv_bus bs n = true <-> has_type c n 2.
Proof. intros. apply typed_iff. Qed.
Lemma offline_iff : forall n, offline bs n = true <-> isolated c n.
Proof. intros. apply typed_iff. Qed.
Lemma offline_niff : forall n, offline bs n = false <-> ~ isolated c n.
Proof. intros. apply typed_niff. Qed.

End Case.

(** [collects] *)
Section Collects.
Context {A B : Type}.
Variables (P : A -> Prop) (R : A -> B -> Prop).
Lemma collects_app : forall l out, collects P R l out -> forall l' out', collects P R l' out' -> collects P R (l ++ l') (out ++ out').
Proof. induction 1; intros; simpl; auto; [apply col_take|apply col_skip]; auto. Qed.
Lemma collects_snoc : forall l out a b, collects P R l out -> P a -> R a b -> collects P R (l ++ [a]) (out ++ [b]).
Proof. intros. apply collects_app; auto. apply col_take; auto. constructor. Qed.
Lemma collects_snoc_skip : forall l out a, collects P R l out -> ~ P a -> collects P R (l ++ [a]) out.
Proof. intros. rewrite <- (app_nil_r out). apply collects_app; auto. apply col_skip; auto. constructor. Qed.
Lemma collects_fun : (forall a b b', P a -> R a b -> R a b' -> b = b') ->
  forall l out, collects P R l out -> forall out', collects P R l out' -> out = out'.
Proof.
  intros F. induction 1; intros out' H'; inversion H'; subst; auto; try contradiction.
  f_equal; eauto.
Qed.
Lemma collects_in : forall l out b, collects P R l out -> In b out -> exists a, In a l /\ P a /\ R a b.
Proof. induction 1; simpl; intros H'; [contradiction|destruct H' as [<-|H']; eauto|]. - destruct (IHcollects H') as (x & ? & ?); eauto. - destruct (IHcollects H') as (x & ? & ?); eauto. Qed.
Lemma collects_all : forall l out a, collects P R l out -> In a l -> P a -> exists b, In b out /\ R a b.
Proof.
  induction 1; simpl; intros H' HP; [contradiction| |].
  - destruct H' as [<-|H']; [eauto|]. destruct (IHcollects H' HP) as (x & ? & ?); eauto.
  - destruct H' as [<-|H']; [contradiction|]. eauto.
Qed.
Lemma collects_app_inv : forall l1 l2 out, collects P R (l1 ++ l2) out ->
  exists o1 o2, out = o1 ++ o2 /\ collects P R l1 o1 /\ collects P R l2 o2.
Proof.
  induction l1 as [|x l1 IH]; simpl; intros l2 out H.
  - exists [], out. split; [auto|split; [constructor|auto]].
  - inversion H as [|? b ? out' HP HR HC|? ? ? HP HC]; subst.
    + destruct (IH _ _ HC) as (o1 & o2 & -> & C1 & C2). exists (b :: o1), o2. split; [auto|split; [apply col_take; auto|auto]].
    + destruct (IH _ _ HC) as (o1 & o2 & -> & C1 & C2). exists o1, o2. split; [auto|split; [apply col_skip; auto|auto]].
Qed.
End Collects.
Lemma collects_impl : forall A B (P P' : A -> Prop) (R R' : A -> B -> Prop) l out,
  (forall a, In a l -> (P a <-> P' a)) -> (forall a b, In a l -> P a -> R a b -> R' a b) -> collects P R l out -> collects P' R' l out.
Proof.
  intros A B P P' R R' l out HP HR H. induction H.
  - constructor.
  - apply col_take; [apply HP; simpl; auto|apply HR; simpl; auto|apply IHcollects; simpl; intros; [apply HP|apply HR]; simpl; auto].
  - apply col_skip; [rewrite <- HP; simpl; auto|apply IHcollects; simpl; intros; [apply HP|apply HR]; simpl; auto].
Qed.

(** loops whose state is the list of created elements *)
Lemma mfold_collect : forall A B (f : list B -> A -> pres (list B)) (P ok : A -> Prop) (R : A -> B -> Prop),
  (forall acc a r, f acc a = Ok r <-> ok a /\ ((P a /\ exists b, R a b /\ r = acc ++ [b]) \/ (~ P a /\ r = acc))) ->
  forall l acc r, mfold f l acc = Ok r <-> Forall ok l /\ exists out, r = acc ++ out /\ collects P R l out.
Proof.
  intros A B f P ok R F. induction l as [|a l IH]; simpl; intros acc r.
  - split.
    + intros H. injection H as <-. split; [constructor|]. exists []. rewrite app_nil_r. split; [auto|constructor].
    + intros (_ & out & -> & H). inversion H; subst. rewrite app_nil_r. auto.
  - rewrite pbind_ok. split.
    + intros (s & H & H'). apply F in H as (Hok & H). apply IH in H' as (Hall & out & -> & Hc).
      split; [constructor; auto|]. destruct H as [(HP & b & HR & ->)|(HP & ->)].
      * exists (b :: out). rewrite <- app_assoc. split; [auto|apply col_take; auto].
      * exists out. split; [auto|apply col_skip; auto].
    + intros (Hall & out & -> & Hc). inversion Hall; subst. inversion Hc; subst.
      * exists (acc ++ [b]). split; [apply F; split; [auto|left; eauto]|].
        apply IH. split; [auto|]. exists out0. rewrite <- app_assoc. auto.
      * exists acc. split; [apply F; split; [auto|right; auto]|]. apply IH. eauto.
Qed.
Lemma mfold_app : forall S X (f : S -> X -> pres S) l1 l2 s, mfold f (l1 ++ l2) s = pbind (mfold f l1 s) (mfold f l2).
Proof. induction l1; simpl; intros; auto. destruct (f s a); simpl; auto. Qed.
