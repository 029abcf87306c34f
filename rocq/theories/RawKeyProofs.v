(** Lemmas about the dictionaries of Data.py: the order of the keys, the last record of a key, sorting. *)
From Coq Require Import ZArith String Ascii List Bool Lia.
From Verif Require Import RawText SpecRawText.
Import ListNotations.
Local Open Scope string_scope.

Lemma text_compare : forall s t, CompareSpec (s = t) (text_lt s t) (text_lt t s) (String.compare s t).
Proof.
  induction s as [|c s IH]; intros [|d t]; cbn; try (constructor; constructor).
  unfold Ascii.compare. destruct (N.compare_spec (N_of_ascii c) (N_of_ascii d)) as [E|E|E].
  - apply (f_equal ascii_of_N) in E. rewrite !ascii_N_embedding in E. subst d.
    destruct (IH t); constructor; [subst; reflexivity | apply text_later; assumption | apply text_later; assumption].
  - constructor. apply text_char. unfold nat_of_ascii. lia.
  - constructor. apply text_char. unfold nat_of_ascii. lia.
Qed.
Lemma text_lt_irrefl : forall s, ~ text_lt s s.
Proof. induction s; intro H; inversion H; subst; [lia | auto]. Qed.
Lemma text_lt_trans : forall s t u, text_lt s t -> text_lt t u -> text_lt s u.
Proof.
  intros s t u H; revert u. induction H; intros u K; inversion K; subst.
  - constructor.
  - constructor.
  - apply text_char. lia.
  - apply text_char. assumption.
  - apply text_char. assumption.
  - apply text_later. auto.
Qed.
Lemma atom_compare_spec : forall a b, CompareSpec (a = b) (atom_lt a b) (atom_lt b a) (atom_compare a b).
Proof.
  intros [m|s|] [n|t|]; cbn; try (constructor; exact I).
  - destruct (Z.compare_spec m n); constructor; try congruence; assumption.
  - destruct (text_compare s t); constructor; try congruence; assumption.
  - constructor. reflexivity.
Qed.
Lemma atom_lt_irrefl : forall a, ~ atom_lt a a.
Proof. intros [m|s|]; cbn; [lia | apply text_lt_irrefl | tauto]. Qed.
Lemma atom_lt_trans : forall a b c, atom_lt a b -> atom_lt b c -> atom_lt a c.
Proof. intros [m|s|] [n|t|] [o|u|]; cbn; try tauto; [lia | apply text_lt_trans]. Qed.
Lemma key_compare_spec : forall a b, CompareSpec (a = b) (key_lt a b) (key_lt b a) (key_compare a b).
Proof.
  induction a as [|x a IH]; intros [|y b]; cbn; try (constructor; constructor).
  destruct (atom_compare_spec x y) as [E|E|E].
  - subst y. destruct (IH b); constructor; [congruence | apply key_next; assumption | apply key_next; assumption].
  - constructor. apply key_first. assumption.
  - constructor. apply key_first. assumption.
Qed.
Lemma key_lt_irrefl : forall a, ~ key_lt a a.
Proof. induction a as [|x a IH]; intro H; inversion H; subst; [eapply atom_lt_irrefl; eassumption | auto]. Qed.
Lemma key_lt_trans : forall a b c, key_lt a b -> key_lt b c -> key_lt a c.
Proof.
  intros a b c H; revert c. induction H; intros c K; inversion K; subst.
  - constructor.
  - constructor.
  - apply key_first. eapply atom_lt_trans; eassumption.
  - apply key_first. assumption.
  - apply key_first. assumption.
  - apply key_next. auto.
Qed.
Lemma atom_eqb_iff : forall a b, atom_eqb a b = true <-> a = b.
Proof.
  intros [m|s|] [n|t|]; cbn; split; intro H; try discriminate; try reflexivity.
  - apply Z.eqb_eq in H. congruence.
  - injection H as ->. apply Z.eqb_refl.
  - apply String.eqb_eq in H. congruence.
  - injection H as ->. apply String.eqb_refl.
Qed.
Lemma key_eqb_iff : forall a b, key_eqb a b = true <-> a = b.
Proof.
  induction a as [|x a IH]; intros [|y b]; cbn; split; intro H; try discriminate; try reflexivity.
  - apply andb_true_iff in H as [H1 H2]. apply atom_eqb_iff in H1. apply IH in H2. congruence.
  - injection H as -> ->. apply andb_true_iff. split; [apply atom_eqb_iff; reflexivity | apply IH; reflexivity].
Qed.
Lemma key_eqb_neq : forall a b, key_eqb a b = false <-> a <> b.
Proof. intros a b. rewrite <- not_true_iff_false, key_eqb_iff. tauto. Qed.

Section Tables.
Variable A : Type.
Definition keys (d : table A) : list key := map fst d.
Lemma put_keys : forall k v (d : table A) k', In k' (keys (put k v d)) <-> k' = k \/ In k' (keys d).
Proof.
  induction d as [|[k1 v1] d IH]; cbn; intros k'.
  - split; intros [H|H]; auto; contradiction.
  - destruct (key_eqb k k1) eqn:E; cbn.
    + apply key_eqb_iff in E. subst k1. split; intuition.
    + rewrite IH. split; intuition.
Qed.
Lemma put_nodup : forall k v (d : table A), NoDup (keys d) -> NoDup (keys (put k v d)).
Proof.
  induction d as [|[k1 v1] d IH]; cbn; intros N.
  - constructor; [intros [] | constructor].
  - apply NoDup_cons_iff in N as [N1 N2]. destruct (key_eqb k k1) eqn:E; cbn; constructor; auto.
    intro H. apply put_keys in H as [->|H]; [|auto]. apply key_eqb_neq in E. apply E. reflexivity.
Qed.
Lemma put_in : forall k v (d : table A) k' x, NoDup (keys d) ->
  (In (k', x) (put k v d) <-> (k' = k /\ x = v) \/ (k' <> k /\ In (k', x) d)).
Proof.
  induction d as [|[k1 v1] d IH]; cbn; intros k' x N.
  - split.
    + intros [H|[]]. injection H as -> ->. left. auto.
    + intros [[-> ->]|[_ []]]. left. reflexivity.
  - apply NoDup_cons_iff in N as [N1 N2]. destruct (key_eqb k k1) eqn:E; cbn.
    + apply key_eqb_iff in E. subst k1. split.
      * intros [H|H].
        -- injection H as -> ->. left. auto.
        -- right. split; [intros ->; apply N1; apply (in_map fst) in H; exact H | right; exact H].
      * intros [[-> ->]|[H1 [H2|H2]]]; [left; reflexivity | congruence | right; exact H2].
    + apply key_eqb_neq in E. rewrite (IH k' x N2). split.
      * intros [H|[[-> ->]|[H1 H2]]].
        -- injection H as -> ->. right. split; [congruence | left; reflexivity].
        -- left. auto.
        -- right. auto.
      * intros [[-> ->]|[H1 [H2|H2]]]; [right; left; auto | left; exact H2 | right; right; auto].
Qed.
Definition puts (es : list (key * A)) (d : table A) : table A := fold_left (fun d e => put (fst e) (snd e) d) es d.
Lemma puts_nodup : forall es d, NoDup (keys d) -> NoDup (keys (puts es d)).
Proof. induction es as [|[k v] es IH]; cbn; intros d N; [exact N | apply IH, put_nodup, N]. Qed.
Lemma puts_in : forall es d k x, NoDup (keys d) ->
  (In (k, x) (puts es d) <-> last_with_key es k x \/ (~ In k (map fst es) /\ In (k, x) d)).
Proof.
  induction es as [|[k1 v1] es IH]; cbn; intros d k x N.
  - split; [intro H; right; split; [intros [] | exact H] |].
    intros [(b & a & E & _)|[_ H]]; [destruct b; discriminate | exact H].
  - rewrite (IH _ k x (put_nodup k1 v1 d N)), (put_in k1 v1 d k x N). split.
    + intros [(b & a & -> & L)|[H1 [[-> ->]|[H2 H3]]]].
      * left. exists ((k1, v1) :: b), a. split; [reflexivity | exact L].
      * left. exists [], es. split; [reflexivity|]. intros y Hy. apply H1. apply (in_map fst) in Hy. exact Hy.
      * right. split; [intros [->|H]; [apply H2; reflexivity | exact (H1 H)] | exact H3].
    + intros [(b & a & E & L)|[H1 H2]].
      * destruct b as [|e b]; cbn in E; injection E.
        -- intros Ee Ek Ev. subst. right. split; [|left; auto].
           intro H. apply in_map_iff in H as ((k0, y) & <- & Hy). exact (L y Hy).
        -- intros Ee Eb. subst. left. exists b, a. split; [reflexivity | exact L].
      * right. split; [intro H; apply H1; right; exact H|]. right. split; [intros ->; apply H1; left; reflexivity | exact H2].
Qed.
Lemma puts_last : forall es k x, In (k, x) (puts es []) <-> last_with_key es k x.
Proof.
  intros es k x. rewrite (puts_in es [] k x (NoDup_nil _)). split; [intros [H|[_ []]]; exact H | auto].
Qed.
Lemma insert_in : forall (e f : key * A) l, In f (insert e l) <-> f = e \/ In f l.
Proof.
  induction l as [|g l IH]; cbn; [split; intros [H|H]; auto; contradiction|].
  destruct (key_compare (fst e) (fst g)); cbn; try rewrite IH; split; intuition.
Qed.
Lemma sort_in : forall (l : table A) f, In f (sort l) <-> In f l.
Proof. induction l as [|e l IH]; cbn; intros f; [tauto|]. rewrite insert_in, IH. split; intuition. Qed.
Inductive rising : table A -> Prop :=
| rising_nil : rising []
| rising_cons : forall e l, rising l -> (forall f, In f l -> key_lt (fst e) (fst f)) -> rising (e :: l).
Lemma insert_rising : forall e l, rising l -> ~ In (fst e) (keys l) -> rising (insert e l).
Proof.
  induction 1 as [|g l R IH M]; cbn; intros N; [constructor; [constructor | intros f []]|].
  destruct (key_compare_spec (fst e) (fst g)) as [E|E|E].
  - exfalso. apply N. left. symmetry. exact E.
  - constructor; [constructor; assumption|]. intros f [<-|Hf]; [exact E | eapply key_lt_trans; [exact E | exact (M f Hf)]].
  - constructor; [apply IH; intro H; apply N; right; exact H|].
    intros f Hf. apply insert_in in Hf as [->|Hf]; [exact E | exact (M f Hf)].
Qed.
Lemma sort_rising : forall l : table A, NoDup (keys l) -> rising (sort l).
Proof.
  induction l as [|e l IH]; cbn; intros N; [constructor|]. apply NoDup_cons_iff in N as [N1 N2].
  apply insert_rising; [auto|]. intro H. apply N1. apply in_map_iff in H as (f & E & Hf). apply (proj1 (sort_in l f)) in Hf.
  unfold keys. rewrite <- E. exact (in_map fst _ _ Hf).
Qed.
Lemma rising_nth : forall l, rising l <-> (forall i j a b, (i < j)%nat -> nth_error l i = Some a -> nth_error l j = Some b -> key_lt (fst a) (fst b)).
Proof.
  induction l as [|e l IH]; split; intros H.
  - intros i j a b _ E. destruct i; discriminate E.
  - constructor.
  - inversion H; subst. intros [|i] [|j] a b L Ea Eb; cbn in *; try lia.
    + injection Ea as <-. apply nth_error_In in Eb. auto.
    + apply (proj1 IH H2 i j); [lia | assumption | assumption].
  - constructor.
    + apply IH. intros i j a b L Ea Eb. apply (H (S i) (S j)); [lia | assumption | assumption].
    + intros f Hf. apply In_nth_error in Hf as (j & Ej). apply (H 0%nat (S j)); [lia | reflexivity | exact Ej].
Qed.
Lemma rising_unique : forall l m, rising l -> rising m -> (forall e, In e l <-> In e m) -> l = m.
Proof.
  induction l as [|e l IH]; intros m Rl Rm H.
  - destruct m as [|f m]; [reflexivity|]. exfalso. apply (proj2 (H f)). left. reflexivity.
  - inversion Rl as [|? ? Rl' Ml]; subst. destruct m as [|f m].
    { exfalso. apply (proj1 (H e)). left. reflexivity. }
    inversion Rm as [|? ? Rm' Mm]; subst.
    assert (E : e = f).
    { destruct (proj1 (H e) (or_introl eq_refl)) as [E|E]; [congruence|].
      destruct (proj2 (H f) (or_introl eq_refl)) as [F|F]; [congruence|].
      exfalso. apply (key_lt_irrefl (fst e)). eapply key_lt_trans; [exact (Ml f F) | exact (Mm e E)]. }
    subst f. f_equal. apply IH; [assumption | assumption|]. intros g. split; intros G.
    + destruct (proj1 (H g) (or_intror G)) as [<-|K]; [|exact K]. exfalso. exact (key_lt_irrefl _ (Ml _ G)).
    + destruct (proj2 (H g) (or_intror G)) as [<-|K]; [|exact K]. exfalso. exact (key_lt_irrefl _ (Mm _ G)).
Qed.
Lemma collected_sort : forall es : list (key * A), collected es (values (puts es [])).
Proof.
  intros es. exists (sort (puts es [])). split; [reflexivity|]. split.
  - apply rising_nth, sort_rising, puts_nodup, NoDup_nil.
  - intros k x. rewrite sort_in. apply puts_last.
Qed.
Lemma collected_unique : forall (es : list (key * A)) o1 o2, collected es o1 -> collected es o2 -> o1 = o2.
Proof.
  intros es o1 o2 (l & -> & R1 & M1) (m & -> & R2 & M2). f_equal. apply rising_unique.
  - apply rising_nth. exact R1.
  - apply rising_nth. exact R2.
  - intros [k x]. rewrite M1, M2. tauto.
Qed.
Lemma last_with_key_nodup : forall (es : list (key * A)) k x, NoDup (map fst es) -> (last_with_key es k x <-> In (k, x) es).
Proof.
  intros es k x N. split.
  - intros (b & a & -> & _). apply in_or_app. right. left. reflexivity.
  - intros H. apply in_split in H as (b & a & ->). exists b, a. split; [reflexivity|]. intros y Hy.
    rewrite map_app in N. apply NoDup_remove_2 in N. apply N. apply in_or_app. right. apply (in_map fst) in Hy. exact Hy.
Qed.
End Tables.
