From Coq Require Import List Bool Arith Reals Lra Lia Permutation.
From Verif Require Import Residual SpecResidual.
Import ListNotations.

Section R1.
Local Open Scope R_scope.
Context {M : Type}.

Lemma add_at_some : forall l i v, (i < length l)%nat -> exists l', add_at l i v = Some l'.
Proof.
  induction l; simpl; intros i v H; [lia|]. destruct i; simpl; [eauto|].
  destruct (IHl i v ltac:(lia)) as [l' E]. rewrite E. simpl. eauto.
Qed.

Lemma add_at_spec : forall l i v l', add_at l i v = Some l' ->
  length l' = length l /\ (i < length l)%nat /\
  forall j, nth j l' 0 = nth j l 0 + (if Nat.eqb i j then v else 0).
Proof.
  induction l as [|x l IH]; simpl; intros i v l' H; [discriminate|].
  destruct i as [|i].
  - injection H as <-. repeat split; simpl; try lia. intros [|j]; simpl; ring.
  - destruct (add_at l i v) as [l1|] eqn:E; [|discriminate]. injection H as <-.
    destruct (IH _ _ _ E) as [A [B C]]. repeat split; simpl; try lia.
    intros [|j]; simpl; [ring|]. apply C.
Qed.

Lemma acc_none : forall (cs : list (M * nat * R)), fold_left (fun acc c => match acc with
    | Some l => add_at l (snd (fst c)) (snd c) | None => None end) cs None = None.
Proof. induction cs; simpl; auto. Qed.

Lemma acc_spec : forall (cs : list (M * nat * R)) l0 l,
  fold_left (fun acc c => match acc with
    | Some l => add_at l (snd (fst c)) (snd c) | None => None end) cs (Some l0) = Some l ->
  length l = length l0 /\ (forall c, In c cs -> (snd (fst c) < length l0)%nat) /\
  forall j, nth j l 0 = nth j l0 0 + row_sum cs j.
Proof.
  induction cs as [|[[m i] v] cs IH]; intros l0 l H; cbn [fold_left] in H.
  - injection H as <-. repeat split; auto; [intros c []|]. intros; simpl; ring.
  - cbn [fst snd] in H. destruct (add_at l0 i v) as [l1|] eqn:E; [|rewrite acc_none in H; discriminate].
    destruct (add_at_spec _ _ _ _ E) as [A [B C]]. destruct (IH _ _ H) as [A' [B' C']].
    rewrite A in *. repeat split; auto.
    + intros c [<-|Hc]; simpl; auto.
    + intros j. rewrite C', C. simpl. ring.
Qed.

Lemma acc_total : forall (cs : list (M * nat * R)) l0, (forall c, In c cs -> (snd (fst c) < length l0)%nat) ->
  exists l, fold_left (fun acc c => match acc with
    | Some l => add_at l (snd (fst c)) (snd c) | None => None end) cs (Some l0) = Some l.
Proof.
  induction cs as [|[[m i] v] cs IH]; intros l0 H; simpl; [eauto|].
  destruct (add_at_some l0 i v) as [l1 E]. { apply (H (m, i, v)). now left. }
  rewrite E. apply IH. destruct (add_at_spec _ _ _ _ E) as [A _]. rewrite A. intros c Hc. apply H. now right.
Qed.

Lemma argmax_from_spec : forall l best bi i m k, argmax_from best bi i l = (m, k) -> (bi < i)%nat ->
  best <= m /\ (forall j, (j < length l)%nat -> nth j l 0 <= m) /\
  ((k = bi /\ m = best) \/ (exists j, (j < length l)%nat /\ k = (i + j)%nat /\ m = nth j l 0 /\ best < m /\
      forall j', (j' < j)%nat -> nth j' l 0 < m)).
Proof.
  induction l as [|x l IH]; intros best bi i m k H Hb; simpl in H.
  - injection H as <- <-. repeat split; simpl; try lra; intros; try lia. left; auto.
  - destruct (Rlt_dec best x) as [L|L].
    + destruct (IH _ _ _ _ _ H ltac:(lia)) as [A [B C]]. repeat split; try lra.
      * intros [|j] Hj; simpl in *; auto. apply B. lia.
      * right. destruct C as [[-> ->]|[j [Cj [Ck [Cm [Cl Cf]]]]]].
        -- exists 0%nat. simpl. repeat split; try lia; try lra; intros; lia.
        -- exists (S j). simpl. repeat split; try lia; try lra; auto.
           intros [|j'] Hj'; auto. apply Cf. lia.
    + destruct (IH _ _ _ _ _ H ltac:(lia)) as [A [B C]]. repeat split; try lra.
      * intros [|j] Hj; simpl in *; [lra|]. apply B. lia.
      * destruct C as [C|[j [Cj [Ck [Cm [Cl Cf]]]]]]; [left; auto|]. right.
        exists (S j). simpl. repeat split; try lia; try lra; auto.
        intros [|j'] Hj'; [lra|]. apply Cf. lia.
Qed.

Lemma argmax_spec : forall l m k, argmax l = Some (m, k) ->
  (k < length l)%nat /\ m = nth k l 0 /\ (forall j, (j < length l)%nat -> nth j l 0 <= m) /\
  (forall j, (j < k)%nat -> nth j l 0 < m).
Proof.
  intros [|x l] m k H; simpl in H; [discriminate|]. injection H as H.
  destruct (argmax_from_spec _ _ _ _ _ _ H ltac:(lia)) as [A [B C]].
  destruct C as [[-> ->]|[j [Cj [Ck [Cm [Cl Cf]]]]]].
  - repeat split; simpl; try lia; auto. intros [|j] Hj; simpl; [lra|]. apply B. simpl in Hj; lia.
  - subst k. repeat split; simpl; try lia; auto.
    + intros [|j'] Hj; simpl; [lra|]. apply B. simpl in Hj; lia.
    + intros [|j'] Hj; simpl; [lra|]. apply Cf. lia.
Qed.

Theorem residual_details_correct : forall (cs : list (M * nat * R)) n rd,
  mk_residual_details cs n = Some rd ->
  length (rd_residuals rd) = n /\
  (forall i, (i < n)%nat -> nth i (rd_residuals rd) 0 = row_sum cs i) /\
  (forall i, (i < n)%nat -> Rabs (row_sum cs i) <= rd_max rd) /\
  (rd_max_idx rd < n)%nat /\ Rabs (row_sum cs (rd_max_idx rd)) = rd_max rd /\
  (forall i, (i < rd_max_idx rd)%nat -> Rabs (row_sum cs i) < rd_max rd).
Proof.
  intros cs n rd H. unfold mk_residual_details in H.
  destruct (accumulate cs n) as [res|] eqn:Ea; [|discriminate].
  destruct (argmax (map Rabs res)) as [[m k]|] eqn:Em; [|discriminate]. injection H as <-. simpl.
  unfold accumulate in Ea. apply acc_spec in Ea as [A [B C]]. rewrite repeat_length in *.
  assert (Hv : forall i, nth i res 0 = row_sum cs i).
  { intros i. rewrite C. destruct (le_lt_dec n i).
    - rewrite nth_overflow by (rewrite repeat_length; auto). ring.
    - rewrite nth_repeat. ring. }
  apply argmax_spec in Em as [D [E [F G]]]. rewrite map_length, A in *.
  assert (Hm : forall i, nth i (map Rabs res) 0 = Rabs (row_sum cs i)).
  { intros i. rewrite <- Hv, <- (map_nth Rabs). now rewrite Rabs_R0. }
  repeat split; auto.
  - intros i Hi. rewrite <- Hm. auto.
  - rewrite E. now rewrite Hm.
  - intros i Hi. rewrite <- Hm. auto.
Qed.

Theorem residual_details_defined : forall (cs : list (M * nat * R)) n,
  (exists rd, mk_residual_details cs n = Some rd) <->
  (1 <= n)%nat /\ (forall c, In c cs -> (snd (fst c) < n)%nat).
Proof.
  intros cs n. split.
  - intros [rd H]. unfold mk_residual_details in H.
    destruct (accumulate cs n) as [res|] eqn:Ea; [|discriminate].
    unfold accumulate in Ea. apply acc_spec in Ea as [A [B C]]. rewrite repeat_length in *. split; auto.
    destruct res; [discriminate|]. simpl in A. lia.
  - intros [Hn Hc]. unfold mk_residual_details, accumulate.
    destruct (acc_total cs (repeat 0 n)) as [l E]. { now rewrite repeat_length. }
    rewrite E. apply acc_spec in E as [A _]. rewrite repeat_length in A.
    destruct l as [|x l]; [simpl in A; lia|]. simpl.
    destruct (argmax_from (Rabs x) 0 1 (map Rabs l)). eauto.
Qed.
End R1.

Section R2.
Context {K V : Type}.
Variable keqb : K -> K -> bool.
Hypothesis keqb_eq : forall a b, keqb a b = true <-> a = b.
Variable zero : V.
Variable add : V -> V -> V.
Hypothesis add_comm : forall a b, add a b = add b a.
Hypothesis add_assoc : forall a b c, add a (add b c) = add (add a b) c.
Hypothesis add_0_l : forall a, add zero a = a.
Notation value := (value_of keqb zero).
Notation has := (has_key keqb).

Lemma keqb_refl : forall a, keqb a a = true. Proof. intros. now apply keqb_eq. Qed.

Lemma add_0_r : forall a, add a zero = a. Proof. intros. now rewrite add_comm. Qed.

Lemma merge_key_spec : forall d k v x,
  value (merge_key keqb zero add d k v) x = add (value d x) (if keqb x k then v else zero) /\
  has (merge_key keqb zero add d k v) x = (has d x || keqb x k).
Proof.
  induction d as [|[k' w] d IH]; intros k v x; simpl.
  - split; [|now rewrite orb_false_r]. destruct (keqb x k); now rewrite ?add_0_l, ?add_0_r.
  - destruct (keqb k k') eqn:E.
    + apply keqb_eq in E. subst k'. simpl. split.
      * destruct (keqb x k); auto. now rewrite add_0_r.
      * unfold has_key. simpl. destruct (keqb x k), (existsb (fun kv => keqb x (fst kv)) d); auto.
    + simpl. destruct (IH k v x) as [I1 I2]. split.
      * destruct (keqb x k') eqn:E2; auto. apply keqb_eq in E2. subst x.
        assert (keqb k' k = false) as ->.
        { destruct (keqb k' k) eqn:E3; auto. apply keqb_eq in E3. subst. rewrite keqb_refl in E. discriminate. }
        now rewrite add_0_r.
      * unfold has_key in *. simpl. rewrite I2. now rewrite orb_assoc.
Qed.

Lemma merge_one_spec : forall input t x, unique_keys input ->
  value (fold_left (fun t kv => merge_key keqb zero add t (fst kv) (snd kv)) input t) x = add (value t x) (value input x) /\
  has (fold_left (fun t kv => merge_key keqb zero add t (fst kv) (snd kv)) input t) x = has t x || has input x.
Proof.
  induction input as [|[k v] input IH]; intros t x Hu; cbn [fold_left].
  - simpl. now rewrite add_0_r, orb_false_r.
  - unfold unique_keys in Hu. simpl in Hu. inversion Hu; subst.
    destruct (IH (merge_key keqb zero add t k v) x H2) as [I1 I2]. cbn [fst snd].
    destruct (merge_key_spec t k v x) as [J1 J2]. rewrite I1, I2, J1, J2. split.
    + simpl. destruct (keqb x k) eqn:E.
      * apply keqb_eq in E. subst x.
        assert (value input k = zero) as ->.
        { clear - H1 keqb_eq. induction input as [|[a b] l IHl]; simpl; auto. simpl in H1.
          destruct (keqb k a) eqn:E; [apply keqb_eq in E; subst; exfalso; auto|]. auto. }
        now rewrite add_0_r.
      * now rewrite add_0_r.
    + unfold has_key. simpl. now rewrite orb_assoc.
Qed.

Theorem merge_correct : forall inputs target x, Forall unique_keys inputs ->
  value (merge_residuals keqb zero add target inputs) x = add (value target x) (total_of keqb zero add inputs x) /\
  has (merge_residuals keqb zero add target inputs) x = has target x || existsb (fun d => has d x) inputs.
Proof.
  unfold merge_residuals.
  induction inputs as [|d ds IH]; intros target x Hu; cbn [fold_left].
  - simpl. now rewrite add_0_r, orb_false_r.
  - inversion Hu; subst.
    destruct (IH (fold_left (fun t kv => merge_key keqb zero add t (fst kv) (snd kv)) d target) x H2) as [I1 I2].
    destruct (merge_one_spec d target x H1) as [J1 J2].
    rewrite I1, I2, J1, J2. simpl. now rewrite add_assoc, orb_assoc.
Qed.

Theorem merge_order_irrelevant : forall inputs inputs' target x, Forall unique_keys inputs ->
  Permutation inputs inputs' ->
  value (merge_residuals keqb zero add target inputs) x = value (merge_residuals keqb zero add target inputs') x /\
  has (merge_residuals keqb zero add target inputs) x = has (merge_residuals keqb zero add target inputs') x.
Proof.
  intros inputs inputs' target x Hu Hp.
  assert (Hu' : Forall unique_keys inputs').
  { rewrite Forall_forall in *. intros d Hd. apply Hu. eapply Permutation_in; [symmetry; eauto|auto]. }
  destruct (merge_correct inputs target x Hu) as [-> ->].
  destruct (merge_correct inputs' target x Hu') as [-> ->]. clear Hu Hu'.
  assert (total_of keqb zero add inputs x = total_of keqb zero add inputs' x /\
          existsb (fun d => has d x) inputs = existsb (fun d => has d x) inputs') as [-> ->]; auto.
  induction Hp; simpl; auto.
  - destruct IHHp as [-> ->]. auto.
  - rewrite !add_assoc, (add_comm (value y x)). split; auto.
    destruct (has x0 x), (has y x); auto.
  - destruct IHHp1 as [-> ->], IHHp2 as [-> ->]. auto.
Qed.
End R2.
