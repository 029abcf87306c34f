(** Proofs for C39, C40 and C65. *)
From Coq Require Import String List Bool Arith ZArith Reals Lra Lia.
From Verif Require Import Expr Segment ExprProofs Collect CollectProofs SpecSystem Components SpecComponents ComponentsProofs ElementProofs UnbalancedProofs SpecInfeasibility BilinearProofs.
Import ListNotations.
Local Open Scope R_scope.

Lemma weigh_cons : forall P N f e es v tx, weigh P N f (e :: es) v tx = weigh P N f [e] v tx + weigh P N f es v tx.
Proof. intros. change (e :: es) with ([e] ++ es). apply weigh_app. Qed.
Lemma network_duals : forall P N es lam w tx, (forall e, In e es -> linear_element e /\ separated P N e) ->
  weigh (fun i => negb (P i)) N lam es w tx = lsum (fun e => lagr e lam w P tx) es.
Proof.
  induction es as [|e es IH]; intros lam w tx H; [apply weigh_nil|]. rewrite weigh_cons, IH by (intros; apply H; now right).
  rewrite (element_duals P N e) by (apply H; now left). reflexivity.
Qed.
Lemma network_primals : forall P N es v w tx, (forall e, In e es -> linear_element e /\ separated P N e) ->
  weigh P N (fun i => w i - v i) es v tx = lsum (fun e => lagr e v w P tx) es - lsum (fun e => lagr e v v P tx) es.
Proof.
  induction es as [|e es IH]; intros v w tx H; [rewrite weigh_nil; cbn; ring|]. rewrite weigh_cons, IH by (intros; apply H; now right).
  rewrite (element_primals P N e) by (apply H; now left). cbn [lsum fold_right]. unfold lsum. ring.
Qed.

(** *** rows of infeasibility currents *)
Lemma weigh_F : forall P N f es v tx g, (forall r, F es v tx r = g r) -> weigh P N f es v tx = lsum (fun r => if P r then f r * g r else 0) (seq 0 N).
Proof. intros. unfold weigh. apply lsum_ext. intros. now rewrite H. Qed.
Lemma sum_rows_none : forall (f : nat -> R) (P : nat -> bool) N o k, (forall i, o = Some i -> P i = false) ->
  lsum (fun r => if P r then f r * (hit o r * k) else 0) (seq 0 N) = 0.
Proof.
  intros f P N o k H. apply lsum_zero. intros r _. destruct (P r) eqn:E; auto. rewrite hit_miss; [ring|]. intros ->. rewrite (H r) in E by auto. discriminate.
Qed.
Lemma sum_rows_add : forall (f : nat -> R) (P : nat -> bool) N g h,
  lsum (fun r => if P r then f r * (g r + h r) else 0) (seq 0 N) =
  lsum (fun r => if P r then f r * g r else 0) (seq 0 N) + lsum (fun r => if P r then f r * h r else 0) (seq 0 N).
Proof. intros. rewrite <- lsum_add. apply lsum_ext. intros r _. destruct (P r); ring. Qed.
Ltac nege := match goal with H : ?P = _ |- negb ?P = _ => rewrite H; reflexivity end.

Section Places.
Variables (P : nat -> bool) (N : nat).
Lemma l2_duals : forall l lam w tx, places_ok P N 2 l ->
  weigh (fun i => negb (P i)) N lam (l2_elements l) w tx =
  lsum (fun x => fst (mult lam (fst x)) * w (snd x) + snd (mult lam (fst x)) * w (S (snd x))) l.
Proof.
  induction l as [|[b n] l IH]; intros lam w tx H; [apply weigh_nil|].
  cbn [l2_elements flat_map]. fold (l2_elements l). rewrite weigh_app, IH by (intros b' n' Hb; apply H; now right). cbn [lsum fold_right]. f_equal. cbn [fst snd].
  destruct (H b n (or_introl eq_refl)) as [H1 H2].
  rewrite (weigh_F _ _ _ _ _ _ _ (l2_rows b n w tx)). cbv zeta. rewrite !sum_rows_add. unfold at_lambda. rewrite sum_rows_add. cbn [fst snd].
  rewrite (sum_rows_none _ _ _ (Some n)), (sum_rows_none _ _ _ (Some (S n))).
  2:{ intros i E. injection E as <-. destruct (H1 1%nat) as [_ X]; [lia|]. rewrite Nat.add_1_r in X. nege. }
  2:{ intros i E. injection E as <-. destruct (H1 0%nat) as [_ X]; [lia|]. rewrite Nat.add_0_r in X. nege. }
  rewrite !(sum_rows lam).
  2:{ intros i E. destruct (H2 i) as [A X]; [rewrite <- E; simpl; auto|]. split; [auto|nege]. }
  2:{ intros i E. destruct (H2 i) as [A X]; [rewrite <- E; simpl; auto|]. split; [auto|nege]. }
  unfold mult, SpecComponents.read. cbn [fst snd]. ring.
Qed.
Lemma l2_primals : forall l v w tx, places_ok P N 2 l ->
  weigh P N (fun i => w i - v i) (l2_elements l) v tx =
  lsum (fun x => (w (snd x) - v (snd x)) * (fst (mult v (fst x)) + 2 * v (snd x)) +
                 (w (S (snd x)) - v (S (snd x))) * (snd (mult v (fst x)) + 2 * v (S (snd x)))) l.
Proof.
  induction l as [|[b n] l IH]; intros v w tx H; [apply weigh_nil|].
  cbn [l2_elements flat_map]. fold (l2_elements l). rewrite weigh_app, IH by (intros b' n' Hb; apply H; now right). cbn [lsum fold_right]. f_equal. cbn [fst snd].
  destruct (H b n (or_introl eq_refl)) as [H1 H2].
  rewrite (weigh_F _ _ _ _ _ _ _ (l2_rows b n v tx)). cbv zeta. rewrite !sum_rows_add. unfold at_lambda. rewrite sum_rows_add. cbn [fst snd].
  rewrite (sum_rows_none _ _ _ (n_Lr b)), (sum_rows_none _ _ _ (n_Li b)).
  2:{ intros i E. destruct (H2 i) as [A X]; [rewrite <- E; simpl; auto|]. auto. }
  2:{ intros i E. destruct (H2 i) as [A X]; [rewrite <- E; simpl; auto|]. auto. }
  rewrite !(sum_rows (fun i => w i - v i)).
  2:{ intros i E. injection E as <-. replace (S n) with (n + 1)%nat by lia. apply H1. lia. }
  2:{ intros i E. injection E as <-. replace n with (n + 0)%nat by lia. apply H1. lia. }
  ring.
Qed.
Lemma l1_duals : forall l lam w tx, places_ok P N 4 l ->
  weigh (fun i => negb (P i)) N lam (l1_elements l) w tx =
  lsum (fun x => fst (mult lam (fst x)) * - net_r w (snd x) + snd (mult lam (fst x)) * - net_i w (snd x)) l.
Proof.
  induction l as [|[b n] l IH]; intros lam w tx H; [apply weigh_nil|].
  cbn [l1_elements flat_map]. fold (l1_elements l). rewrite weigh_app, IH by (intros b' n' Hb; apply H; now right). cbn [lsum fold_right]. f_equal. cbn [fst snd].
  destruct (H b n (or_introl eq_refl)) as [H1 H2].
  rewrite (weigh_F _ _ _ _ _ _ _ (l1_rows b n w tx)). cbv zeta. rewrite !sum_rows_add. unfold at_lambda. rewrite sum_rows_add. cbn [fst snd].
  rewrite (sum_rows_none _ _ _ (Some n)), (sum_rows_none _ _ _ (Some (n + 1)%nat)), (sum_rows_none _ _ _ (Some (n + 2)%nat)), (sum_rows_none _ _ _ (Some (n + 3)%nat)).
  2:{ intros i E. injection E as <-. destruct (H1 3%nat) as [_ X]; [lia|nege]. }
  2:{ intros i E. injection E as <-. destruct (H1 2%nat) as [_ X]; [lia|nege]. }
  2:{ intros i E. injection E as <-. destruct (H1 1%nat) as [_ X]; [lia|nege]. }
  2:{ intros i E. injection E as <-. destruct (H1 0%nat) as [_ X]; [lia|]. rewrite Nat.add_0_r in X. nege. }
  rewrite !(sum_rows lam).
  2:{ intros i E. destruct (H2 i) as [A X]; [rewrite <- E; simpl; auto|]. split; [auto|nege]. }
  2:{ intros i E. destruct (H2 i) as [A X]; [rewrite <- E; simpl; auto|]. split; [auto|nege]. }
  unfold mult, SpecComponents.read, net_r, net_i. cbn [fst snd]. ring.
Qed.
Lemma l1_primals : forall l v w tx, places_ok P N 4 l ->
  weigh P N (fun i => w i - v i) (l1_elements l) v tx =
  lsum (fun x => let n := snd x in
     (w n - v n) * (1 - fst (mult v (fst x)) + 2 * v n) + (w (n + 1)%nat - v (n + 1)%nat) * (1 - snd (mult v (fst x)) + 2 * v (n + 1)%nat) +
     (w (n + 2)%nat - v (n + 2)%nat) * (1 + fst (mult v (fst x)) + 2 * v (n + 2)%nat) + (w (n + 3)%nat - v (n + 3)%nat) * (1 + snd (mult v (fst x)) + 2 * v (n + 3)%nat)) l.
Proof.
  induction l as [|[b n] l IH]; intros v w tx H; [apply weigh_nil|].
  cbn [l1_elements flat_map]. fold (l1_elements l). rewrite weigh_app, IH by (intros b' n' Hb; apply H; now right). cbn [lsum fold_right]. f_equal. cbn [fst snd].
  destruct (H b n (or_introl eq_refl)) as [H1 H2].
  rewrite (weigh_F _ _ _ _ _ _ _ (l1_rows b n v tx)). cbv zeta. rewrite !sum_rows_add. unfold at_lambda. rewrite sum_rows_add. cbn [fst snd].
  rewrite (sum_rows_none _ _ _ (n_Lr b)), (sum_rows_none _ _ _ (n_Li b)).
  2:{ intros i E. destruct (H2 i) as [A X]; [rewrite <- E; simpl; auto|]. auto. }
  2:{ intros i E. destruct (H2 i) as [A X]; [rewrite <- E; simpl; auto|]. auto. }
  rewrite !(sum_rows (fun i => w i - v i)).
  2,3,4: intros i E; injection E as <-; apply H1; lia.
  2:{ intros i E. injection E as <-. replace n with (n + 0)%nat by lia. apply H1. lia. }
  ring.
Qed.
End Places.

Lemma square_sum : forall A (f g : A -> R) l, lsum (fun x => g x * (f x - g x)) l = 0 -> lsum (fun x => g x * g x) l <= lsum (fun x => f x * f x) l.
Proof.
  intros A f g l H.
  assert (E : lsum (fun x => f x * f x) l = lsum (fun x => g x * g x) l + lsum (fun x => (f x - g x) * (f x - g x)) l + 2 * lsum (fun x => g x * (f x - g x)) l).
  { rewrite <- lsum_scale, <- !lsum_add. apply lsum_ext. intros. ring. }
  assert (Q : 0 <= lsum (fun x => (f x - g x) * (f x - g x)) l).
  { clear. induction l; cbn; [lra|]. fold (lsum (fun x => (f x - g x) * (f x - g x)) l). pose proof (Rle_0_sqr (f a - g a)) as S. unfold Rsqr in S. lra. }
  rewrite E, H. lra.
Qed.
Lemma total_L2_lsum : forall l v, total_L2 l v = lsum (fun x => v (snd x) * v (snd x) + v (S (snd x)) * v (S (snd x))) l.
Proof. reflexivity. Qed.

Lemma split_sum : forall A (f1 f2 g1 g2 : A -> R) l, lsum (fun x => g1 x * (f1 x - g1 x) + g2 x * (f2 x - g2 x)) l = 0 ->
  lsum (fun x => g1 x * g1 x + g2 x * g2 x) l <= lsum (fun x => f1 x * f1 x + f2 x * f2 x) l.
Proof.
  intros A f1 f2 g1 g2 l H.
  set (l2 := map (fun x => (x, true)) l ++ map (fun x => (x, false)) l).
  assert (M : forall h : A * bool -> R, lsum h l2 = lsum (fun x => h (x, true) + h (x, false)) l).
  { intros h. unfold l2. rewrite lsum_add. clear. assert (G : forall a b : list (A * bool), lsum h (a ++ b) = lsum h a + lsum h b).
    { induction a as [|y a IHa]; intros b; [cbn [app]; change (lsum h []) with 0; ring|]. cbn [app lsum fold_right]. fold (lsum h (a ++ b)). fold (lsum h a). rewrite IHa. ring. }
    rewrite G. f_equal; induction l; cbn [map lsum fold_right]; auto; unfold lsum in IHl; now rewrite IHl. }
  pose proof (square_sum (A * bool) (fun p => if snd p then f1 (fst p) else f2 (fst p)) (fun p => if snd p then g1 (fst p) else g2 (fst p)) l2) as S.
  rewrite !M in S. cbn [fst snd] in S. auto.
Qed.

Lemma l2_minimal : forall P N es l v w tx,
  (forall e, In e es -> linear_element e /\ separated P N e) -> places_ok P N 2 l ->
  (forall r, (r < N)%nat -> F (es ++ l2_elements l) v tx r = 0) ->
  circuit_holds P N (es ++ l2_elements l) w tx ->
  total_L2 l v <= total_L2 l w.
Proof.
  intros P N es l v w tx He Hl Hv Hw. rewrite !total_L2_lsum.
  assert (D1 : weigh (fun i => negb (P i)) N v (es ++ l2_elements l) w tx = 0).
  { apply weigh_zero. intros r Hr Hp. apply Hw; auto. now destruct (P r). }
  assert (D2 : weigh (fun i => negb (P i)) N v (es ++ l2_elements l) v tx = 0) by (apply weigh_zero; auto).
  assert (D3 : weigh P N (fun i => w i - v i) (es ++ l2_elements l) v tx = 0) by (apply weigh_zero; auto).
  rewrite weigh_app, network_duals, l2_duals in D1, D2 by auto. rewrite weigh_app, network_primals, l2_primals in D3 by auto.
  apply (split_sum _ (fun x : nodes * nat => w (snd x)) (fun x => w (S (snd x))) (fun x => v (snd x)) (fun x => v (S (snd x)))).
  set (S0 := lsum (fun x : nodes * nat => v (snd x) * (w (snd x) - v (snd x)) + v (S (snd x)) * (w (S (snd x)) - v (S (snd x)))) l).
  assert (E : lsum (fun x : nodes * nat => (w (snd x) - v (snd x)) * (fst (mult v (fst x)) + 2 * v (snd x)) + (w (S (snd x)) - v (S (snd x))) * (snd (mult v (fst x)) + 2 * v (S (snd x)))) l =
    lsum (fun x => fst (mult v (fst x)) * w (snd x) + snd (mult v (fst x)) * w (S (snd x))) l + (-1) * lsum (fun x => fst (mult v (fst x)) * v (snd x) + snd (mult v (fst x)) * v (S (snd x))) l + 2 * S0).
  { unfold S0. rewrite <- !lsum_scale, <- !lsum_add. apply lsum_ext. intros. ring. }
  rewrite E in D3. lra.
Qed.
Lemma total_nonneg : forall l v, 0 <= total_L2 l v.
Proof.
  induction l as [|x l IH]; intros v; cbn; [lra|]. specialize (IH v). unfold total_L2 in IH.
  pose proof (Rle_0_sqr (v (snd x))) as A. pose proof (Rle_0_sqr (v (S (snd x)))) as B. unfold Rsqr in *. lra.
Qed.
Lemma total_zero : forall l v, total_L2 l v = 0 -> forall b n, In (b, n) l -> v n = 0 /\ v (S n) = 0.
Proof.
  induction l as [|x l IH]; intros v H b n Hi; [destruct Hi|]. pose proof (total_nonneg l v) as Q. unfold total_L2 in *. cbn in H.
  pose proof (Rle_0_sqr (v (snd x))) as A. pose proof (Rle_0_sqr (v (S (snd x)))) as B. unfold Rsqr in *.
  destruct Hi as [->|Hi]; [|apply (IH v) with b; auto; lra]. cbn [snd] in *. split; apply Rsqr_0_uniq; unfold Rsqr; lra.
Qed.
Lemma l2_feasible : forall P N es l v w tx,
  (forall e, In e es -> linear_element e /\ separated P N e) -> places_ok P N 2 l ->
  (forall r, (r < N)%nat -> F (es ++ l2_elements l) v tx r = 0) ->
  circuit_holds P N es w tx ->
  (forall b n, In (b, n) l -> w n = 0 /\ w (S n) = 0) ->
  forall b n, In (b, n) l -> v n = 0 /\ v (S n) = 0.
Proof.
  intros P N es l v w tx He Hl Hv Hw Hz. apply total_zero. apply Rle_antisym; [|apply total_nonneg].
  assert (T : total_L2 l w = 0).
  { clear - Hz. induction l as [|[b n] l IH]; [reflexivity|]. cbn. fold (total_L2 l w). rewrite IH by (intros; eapply Hz; right; eauto).
    destruct (Hz b n) as [-> ->]; [now left|]. ring. }
  rewrite <- T. eapply l2_minimal; eauto. intros r Hr Hp. rewrite F_app, (Hw r Hr Hp), Rplus_0_l.
  clear - Hl Hz Hr Hp. induction l as [|[b n] l IH]; [reflexivity|]. cbn [l2_elements flat_map]. fold (l2_elements l). rewrite F_app, IH.
  2:{ intros b' n' Hb. apply Hl. now right. } 2:{ intros; eapply Hz; right; eauto. }
  cbn [fst snd]. rewrite l2_rows. cbv zeta. destruct (Hz b n) as [Z1 Z2]; [now left|]. rewrite Z1, Z2.
  destruct (Hl b n (or_introl eq_refl)) as [H1 _].
  destruct (H1 0%nat) as [_ X0]; [lia|]. destruct (H1 1%nat) as [_ X1]; [lia|]. rewrite Nat.add_0_r in X0. rewrite Nat.add_1_r in X1.
  rewrite !hit_miss by congruence. unfold at_lambda. cbn [fst snd]. ring.
Qed.

(** *** L1 *)
Lemma consecutive_ge : forall k bs n b m, In (b, m) (consecutive k n bs) -> (n <= m)%nat.
Proof. induction bs as [|b0 bs IH]; intros n b m H; [destruct H|]. destruct H as [E|H]; [injection E as <- <-; lia|]. apply IH in H. lia. Qed.
Lemma l1_other : forall P N bs n v tx r, places_ok P N 4 (consecutive 4 n bs) -> P r = true -> (r < n)%nat -> F (l1_elements (consecutive 4 n bs)) v tx r = 0.
Proof.
  intros P N. induction bs as [|b bs IH]; intros n v tx r H Hp Hr; [reflexivity|]. cbn [consecutive l1_elements flat_map]. fold (l1_elements (consecutive 4 (n + 4) bs)).
  rewrite F_app, IH by (auto; try lia; intros b' n' Hb; apply H; now right). cbn [fst snd]. rewrite l1_rows. cbv zeta.
  destruct (H b n (or_introl eq_refl)) as [_ H2]. unfold at_lambda. cbn [fst snd].
  rewrite !hit_miss; [ring| | | | | |]; try (intros E; injection E as E; lia); intros E; destruct (H2 r) as [_ X]; try (rewrite E; simpl; auto); congruence.
Qed.
Lemma l1_at : forall P N bs n v tx b m, places_ok P N 4 (consecutive 4 n bs) -> In (b, m) (consecutive 4 n bs) ->
  (forall k, (k < 4)%nat -> F (l1_elements (consecutive 4 n bs)) v tx (m + k)%nat = 0) ->
  (forall k, (k < 4)%nat -> F (present (fst (l1_stampers b m))) v tx (m + k)%nat = 0).
Proof.
  intros P N. induction bs as [|b0 bs IH]; intros n v tx b m H Hi Hz k Hk; [destruct Hi|]. cbn [consecutive l1_elements flat_map] in *.
  fold (l1_elements (consecutive 4 (n + 4) bs)) in *. assert (H' : places_ok P N 4 (consecutive 4 (n + 4) bs)) by (intros b' n' Hb; apply H; now right).
  destruct Hi as [E|Hi].
  - injection E as <- <-. specialize (Hz k Hk). rewrite F_app in Hz. cbn [fst snd] in Hz. rewrite (l1_other P N) in Hz; [lra|auto| |lia].
    destruct (H b0 n (or_introl eq_refl)) as [H1 _]. now apply H1.
  - apply (IH (n + 4)%nat); auto. intros j Hj. specialize (Hz j Hj). rewrite F_app in Hz. cbn [fst snd] in Hz.
    rewrite l1_rows in Hz. cbv zeta in Hz. pose proof (consecutive_ge _ _ _ _ _ Hi) as Hge.
    destruct (H b0 n (or_introl eq_refl)) as [_ H2]. destruct (H' b m Hi) as [H1 _]. destruct (H1 j Hj) as [_ Pj].
    assert (A : at_lambda b0 (v (n + 2)%nat - v n, v (n + 3)%nat - v (n + 1)%nat) (m + j)%nat = 0).
    { unfold at_lambda. rewrite !hit_miss; [ring| |]; intros E; destruct (H2 (m + j)%nat) as [_ X]; try (rewrite E; simpl; auto); congruence. }
    rewrite A in Hz. rewrite !hit_miss in Hz; [lra| | | |]; intros E; injection E as E; lia.
Qed.
Lemma before_rows : forall es n v tx r, (forall e, In e es -> linear_element e /\ before n e) -> (n <= r)%nat -> F es v tx r = 0.
Proof.
  induction es as [|e es IH]; intros n v tx r H Hr; [reflexivity|]. rewrite F_cons, (IH n) by (auto; intros; apply H; now right).
  destruct (H e (or_introl eq_refl)) as [[_ He Ho] Hb]. rewrite hsum_free; [ring|]. intros x _. apply hit_miss. unfold where_, row_index, sd_eqn_map. rewrite Ho, He.
  destruct (lookup (sd_var (fst e)) x) as [[i|]|] eqn:L; try discriminate. apply Hb in L. intros E. injection E as ->. lia.
Qed.
Lemma l1_minimal : forall P N n es bs v w tx, let l := consecutive 4 n bs in
  (forall e, In e es -> linear_element e /\ separated P N e /\ before n e) -> places_ok P N 4 l ->
  (forall r, (r < N)%nat -> F (es ++ l1_elements l) v tx r = 0) ->
  circuit_holds P N (es ++ l1_elements l) w tx ->
  total_net2 l v <= total_net2 l w.
Proof.
  intros P N n es bs v w tx l He Hl Hv Hw.
  assert (R : forall b m, In (b, m) l -> net_r v m = fst (mult v b) /\ net_i v m = snd (mult v b) /\ v m + v (m + 2)%nat = - 1 /\ v (m + 1)%nat + v (m + 3)%nat = - 1).
  { intros b m Hi. destruct (Hl b m Hi) as [H1 H2].
    assert (Z : forall k, (k < 4)%nat -> F (l1_elements l) v tx (m + k)%nat = 0).
    { intros k Hk. specialize (Hv (m + k)%nat (proj1 (H1 k Hk))). rewrite F_app in Hv. rewrite (before_rows es n) in Hv; [lra| |].
      - intros e Hin. destruct (He e Hin) as [A [_ B]]. auto.
      - apply consecutive_ge in Hi. lia. }
    pose proof (l1_at P N bs n v tx b m Hl Hi Z) as Q. destruct (l1_solution b m v tx) as [A [B [C [D _]]]]; auto.
    intros k Hk X. destruct (H2 (m + k)%nat X) as [_ Y]. destruct (H1 k Hk) as [_ Y']. congruence. }
  assert (He' : forall e, In e es -> linear_element e /\ separated P N e) by (intros e Hin; destruct (He e Hin) as [? [? _]]; auto).
  assert (D1 : weigh (fun i => negb (P i)) N v (es ++ l1_elements l) w tx = 0).
  { apply weigh_zero. intros r Hr Hp. apply Hw; auto. now destruct (P r). }
  assert (D2 : weigh (fun i => negb (P i)) N v (es ++ l1_elements l) v tx = 0) by (apply weigh_zero; auto).
  assert (D3 : weigh P N (fun i => w i - v i) (es ++ l1_elements l) v tx = 0) by (apply weigh_zero; auto).
  rewrite weigh_app, network_duals, l1_duals in D1, D2 by auto. rewrite weigh_app, network_primals, l1_primals in D3 by auto.
  rewrite (lsum_zero _ _ l) in D3.
  2:{ intros [b m] Hi. cbn [fst snd]. destruct (R b m Hi) as [A [B [C D]]]. unfold net_r, net_i in *. cbv zeta.
      replace (1 - fst (mult v b) + 2 * v m) with 0 by lra. replace (1 - snd (mult v b) + 2 * v (m + 1)%nat) with 0 by lra.
      replace (1 + fst (mult v b) + 2 * v (m + 2)%nat) with 0 by lra. replace (1 + snd (mult v b) + 2 * v (m + 3)%nat) with 0 by lra. ring. }
  rewrite (lsum_ext _ (fun x : nodes * nat => fst (mult v (fst x)) * - net_r w (snd x) + snd (mult v (fst x)) * - net_i w (snd x))
     (fun x => (-1) * (net_r v (snd x) * net_r w (snd x) + net_i v (snd x) * net_i w (snd x)))) in D1.
  2:{ intros [b m] Hi. cbn [fst snd]. destruct (R b m Hi) as [A [B _]]. rewrite A, B. ring. }
  rewrite (lsum_ext _ (fun x : nodes * nat => fst (mult v (fst x)) * - net_r v (snd x) + snd (mult v (fst x)) * - net_i v (snd x))
     (fun x => (-1) * (net_r v (snd x) * net_r v (snd x) + net_i v (snd x) * net_i v (snd x)))) in D2.
  2:{ intros [b m] Hi. cbn [fst snd]. destruct (R b m Hi) as [A [B _]]. rewrite A, B. ring. }
  rewrite lsum_scale in D1, D2.
  change (total_net2 l v) with (lsum (fun x : nodes * nat => net_r v (snd x) * net_r v (snd x) + net_i v (snd x) * net_i v (snd x)) l).
  change (total_net2 l w) with (lsum (fun x : nodes * nat => net_r w (snd x) * net_r w (snd x) + net_i w (snd x) * net_i w (snd x)) l).
  apply (split_sum _ (fun x : nodes * nat => net_r w (snd x)) (fun x => net_i w (snd x)) (fun x => net_r v (snd x)) (fun x => net_i v (snd x))).
  rewrite (lsum_ext _ _ (fun x => (net_r v (snd x) * net_r w (snd x) + net_i v (snd x) * net_i w (snd x)) + (-1) * (net_r v (snd x) * net_r v (snd x) + net_i v (snd x) * net_i v (snd x)))) by (intros; ring).
  rewrite lsum_add, lsum_scale. lra.
Qed.

(** *** rows are partial derivatives of the Lagrangian *)
Lemma element_gradient : forall e v tx c, element_ok true e -> sd_eqn (fst e) = None -> defined_at e v tx ->
  derivable_pt_lim (fun t => den (sg_lagrange (sd_seg (fst e))) (sym_val e (set_v v c t) tx)) (v c) (elem_row e v tx c).
Proof.
  intros [d cv] v tx c ok He Hd. set (s := sd_seg d). cbn [fst] in *.
  assert (Ho : sd_opt d = true) by (apply (eo_opt _ _ ok)).
  assert (Hp : NoDup (sg_constants s ++ sg_variables s)) by (apply (eo_params _ _ ok)).
  set (dlt := fun y : sym => match index_of y (sg_constants s) with Some _ => 0 | None => match lookup (sd_var d) y with Some (Some n) => if Nat.eqb n c then 1 else 0 | _ => 0 end end).
  apply derivable_ext with (f := fun t => den (sg_lagrange s) (fun y => sym_val (d, cv) v tx y + (t - v c) * dlt y)).
  { intros t. apply den_ext. intros y _. unfold sym_val, dlt. simpl. fold s.
    destruct (index_of y (sg_constants s)); [ring|]. destruct (lookup (sd_var d) y) as [[n|]|]; try ring. unfold set_v. destruct (Nat.eqb_spec n c); [subst|]; ring. }
  replace (elem_row (d, cv) v tx c) with (snd (dden (sg_lagrange s) (sym_val (d, cv) v tx) dlt)).
  { apply den_line. exact Hd. }
  rewrite (dden_combination _ _ _ (sg_variables s)).
  - rewrite elem_row_hsum. cbn [fst]. unfold first_orders. rewrite Ho. fold s.
    assert (Hc : forall y, In y (sg_variables s) -> index_of y (sg_constants s) = None).
    { intros y Hy. destruct (index_of y (sg_constants s)) eqn:E; auto. exfalso. eapply NoDup_app_disj; [exact Hp| |exact Hy]. apply index_of_In. eauto. }
    clear - Ho He Hc. induction (sg_variables s) as [|y l IH]; [reflexivity|]. cbn [rsum hsum fold_right]. fold (rsum (fun y0 => dlt y0 * den (diff (sg_lagrange s) y0) (sym_val (d, cv) v tx)) l).
    rewrite IH by (intros; apply Hc; now right). f_equal. f_equal. unfold dlt, where_, row_index, sd_eqn_map. rewrite Ho, He, Hc by now left.
    destruct (lookup (sd_var d) y) as [[n|]|]; reflexivity.
  - eapply NoDup_app_r; eauto.
  - intros y Hy Hne. pose proof (eo_closed _ _ ok y Hy) as Hi. cbn [fst] in Hi. fold s in Hi. unfold sg_parameters in Hi. apply in_app_or in Hi as [Hi|Hi]; auto.
    exfalso. apply Hne. unfold dlt. apply index_of_In in Hi as [n ->]. reflexivity.
Qed.
Lemma network_gradient : forall es v tx c, (forall e, In e es -> element_ok true e /\ sd_eqn (fst e) = None /\ defined_at e v tx) ->
  derivable_pt_lim (fun t => lagrangian es (set_v v c t) tx) (v c) (F es v tx c).
Proof.
  induction es as [|e es IH]; intros v tx c H; cbn.
  - apply (derivable_pt_lim_const 0).
  - destruct (H e (or_introl eq_refl)) as [A [B D]].
    apply (derivable_pt_lim_plus (fun t => den (sg_lagrange (sd_seg (fst e))) (sym_val e (set_v v c t) tx)) (fun t => lagrangian es (set_v v c t) tx)).
    + now apply element_gradient.
    + apply IH. intros; apply H; now right.
Qed.
