From Coq Require Import List Bool Arith ZArith Reals Lra Lia Permutation.
From Verif Require Import Expr Segment Stamper SpecStamper StamperProofs Builder SpecBuilder BuilderProofs Residual SpecResidual ResidualProofs
  Collect SpecSystem CollectProofs SystemProofs Solver SpecSolver.
Import ListNotations.
Local Open Scope R_scope.

(** ** Effect of stamping events *)
Definition nonzeroY (evs : list (@event R)) : list (nat * nat * R) :=
  flat_map (fun ev => match ev with EvY r c x => if Rzero x then [] else [(r, c, x)] | EvJ _ _ => [] end) evs.

Lemma mat_at_nonzeroY : forall evs r c, mat_at (nonzeroY evs) r c = Yentry evs r c.
Proof.
  induction evs as [|[r' c' x|r' x] evs IH]; intros r c; simpl; auto.
  unfold Rzero. destruct (Req_EM_T x 0) as [->|N]; simpl; rewrite IH; auto.
  destruct (Nat.eqb r' r && Nat.eqb c' c)%bool; ring.
Qed.

Lemma mat_row_nonzeroY : forall evs v r, mat_row (nonzeroY evs) v r = Yrow evs v r.
Proof.
  induction evs as [|[r' c' x|r' x] evs IH]; intros v r; simpl; auto.
  unfold Rzero. destruct (Req_EM_T x 0) as [->|N]; simpl; rewrite IH; auto.
  destruct (Nat.eqb r' r)%bool; ring.
Qed.

Lemma mat_row_app : forall a b v r, mat_row (a ++ b) v r = mat_row a v r + mat_row b v r.
Proof. induction a as [|[[i j] x] a IH]; simpl; intros; [ring|]. rewrite IH. ring. Qed.

Lemma mat_row_minus : forall a v w r, mat_row a (fun c => v c - w c) r = mat_row a v r - mat_row a w r.
Proof. induction a as [|[[i j] x] a IH]; simpl; intros; [ring|]. rewrite IH. destruct (Nat.eqb i r); ring. Qed.

Lemma Jentry_app : forall a b r, Jentry (a ++ b) r = Jentry a r + Jentry b r.
Proof. intros. now rewrite !Jentry_rsum, rsum_app. Qed.
Lemma Yentry_app : forall a b r c, Yentry (a ++ b) r c = Yentry a r c + Yentry b r c.
Proof. intros. now rewrite !Yentry_rsum, rsum_app. Qed.
Lemma Yrow_app : forall a b v r, Yrow (a ++ b) v r = Yrow a v r + Yrow b v r.
Proof. intros. now rewrite !Yrow_rsum, rsum_app. Qed.
Lemma Jentry_perm : forall a b r, Permutation a b -> Jentry a r = Jentry b r.
Proof. intros. rewrite !Jentry_rsum. now apply rsum_perm. Qed.
Lemma Yentry_perm : forall a b r c, Permutation a b -> Yentry a r c = Yentry b r c.
Proof. intros. rewrite !Yentry_rsum. now apply rsum_perm. Qed.
Lemma Yrow_perm : forall a b v r, Permutation a b -> Yrow a v r = Yrow b v r.
Proof. intros. rewrite !Yrow_rsum. now apply rsum_perm. Qed.

Lemma apply_events_ok : forall cfg evs Y J Y' J',
  apply_events cfg Y J evs = inl (Y', J') -> (b_index Y <= length (b_entries Y))%nat ->
  (b_index Y' <= length (b_entries Y'))%nat /\
  firstn (b_index Y') (b_entries Y') = firstn (b_index Y) (b_entries Y) ++ nonzeroY evs /\
  (b_index Y = length (b_entries Y) -> b_index Y' = length (b_entries Y')) /\
  b_index Y' = (b_index Y + length (nonzeroY evs))%nat /\
  length (b_entries Y') = Nat.max (length (b_entries Y)) (b_index Y + length (nonzeroY evs)) /\
  length J' = length J /\ (forall r, nth r J' 0 = nth r J 0 + Jentry evs r).
Proof.
  intros cfg. induction evs as [|[r c x|r x] evs IH]; intros Y J Y' J' H Hi; simpl in H.
  - injection H as <- <-. simpl. rewrite app_nil_r. repeat split; auto; try lia. intros; ring.
  - unfold b_stamp in H. simpl in H. unfold nonzeroY in *. simpl.
    unfold Rzero in *. destruct (Req_EM_T x 0) as [->|N]; [apply IH; auto|].
    rewrite Bool.andb_false_r in H. unfold b_max_index in H.
    destruct (Nat.eqb (b_index Y) (length (b_entries Y))) eqn:E1.
    + apply Nat.eqb_eq in E1. destruct (IH _ _ _ _ H) as [A [B [C [D [G [L Jr]]]]]]; cbn [b_index b_entries] in *; [rewrite app_length; simpl; lia|].
      split; [|split; [|split; [|split; [|split; [|split]]]]]; auto; try (simpl in *; lia).
      * rewrite B, (firstn_all2 (b_entries Y)) by lia.
        rewrite (firstn_all2 (b_entries Y ++ _)) by (rewrite app_length; simpl; lia). now rewrite <- app_assoc.
      * intros _. apply C. rewrite app_length. simpl. lia.
      * rewrite G, E1. rewrite app_length. simpl. lia.
    + destruct (Nat.ltb (b_index Y) (length (b_entries Y))) eqn:E2; [|discriminate].
      apply Nat.eqb_neq in E1. apply Nat.ltb_lt in E2.
      destruct (IH _ _ _ _ H) as [A [B [C [D [G [L Jr]]]]]]; cbn [b_index b_entries] in *; [rewrite set_nth_length; lia|].
      rewrite set_nth_length in *.
      split; [|split; [|split; [|split; [|split; [|split]]]]]; auto; try (simpl in *; lia).
      rewrite B, set_nth_firstn by auto. now rewrite <- app_assoc.
  - destruct (add_at J r x) as [J1|] eqn:E; [|discriminate].
    destruct (IH _ _ _ _ H Hi) as [A [B [C [D [G [L Jr]]]]]].
    destruct (add_at_spec _ _ _ _ E) as [E1 [E2 E3]].
    split; [|split; [|split; [|split; [|split; [|split]]]]]; auto; try congruence.
    intros r'. rewrite Jr, E3. simpl. ring.
Qed.

(** ** The loop over an abstract stamper *)
Section Loop.
Context {M St So : Type}.
Variable st_linear : St -> R -> St * list (@event R).
Variable st_nonlinear : St -> (nat -> R) -> Z -> St * list (@event R).
Variable st_residuals : St -> R -> (nat -> R) -> Z -> St * list (M * nat * R).
Variable spsolve : So -> list (nat * nat * R) -> list R -> So * option (list R).
Variable limiting : option (list R -> list R -> option (list R)).
Variable cfg : settings.
Notation loop := (nr_loop st_nonlinear st_residuals spsolve limiting cfg).
Notation run := (nr_run st_linear st_nonlinear st_residuals spsolve limiting cfg).

(** *** iteration bounds *)
Lemma loop_iter : forall n k tx li JL st so Y vp h b v k' st' so',
  loop n k tx li JL st so Y vp h = NOk b v k' st' so' ->
  (k' < k + n)%nat /\ (k <= k' \/ (n = 0 /\ S k' = k))%nat.
Proof.
  induction n as [|n IH]; intros k tx li JL st so Y vp h b v k' st' so' H; cbn [nr_loop] in H.
  - destruct k; [discriminate|]. injection H as <- <- <- <- <-. lia.
  - destruct (st_nonlinear st (vec vp) (Z.of_nat k)) as [st1 evs].
    destruct (apply_events cfg Y JL evs) as [[Y1 J]|]; [|discriminate].
    destruct (b_assert_valid (set_debug cfg) Y1); [|discriminate].
    destruct (b_to_matrix (set_debug cfg) Y1) as [es|]; [|discriminate].
    destruct (spsolve so es J) as [so1 [vn|]]; [|discriminate].
    destruct (st_residuals st1 tx (vec vn) (Z.of_nat k)) as [st2 res].
    destruct (mk_residual_details res (length vn)) as [rd|]; [|discriminate].
    destruct (bails_out (h ++ [rd_max rd])); [injection H as <- <- <- <- <-; lia|].
    destruct (Rltb (rd_max rd) (set_tolerance cfg)); [injection H as <- <- <- <- <-; lia|].
    match type of H with match ?x with _ => _ end = _ => destruct x as [vn'|] end; [|discriminate].
    apply IH in H. lia.
Qed.

Definition so_of (r : @nresult St So) : So := match r with NOk _ _ _ _ so => so | NErr _ so => so end.

Lemma loop_count : forall (cnt : So -> nat),
  (forall so es J, cnt (fst (spsolve so es J)) = S (cnt so)) ->
  forall n k tx li JL st so Y vp h,
  (cnt (so_of (loop n k tx li JL st so Y vp h)) <= cnt so + n)%nat /\
  (forall b v k' st' so', loop n k tx li JL st so Y vp h = NOk b v k' st' so' -> (cnt so' + k = cnt so + S k')%nat).
Proof.
  intros cnt Hc. induction n as [|n IH]; intros k tx li JL st so Y vp h; cbn [nr_loop].
  - destruct k; simpl; split; try lia; intros b v k' st' so' H; [discriminate|]. injection H as <- <- <- <- <-. lia.
  - destruct (st_nonlinear st (vec vp) (Z.of_nat k)) as [st1 evs].
    destruct (apply_events cfg Y JL evs) as [[Y1 J]|]; [|split; [simpl; lia|discriminate]].
    destruct (b_assert_valid (set_debug cfg) Y1); [|split; [simpl; lia|discriminate]].
    destruct (b_to_matrix (set_debug cfg) Y1) as [es|]; [|split; [simpl; lia|discriminate]].
    pose proof (Hc so es J) as Hs. destruct (spsolve so es J) as [so1 [vn|]]; simpl in Hs; [|split; [simpl; lia|discriminate]].
    destruct (st_residuals st1 tx (vec vn) (Z.of_nat k)) as [st2 res].
    destruct (mk_residual_details res (length vn)) as [rd|]; [|split; [simpl; lia|discriminate]].
    destruct (bails_out (h ++ [rd_max rd])); [split; [simpl; lia|intros b v k' st' so' H; injection H as <- <- <- <- <-; lia]|].
    destruct (Rltb (rd_max rd) (set_tolerance cfg)); [split; [simpl; lia|intros b v k' st' so' H; injection H as <- <- <- <- <-; lia]|].
    set (lv := match limiting with Some lim => if Rltb (set_tolerance cfg) (rd_max rd) then lim vn vp else Some vn | None => Some vn end).
    destruct lv as [vn'|]; [|split; [simpl; lia|discriminate]].
    destruct (IH (S k) tx li JL st2 so1 (b_clear Y1 li) vn' (h ++ [rd_max rd])) as [A B]. split; [lia|].
    intros b v k' st' so' H. apply B in H. lia.
Qed.

Lemma run_bounded : forall (cnt : So -> nat),
  (forall so es J, cnt (fst (spsolve so es J)) = S (cnt so)) ->
  forall st so v0 tx,
  (cnt (so_of (run st so v0 tx)) <= cnt so + set_max_iters cfg)%nat /\
  (forall b v k st' so', run st so v0 tx = NOk b v k st' so' -> (k < set_max_iters cfg)%nat /\ (cnt so' = cnt so + S k)%nat) /\
  (set_max_iters cfg = 0%nat -> exists e, run st so v0 tx = NErr e so).
Proof.
  intros cnt Hc st so v0 tx. unfold nr_run. destruct (st_linear st tx) as [st0 evs].
  destruct (apply_events cfg b_init (repeat 0 (length v0)) evs) as [[Y JL]|e].
  - destruct (loop_count cnt Hc (set_max_iters cfg) 0 tx (b_get_usage Y) JL st0 so Y v0 []) as [A B].
    split; [exact A|]. split.
    + intros b v k st' so' H. split; [|apply B in H; lia].
      apply loop_iter in H. lia.
    + intros ->. simpl. eauto.
  - split; [simpl; lia|]. split; [discriminate|]. eauto.
Qed.

(** *** an early failure only happens in iterations 49, 99, ... *)
Lemma loop_early_failure : forall n k tx li JL st so Y vp h v k' st' so',
  length h = k -> loop n k tx li JL st so Y vp h = NOk false v k' st' so' ->
  S k' = (k + n)%nat \/ (S k' mod 50 = 0)%nat.
Proof.
  induction n as [|n IH]; intros k tx li JL st so Y vp h v k' st' so' Hh H; cbn [nr_loop] in H.
  - destruct k; [discriminate|]. injection H as <- <- <- <-. lia.
  - destruct (st_nonlinear st (vec vp) (Z.of_nat k)) as [st1 evs].
    destruct (apply_events cfg Y JL evs) as [[Y1 J]|]; [|discriminate].
    destruct (b_assert_valid (set_debug cfg) Y1); [|discriminate].
    destruct (b_to_matrix (set_debug cfg) Y1) as [es|]; [|discriminate].
    destruct (spsolve so es J) as [so1 [vn|]]; [|discriminate].
    destruct (st_residuals st1 tx (vec vn) (Z.of_nat k)) as [st2 res].
    destruct (mk_residual_details res (length vn)) as [rd|]; [|discriminate].
    destruct (bails_out (h ++ [rd_max rd])) eqn:E.
    { injection H as <- <- <- <-. right. unfold bails_out in E. apply andb_prop in E as [E _].
      apply Nat.eqb_eq in E. rewrite app_length in E. simpl in E. rewrite Hh in E. now replace (S k) with (k + 1)%nat by lia. }
    destruct (Rltb (rd_max rd) (set_tolerance cfg)); [discriminate|].
    match type of H with match ?x with _ => _ end = _ => destruct x as [vn'|] end; [|discriminate].
    apply IH in H; [lia|]. rewrite app_length. simpl. lia.
Qed.

Lemma run_early_failure : forall st so v0 tx v k st' so',
  run st so v0 tx = NOk false v k st' so' -> (S k < set_max_iters cfg)%nat -> (S k mod 50 = 0)%nat.
Proof.
  intros st so v0 tx v k st' so' H L. unfold nr_run in H. destruct (st_linear st tx) as [st0 evs].
  destruct (apply_events cfg b_init (repeat 0 (length v0)) evs) as [[Y JL]|e]; [|discriminate].
  apply loop_early_failure in H; auto. lia.
Qed.

(** *** contract of the stamper *)
Variable at_pt : St -> (nat -> R) -> option R -> Z -> Prop.
Variable EL EN : (nat -> R) -> R -> list (@event R).
Variable RS : (nat -> R) -> R -> list (M * nat * R).
Hypothesis H_lin : forall st w tx0 j tx, at_pt st w tx0 j ->
  at_pt (fst (st_linear st tx)) w (Some tx) j /\ Permutation (snd (st_linear st tx)) (EL w tx).
Hypothesis H_nl : forall st w tx j v k, at_pt st w (Some tx) j ->
  let u := if Z.eqb k j then w else v in
  at_pt (fst (st_nonlinear st v k)) u (Some tx) k /\ Permutation (snd (st_nonlinear st v k)) (EN u tx).
Hypothesis H_res : forall st w tx0 j tx v k, at_pt st w tx0 j ->
  let u := if Z.eqb k j then w else v in
  at_pt (fst (st_residuals st tx v k)) u (Some tx) k /\ Permutation (snd (st_residuals st tx v k)) (RS u tx).
Hypothesis H_const : forall v w tx, EL v tx = EL w tx.

(** what is handed to the linear solver when the elements are evaluated at [u] *)
Definition system_at (n : nat) (u : nat -> R) (tx : R) (lin : list (nat * nat * R)) (J : list R) : Prop :=
  length J = n /\
  (forall r c, mat_at lin r c = Yentry (EL u tx ++ EN u tx) r c) /\
  (forall v r, mat_row lin v r = Yrow (EL u tx ++ EN u tx) v r) /\
  (forall r, (r < n)%nat -> nth r J 0 = Jentry (EL u tx ++ EN u tx) r).

(** builder and right hand side before an iteration *)
Definition ready (n : nat) (tx : R) (li : nat) (JL : list R) (Y : @builder R) : Prop :=
  b_index Y = li /\ (li <= length (b_entries Y))%nat /\
  (exists ev, Permutation ev (EL (fun _ => 0) tx) /\ firstn li (b_entries Y) = nonzeroY ev) /\
  length JL = n /\ (forall r, (r < n)%nat -> nth r JL 0 = Jentry (EL (fun _ => 0) tx) r).

Lemma stamp_ready : forall n tx li JL Y u evs Y1 J es, ready n tx li JL Y -> Permutation evs (EN u tx) ->
  apply_events cfg Y JL evs = inl (Y1, J) -> b_to_matrix (set_debug cfg) Y1 = BOk es ->
  exists lin stale, es = lin ++ stale /\ system_at n u tx lin J /\
    (set_debug cfg = true -> stale = []) /\ (li = length (b_entries Y) -> stale = []) /\
    ready n tx li JL (b_clear Y1 li).
Proof.
  intros n tx li JL Y u evs Y1 J es [R1 [R2 [[ev [R3 R4]] [R5 R6]]]] P E T.
  destruct (apply_events_ok _ _ _ _ _ _ E) as [A [B [C [D [G [L Jr]]]]]]; [lia|].
  assert (Ees : es = b_entries Y1) by (unfold b_to_matrix in T; destruct (set_debug cfg && _)%bool; [discriminate|congruence]).
  exists (firstn (b_index Y1) (b_entries Y1)), (skipn (b_index Y1) (b_entries Y1)).
  split; [now rewrite firstn_skipn|]. split; [|split; [|split]].
  - rewrite B, R1, R4. split; [congruence|]. split; [|split].
    + intros r c. rewrite mat_at_app, !mat_at_nonzeroY, Yentry_app.
      rewrite (H_const u (fun _ => 0)). f_equal; now apply Yentry_perm.
    + intros v r. rewrite mat_row_app, !mat_row_nonzeroY, Yrow_app.
      rewrite (H_const u (fun _ => 0)). f_equal; now apply Yrow_perm.
    + intros r Hr. rewrite Jr, R6 by auto. rewrite Jentry_app, (H_const u (fun _ => 0)). f_equal. now apply Jentry_perm.
  - intros Hd. unfold b_to_matrix in T. rewrite Hd in T. simpl in T. unfold b_max_index in T.
    destruct (Nat.eqb (length (b_entries Y1)) (b_index Y1)) eqn:X; [|discriminate].
    apply Nat.eqb_eq in X. rewrite <- X. apply skipn_all.
  - intros Hl. rewrite C by congruence. apply skipn_all.
  - split; [reflexivity|]. simpl. split; [lia|]. split; [|split; auto].
    exists ev. split; auto. rewrite <- R4. rewrite <- R1.
    assert (X : firstn (b_index Y) (firstn (b_index Y1) (b_entries Y1)) = firstn (b_index Y) (b_entries Y)).
    { rewrite B, firstn_app, firstn_firstn, Nat.min_id.
      rewrite firstn_length. replace (b_index Y - Nat.min (b_index Y) (length (b_entries Y)))%nat with 0%nat by lia.
      simpl. now rewrite app_nil_r. }
    rewrite firstn_firstn in X. now replace (Nat.min (b_index Y) (b_index Y1)) with (b_index Y) in X by lia.
Qed.

(** what a successful run says about its answer *)
Definition certified (n : nat) (tx : R) (v : list R) (k : nat) (st' : St) (so' : So) (u : nat -> R) : Prop :=
  exists es J lin stale so0,
    spsolve so0 es J = (so', Some v) /\ es = lin ++ stale /\ system_at n u tx lin J /\
    (set_debug cfg = true -> stale = []) /\ (k = 0%nat -> stale = []) /\
    (forall r, (r < length v)%nat -> Rabs (Rrow (RS u tx) r) < set_tolerance cfg) /\
    (forall q, In q (RS u tx) -> (snd (fst q) < length v)%nat) /\
    at_pt st' u (Some tx) (Z.of_nat k).

Lemma Rrow_row_sum : forall (res : list (M * nat * R)) r, Rrow res r = row_sum res r.
Proof. induction res as [|[[m j] x] res IH]; simpl; intros; auto. now rewrite IH. Qed.

Lemma Rltb_true : forall x y, Rltb x y = true -> x < y.
Proof. intros x y. unfold Rltb. destruct (Rlt_dec x y); [auto|discriminate]. Qed.

Lemma loop_success : forall n m k tx li JL st so Y vp h v k' st' so' w j,
  at_pt st w (Some tx) j -> ready n tx li JL Y -> (k = 0%nat -> li = length (b_entries Y)) ->
  loop m k tx li JL st so Y vp h = NOk true v k' st' so' ->
  exists u, certified n tx v k' st' so' u /\ (k' = k -> u = if Z.eqb (Z.of_nat k) j then w else vec vp).
Proof.
  intros n. induction m as [|m IH]; intros k tx li JL st so Y vp h v k' st' so' w j Hat Hr Hk H; cbn [nr_loop] in H.
  - destruct k; discriminate.
  - pose proof (H_nl st w tx j (vec vp) (Z.of_nat k) Hat) as [N1 N2].
    destruct (st_nonlinear st (vec vp) (Z.of_nat k)) as [st1 evs]. simpl in N1, N2.
    set (u := if Z.eqb (Z.of_nat k) j then w else vec vp) in *.
    destruct (apply_events cfg Y JL evs) as [[Y1 J]|] eqn:Ea; [|discriminate].
    destruct (b_assert_valid (set_debug cfg) Y1); [|discriminate].
    destruct (b_to_matrix (set_debug cfg) Y1) as [es|] eqn:Et; [|discriminate].
    destruct (stamp_ready _ _ _ _ _ _ _ _ _ _ Hr N2 Ea Et) as [lin [stale [Ees [Sys [Sd [S0 Hr']]]]]].
    destruct (spsolve so es J) as [so1 [vn|]] eqn:Es; [|discriminate].
    pose proof (H_res st1 u (Some tx) (Z.of_nat k) tx (vec vn) (Z.of_nat k) N1) as [R1 R2].
    destruct (st_residuals st1 tx (vec vn) (Z.of_nat k)) as [st2 res]. simpl in R1, R2. rewrite Z.eqb_refl in R1, R2.
    destruct (mk_residual_details res (length vn)) as [rd|] eqn:Er; [|discriminate].
    destruct (bails_out (h ++ [rd_max rd])); [discriminate|].
    destruct (Rltb (rd_max rd) (set_tolerance cfg)) eqn:El.
    + injection H as <- <- <- <-. apply Rltb_true in El.
      destruct (residual_details_correct _ _ _ Er) as [_ [_ [Q _]]].
      pose proof (proj1 (residual_details_defined res (length vn)) (ex_intro _ rd Er)) as [_ Q2]. exists u. split; [|auto].
      exists es, J, lin, stale, so. repeat (split; [solve [auto]|]). split; [|split; [|exact R1]].
      * intros r Hlr. rewrite Rrow_rsum, <- (rsum_perm _ _ _ R2), <- Rrow_rsum, Rrow_row_sum.
        eapply Rle_lt_trans; [apply Q; auto|auto].
      * intros q Hq. apply Q2. eapply Permutation_in; [apply Permutation_sym, R2|auto].
    + match type of H with match ?x with _ => _ end = _ => destruct x as [vn'|] end; [|discriminate].
      pose proof (loop_iter _ _ _ _ _ _ _ _ _ _ _ _ _ _ _ H) as Hit.
      assert (Hm : m <> 0%nat) by (intros ->; discriminate H).
      eapply IH in H; [| exact R1 | exact Hr' | lia].
      destruct H as [u' [H _]]. exists u'. split; [exact H|]. intros ->. exfalso. lia.
Qed.

Lemma run_success : forall st w tx0 j so v0 tx v k st' so', at_pt st w tx0 j ->
  run st so v0 tx = NOk true v k st' so' ->
  exists u, certified (length v0) tx v k st' so' u /\ (k = 0%nat -> u = if Z.eqb 0 j then w else vec v0).
Proof.
  intros st w tx0 j so v0 tx v k st' so' Hat H. unfold nr_run in H.
  destruct (H_lin st w tx0 j tx Hat) as [L1 L2]. destruct (st_linear st tx) as [st0 evs]. simpl in L1, L2.
  destruct (apply_events cfg b_init (repeat 0 (length v0)) evs) as [[Y JL]|] eqn:E; [|discriminate].
  destruct (apply_events_ok _ _ _ _ _ _ E) as [A [B [C [D [G [L Jr]]]]]]; [simpl; lia|].
  eapply loop_success in H; [exact H|exact L1| |].
  - split; [reflexivity|]. split; [exact A|]. split; [|split].
    + exists evs. rewrite (H_const (fun _ => 0) w). split; auto.
    + rewrite L. apply repeat_length.
    + intros r Hr. rewrite Jr, nth_repeat, (H_const (fun _ => 0) w), (Jentry_perm _ _ _ L2). ring.
  - intros _. apply C. reflexivity.
Qed.

(** *** state of the stamper after a run *)
Lemma loop_state : forall m k tx li JL st so Y vp h b v k' st' so' w j,
  at_pt st w (Some tx) j -> loop m k tx li JL st so Y vp h = NOk b v k' st' so' ->
  (m = 0%nat /\ st' = st) \/
  (exists u, at_pt st' u (Some tx) (Z.of_nat k') /\ (k' = k -> u = if Z.eqb (Z.of_nat k) j then w else vec vp)).
Proof.
  induction m as [|m IH]; intros k tx li JL st so Y vp h b v k' st' so' w j Hat H; cbn [nr_loop] in H.
  - destruct k; [discriminate|]. injection H as <- <- <- <- <-. auto.
  - right. pose proof (H_nl st w tx j (vec vp) (Z.of_nat k) Hat) as [N1 N2].
    destruct (st_nonlinear st (vec vp) (Z.of_nat k)) as [st1 evs]. simpl in N1, N2.
    destruct (apply_events cfg Y JL evs) as [[Y1 J]|] eqn:Ea; [|discriminate].
    destruct (b_assert_valid (set_debug cfg) Y1); [|discriminate].
    destruct (b_to_matrix (set_debug cfg) Y1) as [es|] eqn:Et; [|discriminate].
    destruct (spsolve so es J) as [so1 [vn|]] eqn:Es; [|discriminate].
    pose proof (H_res st1 _ (Some tx) (Z.of_nat k) tx (vec vn) (Z.of_nat k) N1) as [R1 R2].
    destruct (st_residuals st1 tx (vec vn) (Z.of_nat k)) as [st2 res]. simpl in R1, R2. rewrite Z.eqb_refl in R1, R2.
    destruct (mk_residual_details res (length vn)) as [rd|] eqn:Er; [|discriminate].
    destruct (bails_out (h ++ [rd_max rd])); [injection H as <- <- <- <- <-; eauto|].
    destruct (Rltb (rd_max rd) (set_tolerance cfg)) eqn:El; [injection H as <- <- <- <- <-; eauto|].
    match type of H with match ?x with _ => _ end = _ => destruct x as [vn'|] end; [|discriminate].
    pose proof (loop_iter _ _ _ _ _ _ _ _ _ _ _ _ _ _ _ H) as Hit.
    destruct (IH _ _ _ _ _ _ _ _ _ _ _ _ _ _ _ _ R1 H) as [[-> ->]|[u [A B]]].
    + simpl in H. injection H as <- <- <- <-. eauto.
    + destruct m as [|m]; [|exists u; split; auto; intros; lia].
      simpl in H. injection H as <- <- <- <- <-. eauto.
Qed.

Lemma run_state : forall st w tx0 j so v0 tx b v k st' so', at_pt st w tx0 j ->
  run st so v0 tx = NOk b v k st' so' ->
  exists u, at_pt st' u (Some tx) (Z.of_nat k) /\ (k = 0%nat -> u = if Z.eqb 0 j then w else vec v0).
Proof.
  intros st w tx0 j so v0 tx b v k st' so' Hat H. unfold nr_run in H.
  destruct (H_lin st w tx0 j tx Hat) as [L1 L2]. destruct (st_linear st tx) as [st0 evs]. simpl in L1, L2.
  destruct (apply_events cfg b_init (repeat 0 (length v0)) evs) as [[Y JL]|] eqn:E; [|discriminate].
  destruct (loop_state _ _ _ _ _ _ _ _ _ _ _ _ _ _ _ _ _ L1 H) as [[Hm ->]|X]; [|exact X].
  rewrite Hm in H. simpl in H. discriminate.
Qed.

(** *** a run started when the stamper already is at iteration 0 ignores the start vector *)
Hypothesis H_skip : forall st w tx0 j v v', at_pt st w tx0 j -> st_nonlinear st v j = st_nonlinear st v' j.

Lemma run_start_irrelevant : forall st w tx0 so v0 v0' tx, limiting = None -> at_pt st w tx0 0%Z -> length v0 = length v0' ->
  run st so v0 tx = run st so v0' tx.
Proof.
  intros st w tx0 so v0 v0' tx Hl Hat Hn. unfold nr_run. rewrite Hn.
  destruct (H_lin st w tx0 0%Z tx Hat) as [L1 L2]. destruct (st_linear st tx) as [st0 evs]. simpl in L1, L2.
  destruct (apply_events cfg b_init (repeat 0 (length v0')) evs) as [[Y JL]|] eqn:E; auto.
  destruct (set_max_iters cfg) as [|m]; auto. cbn [nr_loop]. rewrite Hl.
  change (Z.of_nat 0) with 0%Z. rewrite (H_skip _ _ _ _ (vec v0) (vec v0') L1). reflexivity.
Qed.

(** *** the first system that is solved *)
Lemma run_first_system : forall st w tx0 j so v0 tx, at_pt st w tx0 j ->
  (0 < set_max_iters cfg)%nat ->
  let u := if Z.eqb 0 j then w else vec v0 in
  (exists e, run st so v0 tx = NErr e so) \/
  (exists lin J, system_at (length v0) u tx lin J /\
     match spsolve so lin J with
     | (so', None) => run st so v0 tx = NErr NSolve so'
     | (so', Some v) => forall b v' k' st' so'', run st so v0 tx = NOk b v' k' st' so'' -> k' = 0%nat -> v' = v \/ limiting <> None
     end).
Proof.
  intros st w tx0 j so v0 tx Hat Hm u. unfold nr_run.
  destruct (H_lin st w tx0 j tx Hat) as [L1 L2]. destruct (st_linear st tx) as [st0 evs]. simpl in L1, L2.
  destruct (apply_events cfg b_init (repeat 0 (length v0)) evs) as [[Y JL]|e] eqn:E; [|eauto].
  destruct (apply_events_ok _ _ _ _ _ _ E) as [A [B [C [D [G [L Jr]]]]]]; [simpl; lia|].
  assert (Hr : ready (length v0) tx (b_get_usage Y) JL Y).
  { split; [reflexivity|]. split; [exact A|]. split; [|split].
    + exists evs. rewrite (H_const (fun _ => 0) w). split; auto.
    + rewrite L. apply repeat_length.
    + intros r Hr. rewrite Jr, nth_repeat, (H_const (fun _ => 0) w), (Jentry_perm _ _ _ L2). ring. }
  destruct (set_max_iters cfg) as [|m]; [lia|]. cbn [nr_loop].
  pose proof (H_nl st0 w tx j (vec v0) (Z.of_nat 0) L1) as [N1 N2].
  destruct (st_nonlinear st0 (vec v0) (Z.of_nat 0)) as [st1 evs1]. simpl in N1, N2. fold u in N1, N2.
  destruct (apply_events cfg Y JL evs1) as [[Y1 J]|] eqn:Ea; [|eauto].
  destruct (b_assert_valid (set_debug cfg) Y1); [|eauto].
  destruct (b_to_matrix (set_debug cfg) Y1) as [es|] eqn:Et; [|eauto].
  destruct (stamp_ready _ _ _ _ _ _ _ _ _ _ Hr N2 Ea Et) as [lin [stale [Ees [Sys [Sd [S0 Hr']]]]]].
  rewrite (S0 (C eq_refl)), app_nil_r in Ees. subst es. right. exists lin, J. split; auto.
  destruct (spsolve so lin J) as [so1 [vn|]] eqn:Es; auto.
  intros b v' k' st' so'' H Hk.
  destruct (st_residuals st1 tx (vec vn) (Z.of_nat 0)) as [st2 res].
  destruct (mk_residual_details res (length vn)) as [rd|] eqn:Er; [|discriminate].
  destruct (bails_out ([] ++ [rd_max rd])); [injection H as <- <- <- <- <-; auto|].
  destruct (Rltb (rd_max rd) (set_tolerance cfg)) eqn:El; [injection H as <- <- <- <- <-; auto|].
  match type of H with match ?x with _ => _ end = _ => destruct x as [vn'|] eqn:Elim end; [|discriminate].
  destruct m as [|m].
  - simpl in H. injection H as <- <- <- <- <-. destruct limiting as [lim|]; [right; discriminate|].
    injection Elim as ->. auto.
  - apply loop_iter in H. lia.
Qed.

(** *** linear networks *)
Lemma apply_events_total : forall evs Y J, set_debug cfg = false -> (b_index Y <= length (b_entries Y))%nat ->
  (forall r x, In (EvJ r x) evs -> (r < length J)%nat) -> exists YJ, apply_events cfg Y J evs = inl YJ.
Proof.
  induction evs as [|[r c x|r x] evs IH]; intros Y J Hd Hi Hr; simpl; [eauto| |].
  - unfold b_stamp. simpl. rewrite Hd. simpl. destruct (Rzero x); [apply IH; auto; intros; eapply Hr; right; eauto|].
    unfold b_max_index. destruct (Nat.eqb (b_index Y) (length (b_entries Y))) eqn:E1.
    + apply IH; auto; simpl; [apply Nat.eqb_eq in E1; rewrite app_length; simpl; lia|intros; eapply Hr; right; eauto].
    + apply Nat.eqb_neq in E1. replace (Nat.ltb (b_index Y) (length (b_entries Y))) with true by (symmetry; apply Nat.ltb_lt; lia).
      apply IH; auto; simpl; [rewrite set_nth_length; lia|intros; eapply Hr; right; eauto].
  - destruct (add_at_some J r x) as [J' E]; [eapply Hr; left; reflexivity|]. rewrite E.
    apply IH; auto. destruct (add_at_spec _ _ _ _ E) as [-> _]. intros; eapply Hr; right; eauto.
Qed.

Lemma run_linear : forall st w tx0 j so v0 tx,
  at_pt st w tx0 j -> j <> 0%Z -> limiting = None -> set_debug cfg = false -> (2 <= set_max_iters cfg)%nat -> 0 < set_tolerance cfg ->
  (forall u, EN u tx = []) -> (1 <= length v0)%nat ->
  (forall r x, In (EvJ r x) (EL w tx) -> (r < length v0)%nat) ->
  (forall u q, In q (RS u tx) -> (snd (fst q) < length v0)%nat) ->
  (forall u r, Rrow (RS u tx) r = Yrow (EL w tx) u r - Jentry (EL w tx) r) ->
  (forall so es J, length J = length v0 -> (forall r c, mat_at es r c = Yentry (EL w tx) r c) ->
     (forall r, (r < length v0)%nat -> nth r J 0 = Jentry (EL w tx) r) ->
     exists so' v, spsolve so es J = (so', Some v) /\ exact_solution es J v) ->
  exists v k st' so', run st so v0 tx = NOk true v k st' so' /\ (k <= 1)%nat /\ length v = length v0 /\
    forall r, (r < length v0)%nat -> Rrow (RS (vec v) tx) r = 0.
Proof.
  intros st w tx0 j so v0 tx Hat Hj Hlim Hd Hm Ht HE Hn HrJ HrR Haff Hsol. unfold nr_run.
  destruct (H_lin st w tx0 j tx Hat) as [L1 L2]. destruct (st_linear st tx) as [st0 evs]. simpl in L1, L2.
  destruct (apply_events_total evs b_init (repeat 0 (length v0)) Hd) as [[Y JL] E]; [simpl; lia| |].
  { intros r x Hin. rewrite repeat_length. apply (HrJ r x). eapply Permutation_in; eauto. }
  rewrite E. destruct (apply_events_ok _ _ _ _ _ _ E) as [A [B [C [D [G [L Jr]]]]]]; [simpl; lia|].
  simpl in B. specialize (C eq_refl). rewrite C, firstn_all in B.
  assert (HJL : length JL = length v0) by (rewrite L; apply repeat_length).
  assert (Hes : forall r c, mat_at (b_entries Y) r c = Yentry (EL w tx) r c)
    by (intros; rewrite B, mat_at_nonzeroY; now apply Yentry_perm).
  assert (Her : forall v r, mat_row (b_entries Y) v r = Yrow (EL w tx) v r)
    by (intros; rewrite B, mat_row_nonzeroY; now apply Yrow_perm).
  assert (HJ : forall r, (r < length v0)%nat -> nth r JL 0 = Jentry (EL w tx) r)
    by (intros r Hr; rewrite Jr, nth_repeat, (Jentry_perm _ _ _ L2); ring).
  assert (Hzero : forall v, exact_solution (b_entries Y) JL v -> forall r, (r < length v0)%nat -> Rrow (RS (vec v) tx) r = 0).
  { intros v [E1 E2] r Hr. rewrite Haff, <- Her, E2, HJ by lia. ring. }
  destruct (set_max_iters cfg) as [|[|m]]; try lia. cbn [nr_loop]. rewrite Hlim, Hd.
  (* iteration 0 *)
  pose proof (H_nl st0 w tx j (vec v0) (Z.of_nat 0) L1) as [N1 N2].
  destruct (st_nonlinear st0 (vec v0) (Z.of_nat 0)) as [st1 evs1]. simpl in N1, N2.
  rewrite HE in N2. apply Permutation_sym, Permutation_nil in N2. subst evs1. cbn [apply_events b_assert_valid b_to_matrix andb].
  destruct (Hsol so (b_entries Y) JL HJL Hes HJ) as [so1 [v1 [S1 X1]]]. rewrite S1.
  pose proof (H_res st1 _ (Some tx) (Z.of_nat 0) tx (vec v1) (Z.of_nat 0) N1) as [R1 R2].
  destruct (st_residuals st1 tx (vec v1) (Z.of_nat 0)) as [st2 res]. simpl in R1, R2.
  assert (Hl1 : length v1 = length v0) by (destruct X1; lia).
  destruct (proj2 (residual_details_defined res (length v1))) as [rd Hrd].
  { split; [lia|]. intros q Hq. rewrite Hl1. eapply HrR. eapply Permutation_in; eauto. }
  rewrite Hrd. change (bails_out ([] ++ [rd_max rd])) with false. cbn iota.
  destruct (Rltb (rd_max rd) (set_tolerance cfg)) eqn:El.
  { exists v1, 0%nat, st2, so1. repeat split; auto. }
  (* iteration 1 *)
  pose proof (H_nl st2 _ tx _ (vec v1) (Z.of_nat 1) R1) as [N3 N4].
  destruct (st_nonlinear st2 (vec v1) (Z.of_nat 1)) as [st3 evs3]. simpl in N3, N4.
  rewrite HE in N4. apply Permutation_sym, Permutation_nil in N4. subst evs3. cbn [apply_events b_clear b_assert_valid b_to_matrix andb b_entries].
  destruct (Hsol so1 (b_entries Y) JL HJL Hes HJ) as [so2 [v2 [S2 X2]]]. rewrite S2.
  pose proof (H_res st3 _ (Some tx) (Z.of_nat 1) tx (vec v2) (Z.of_nat 1) N3) as [R3 R4].
  destruct (st_residuals st3 tx (vec v2) (Z.of_nat 1)) as [st4 res2]. simpl in R3, R4.
  assert (Hl2 : length v2 = length v0) by (destruct X2; lia).
  destruct (proj2 (residual_details_defined res2 (length v2))) as [rd2 Hrd2].
  { split; [lia|]. intros q Hq. rewrite Hl2. eapply HrR. eapply Permutation_in; eauto. }
  rewrite Hrd2. unfold bails_out at 1. simpl length. change (2 mod 50 =? 0)%nat with false. cbn [andb].
  destruct (residual_details_correct _ _ _ Hrd2) as [_ [_ [_ [Q1 [Q2 _]]]]].
  assert (Hz : rd_max rd2 = 0).
  { rewrite <- Q2, <- Rrow_row_sum, Rrow_rsum, (rsum_perm _ _ _ R4), <- Rrow_rsum.
    rewrite (Hzero v1 X1) by lia. apply Rabs_R0. }
  rewrite Hz. replace (Rltb 0 (set_tolerance cfg)) with true by (unfold Rltb; destruct (Rlt_dec 0 (set_tolerance cfg)); auto; lra).
  exists v2, 1%nat, st4, so2. repeat split; auto.
Qed.

(** *** networks with a single unknown *)
Section Scalar.
Variable yy jj ff : R -> R.
Variable mm : M.
Variable tx : R.
Hypothesis S_EL : forall u, EL u tx = [].
Hypothesis S_EN : forall u, Permutation (EN u tx) [EvY 0 0 (yy (u 0%nat)); EvJ 0 (jj (u 0%nat))].
Hypothesis S_RS : forall u, RS u tx = [(mm, 0%nat, ff (u 0%nat))].
Hypothesis S_sp : forall so y z, y <> 0 -> exists so', spsolve so [(0%nat, 0%nat, y)] [z] = (so', Some [z / y]).
Hypothesis S_lim : limiting = None.
Hypothesis S_dbg : set_debug cfg = false.

Lemma scalar_step : forall n k st so Y x h w j,
  at_pt st w (Some tx) j -> j <> Z.of_nat k -> b_index Y = 0%nat -> (length (b_entries Y) <= 1)%nat -> yy x <> 0 ->
  exists st2 so2 Y2, at_pt st2 (vec [x]) (Some tx) (Z.of_nat k) /\ b_index Y2 = 0%nat /\ (length (b_entries Y2) <= 1)%nat /\
  loop (S n) k tx 0 [0] st so Y [x] h =
    (if bails_out (h ++ [Rabs (ff x)]) then NOk false [jj x / yy x] k st2 so2
     else if Rltb (Rabs (ff x)) (set_tolerance cfg) then NOk true [jj x / yy x] k st2 so2
     else loop n (S k) tx 0 [0] st2 so2 Y2 [jj x / yy x] (h ++ [Rabs (ff x)])).
Proof.
  intros n k st so Y x h w j Hat Hj HY HL Hy.
  cbn [nr_loop]. rewrite S_lim, S_dbg.
  pose proof (H_nl st w tx j (vec [x]) (Z.of_nat k) Hat) as [N1 N2].
  destruct (st_nonlinear st (vec [x]) (Z.of_nat k)) as [st1 evs]. simpl in N1, N2.
  replace (Z.eqb (Z.of_nat k) j) with false in N1, N2 by (symmetry; apply Z.eqb_neq; lia).
  assert (P : Permutation evs [EvY 0 0 (yy x); EvJ 0 (jj x)]) by (eapply Permutation_trans; [exact N2|apply S_EN]).
  assert (E : exists Y1, apply_events cfg Y [0] evs = inl (Y1, [0 + jj x]) /\ b_index Y1 = 1%nat /\ b_entries Y1 = [(0%nat, 0%nat, yy x)]).
  { assert (Z0 : Rzero (yy x) = false) by (unfold Rzero; destruct (Req_EM_T (yy x) 0); auto; contradiction).
    assert (Hs : exists Y1, b_stamp Rzero (fun _ => false) (set_debug cfg) Y (0%nat, 0%nat, yy x) = BOk Y1 /\ b_index Y1 = 1%nat /\ b_entries Y1 = [(0%nat, 0%nat, yy x)]).
    { unfold b_stamp. simpl. rewrite Z0, S_dbg. simpl. destruct Y as [en ix]. simpl in *. subst ix. unfold b_max_index. simpl.
      destruct en as [|e1 [|e2 en]]; simpl in *; [eauto|eauto|lia]. }
    destruct Hs as [Y1 [Hs [I1 I2]]]. exists Y1. split; [|auto].
    apply Permutation_sym, Permutation_length_2_inv in P as [-> | ->]; cbn [apply_events add_at]; rewrite Hs; reflexivity. }
  destruct E as [Y1 [E [I1 I2]]]. rewrite E. cbn [b_assert_valid b_to_matrix andb]. unfold b_to_matrix. cbn [andb]. rewrite I2.
  destruct (S_sp so (yy x) (0 + jj x) Hy) as [so2 Hs].
  replace (0 + jj x) with (jj x) in * by ring. rewrite Hs.
  pose proof (H_res st1 _ (Some tx) (Z.of_nat k) tx (vec [jj x / yy x]) (Z.of_nat k) N1) as [R1 R2].
  destruct (st_residuals st1 tx (vec [jj x / yy x]) (Z.of_nat k)) as [st2 res]. simpl in R1, R2. rewrite Z.eqb_refl in R1, R2.
  rewrite S_RS in R2. apply Permutation_sym, Permutation_length_1_inv in R2. subst res.
  cbn [length].
  assert (Hrd : mk_residual_details [(mm, 0%nat, ff (vec [x] 0%nat))] 1
    = Some {| rd_residuals := [0 + ff x]; rd_max := Rabs (0 + ff x); rd_max_idx := 0 |}) by reflexivity.
  rewrite Hrd. cbn [rd_max]. replace (0 + ff x) with (ff x) by ring.
  exists st2, so2, (b_clear Y1 0). split; [auto|]. split; [reflexivity|]. split; [simpl; rewrite I2; auto|].
  reflexivity.
Qed.

(** following a whole orbit *)
Lemma scalar_orbit : forall m n k st so Y h w j (x : nat -> R),
  at_pt st w (Some tx) j -> (j < Z.of_nat k)%Z \/ (k = 0%nat /\ j <> 0%Z) -> b_index Y = 0%nat -> (length (b_entries Y) <= 1)%nat ->
  (forall i, (i < m)%nat -> yy (x (k + i)%nat) <> 0 /\ jj (x (k + i)%nat) / yy (x (k + i)%nat) = x (k + S i)%nat /\
      set_tolerance cfg <= Rabs (ff (x (k + i)%nat))) ->
  length h = k -> (k + m < 50)%nat ->
  exists st2 so2 Y2 w2 j2, at_pt st2 w2 (Some tx) j2 /\ ((j2 < Z.of_nat (k + m))%Z \/ ((k + m = 0)%nat /\ j2 <> 0%Z)) /\
   b_index Y2 = 0%nat /\ (length (b_entries Y2) <= 1)%nat /\
   loop (m + n) k tx 0 [0] st so Y [x k] h =
   loop n (k + m) tx 0 [0] st2 so2 Y2 [x (k + m)%nat] (h ++ map (fun i => Rabs (ff (x (k + i)%nat))) (seq 0 m)).
Proof.
  induction m as [|m IH]; intros n k st so Y h w j x Hat Hj HY HL Hx Hh Hk.
  - simpl. rewrite Nat.add_0_r, app_nil_r. exists st, so, Y, w, j. auto.
  - destruct (Hx 0%nat ltac:(lia)) as [A [B C]]. rewrite Nat.add_0_r in *.
    destruct (scalar_step (m + n) k st so Y (x k) h w j Hat) as [st2 [so2 [Y2 [A2 [B2 [C2 E]]]]]]; auto; [lia|].
    simpl plus. rewrite E. unfold bails_out.
    rewrite app_length, Hh. simpl length. rewrite Nat.mod_small by lia.
    replace (k + 1 =? 0)%nat with false by (symmetry; apply Nat.eqb_neq; lia). cbn [andb].
    replace (Rltb (Rabs (ff (x k))) (set_tolerance cfg)) with false
      by (unfold Rltb; destruct (Rlt_dec (Rabs (ff (x k))) (set_tolerance cfg)); auto; lra).
    rewrite B. replace (k + 1)%nat with (S k) by lia.
    destruct (IH n (S k) st2 so2 Y2 (h ++ [Rabs (ff (x k))]) (vec [x k]) (Z.of_nat k) x) as [st3 [so3 [Y3 [w3 [j3 [A3 [B3 [C3 [D3 E3]]]]]]]]]; auto; try lia.
    + intros i Hi. destruct (Hx (S i) ltac:(lia)) as [A' [B' C']].
      replace (S k + i)%nat with (k + S i)%nat by lia. replace (S k + S i)%nat with (k + S (S i))%nat by lia. auto.
    + rewrite app_length. simpl. lia.
    + exists st3, so3, Y3, w3, j3. replace (k + S m)%nat with (S k + m)%nat by lia. split; [auto|]. split; [auto|]. split; [auto|]. split; [auto|].
      rewrite E3. f_equal. rewrite <- app_assoc. f_equal. simpl. rewrite Nat.add_0_r. f_equal.
      rewrite <- seq_shift, map_map. apply map_ext. intros i. do 3 f_equal. lia.
Qed.

Lemma scalar_run : forall st w tx0 j so x0, at_pt st w tx0 j ->
  exists st0 Y, at_pt st0 w (Some tx) j /\ b_index Y = 0%nat /\ (length (b_entries Y) <= 1)%nat /\
  run st so [x0] tx = loop (set_max_iters cfg) 0 tx 0 [0] st0 so Y [x0] [].
Proof.
  intros st w tx0 j so x0 Hat. unfold nr_run.
  destruct (H_lin st w tx0 j tx Hat) as [L1 L2]. destruct (st_linear st tx) as [st0 evs]. simpl in L1, L2.
  rewrite S_EL in L2. apply Permutation_sym, Permutation_nil in L2. subst evs. simpl.
  exists st0, b_init. repeat split; auto.
Qed.
End Scalar.
End Loop.

Lemma maxl_le l i : In i l -> (i <= maxl l)%nat.
Proof. induction l as [|x l IH]; [intros []|]. change (maxl (x :: l)) with (Nat.max x (maxl l)). intros [->|H]; [lia|]. specialize (IH H). lia. Qed.
Lemma maxl_in l : l <> [] -> In (maxl l) l.
Proof.
  induction l as [|x l IH]; [tauto|]. intros _. destruct l as [|y l]; [left; cbn; lia|].
  assert (H : In (maxl (y :: l)) (y :: l)) by (apply IH; discriminate). change (maxl (x :: y :: l)) with (Nat.max x (maxl (y :: l))).
  destruct (Nat.max_spec x (maxl (y :: l))) as [[_ ->]|[_ ->]]; [right; exact H|left; reflexivity].
Qed.
Lemma all_present l n : forallb (fun i => existsb (Nat.eqb i) l) (seq 0 n) = true <-> forall i, (i < n)%nat -> In i l.
Proof.
  rewrite forallb_forall. split.
  - intros H i Hi. specialize (H i). rewrite existsb_exists in H. destruct H as (j & Hj & E); [apply in_seq; lia|].
    apply Nat.eqb_eq in E as ->. exact Hj.
  - intros H i Hi. apply in_seq in Hi. apply existsb_exists. exists i. split; [apply H; lia|apply Nat.eqb_refl].
Qed.
Theorem valid_square : forall V (b : @builder V),
  b_assert_valid true b = true <->
  exists n, (0 < n)%nat /\ forall i, ((i < n)%nat <-> exists c v, In (i, c, v) (b_entries b)) /\ ((i < n)%nat <-> exists r v, In (r, i, v) (b_entries b)).
Proof.
  intros V b. unfold b_assert_valid. cbv zeta. set (es := b_entries b).
  assert (RW : forall i, In i (map (fun e => fst (fst e)) es) <-> exists c v, In (i, c, v) es).
  { intros i. rewrite in_map_iff. split; [intros (((r & c) & v) & <- & H); eauto|intros (c & v & H); exists (i, c, v); auto]. }
  assert (CL : forall i, In i (map (fun e => snd (fst e)) es) <-> exists r v, In (r, i, v) es).
  { intros i. rewrite in_map_iff. split; [intros (((r & c) & v) & <- & H); eauto|intros (r & v & H); exists (r, i, v); auto]. }
  set (rows := map (fun e => fst (fst e)) es) in *. set (cols := map (fun e => snd (fst e)) es) in *.
  destruct es as [|e0 es0] eqn:EE.
  - split; [discriminate|]. intros (n & L & H). destruct (proj1 (proj1 (H 0%nat)) L) as (c & v & []).
  - assert (NR : rows <> []) by (unfold rows; discriminate). assert (NC : cols <> []) by (unfold cols; discriminate).
    rewrite !andb_true_iff, Nat.eqb_eq, !all_present. split.
    + intros [[E A] B]. exists (S (maxl rows)). split; [lia|]. intros i. rewrite <- RW, <- CL. split; split.
      * apply A. * intros H. apply maxl_le in H. lia. * rewrite E. apply B. * intros H. apply maxl_le in H. lia.
    + intros (n & L & H). assert (MR : n = S (maxl rows)).
      { pose proof (proj2 (proj1 (H (maxl rows))) (proj1 (RW _) (maxl_in _ NR))) as X.
        destruct (Nat.eq_dec n (S (maxl rows))) as [|Q]; auto. exfalso.
        pose proof (maxl_le _ _ (proj2 (RW _) (proj1 (proj1 (H (S (maxl rows)))) ltac:(lia)))). lia. }
      assert (MC : n = S (maxl cols)).
      { pose proof (proj2 (proj2 (H (maxl cols))) (proj1 (CL _) (maxl_in _ NC))) as X.
        destruct (Nat.eq_dec n (S (maxl cols))) as [|Q]; auto. exfalso.
        pose proof (maxl_le _ _ (proj2 (CL _) (proj1 (proj2 (H (S (maxl cols)))) ltac:(lia)))). lia. }
      split; [split; [lia|]|]; intros i Hi; [apply RW, (proj1 (H i))|apply CL, (proj2 (H i))]; lia.
Qed.
