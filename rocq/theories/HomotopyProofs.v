(** Proofs about the homotopy controller (C23, C24). *)
From Coq Require Import List Bool Arith ZArith Reals Lra Lia Permutation.
From Verif Require Import Expr Stamper SpecStamper StamperProofs Collect SpecSystem CollectProofs SystemProofs Residual SpecResidual ResidualProofs
  Solver SpecSolver SolverProofs NetSolverProofs Homotopy SpecHomotopy.
Import ListNotations.
Local Open Scope R_scope.

Section Abstract.
Context {St V E Res : Type}.
Variable nr : St -> V -> R -> @nrout St V E.
Variable residuals : St -> R -> V -> nat -> option Res.
Notation runs := (successful_runs nr).
Notation hrun := (homotopy_run nr residuals).

Lemma tx_value_step : forall i f, (i + f = 100)%nat -> tx_value (Z.of_nat f) = (100 - INR i) / 100.
Proof.
  intros i f H. unfold tx_value. rewrite <- INR_IZR_INZ. assert (INR i + INR f = 100).
  { rewrite <- plus_INR, H, INR_IZR_INZ. reflexivity. } lra.
Qed.

Definition stepping_outcome (s : nat -> St) (v : nat -> V) (k : nat -> nat) (o : @hout St V E Res) : Prop :=
  (runs 101 s v k /\ o = h_return residuals true (v 101%nat) (S (k 100%nat)) (-1 / 100) (k 100%nat) (s 101%nat)) \/
  (exists j, (j <= 100)%nat /\ runs j s v k /\
     ((exists v' k' st', nr (s j) (v j) ((100 - INR j) / 100) = NR false v' k' st' /\
        o = h_return residuals false v' (S k') ((100 - INR j) / 100) k' st') \/
      (exists e st', nr (s j) (v j) ((100 - INR j) / 100) = NRraise e st' /\ o = HRaise (Some e) st'))).

Lemma tx_loop_spec : forall f i s v k st v_next ok iters kk, (i + f = 101)%nat -> runs i s v k -> s i = st -> v i = v_next ->
  (f = 0%nat -> ok = true /\ iters = S (k 100%nat) /\ kk = k 100%nat) ->
  exists s' v' k', s' 0%nat = s 0%nat /\ v' 0%nat = v 0%nat /\ stepping_outcome s' v' k' (tx_loop nr residuals f st v_next ok iters kk).
Proof.
  induction f as [|f IH]; intros i s v k st v_next ok iters kk Hi Hr Hs Hv H0.
  - exists s, v, k. split; auto. split; auto. left. replace i with 101%nat in * by lia. split; auto.
    destruct H0 as [-> [-> ->]]; auto. simpl. subst. unfold tx_value.
    replace (IZR (-1) * (1 / 100)) with (-1 / 100) by lra. reflexivity.
  - cbn [tx_loop]. rewrite (tx_value_step i f) by lia.
    destruct (nr st v_next ((100 - INR i) / 100)) as [[|] v' k' st'|e st'] eqn:En.
    + set (s' := fun n => if (n <=? i)%nat then s n else st'). set (w' := fun n => if (n <=? i)%nat then v n else v').
      set (k'' := fun n => if (n <? i)%nat then k n else k').
      destruct (IH (S i) s' w' k'' st' v' true (S k') k') as [s2 [v2 [k2 [A [B C]]]]].
      * lia.
      * intros a Ha. unfold s', w', k''. replace (a <=? i)%nat with true by (symmetry; apply Nat.leb_le; lia).
        destruct (Nat.eq_dec a i) as [->|N].
        -- replace (S i <=? i)%nat with false by (symmetry; apply Nat.leb_gt; lia). rewrite Nat.ltb_irrefl. rewrite Hs, Hv. exact En.
        -- replace (S a <=? i)%nat with true by (symmetry; apply Nat.leb_le; lia).
           replace (a <? i)%nat with true by (symmetry; apply Nat.ltb_lt; lia). apply Hr. lia.
      * unfold s'. replace (S i <=? i)%nat with false by (symmetry; apply Nat.leb_gt; lia). reflexivity.
      * unfold w'. replace (S i <=? i)%nat with false by (symmetry; apply Nat.leb_gt; lia). reflexivity.
      * intros ->. assert (i = 100%nat) by lia. subst i. auto.
      * exists s2, v2, k2. split; [rewrite A; reflexivity|]. split; [rewrite B; reflexivity|]. exact C.
    + exists s, v, k. split; auto. split; auto. right. exists i. split; [lia|]. split; auto. left. exists v', k', st'. subst. auto.
    + exists s, v, k. split; auto. split; auto. right. exists i. split; [lia|]. split; auto. right. exists e, st'. subst. auto.
Qed.

(** every behaviour of the controller *)
Lemma homotopy_outcome : forall tx_stepping st v0,
  match nr st v0 0 with
  | NRraise e st' => hrun tx_stepping st v0 = HRaise (Some e) st'
  | NR ok v k st' =>
      if (ok || negb tx_stepping)%bool then hrun tx_stepping st v0 = h_return residuals ok v k 0 k st'
      else exists s w kk, s 0%nat = st' /\ w 0%nat = v0 /\ stepping_outcome s w kk (hrun tx_stepping st v0)
  end.
Proof.
  intros tx_stepping st v0. unfold homotopy_run. destruct (nr st v0 0) as [ok v k st'|e st']; [|reflexivity].
  destruct (ok || negb tx_stepping)%bool; [reflexivity|].
  apply (tx_loop_spec 101 0 (fun _ => st') (fun _ => v0) (fun _ => 0%nat)); auto; [|discriminate].
  intros i Hi. lia.
Qed.

Lemma h_return_ok : forall ok v n tx k st r st', @h_return St V E Res residuals ok v n tx k st = HOk r st' ->
  h_ok r = ok /\ h_v r = v /\ h_iterations r = n /\ h_tx r = tx /\ residuals st 0 v k = Some (h_res r) /\ st' = st.
Proof.
  intros ok v n tx k st r st' H. unfold h_return in H. destruct (residuals st 0 v k) eqn:E'; [|discriminate].
  injection H as <- <-. repeat split; auto.
Qed.

(** C23: success means the answer is that of a successful run at factor 0 *)
Lemma homotopy_success : forall tx_stepping st v0 r st', hrun tx_stepping st v0 = HOk r st' -> h_ok r = true ->
  (exists k, nr st v0 0 = NR true (h_v r) k st' /\ h_tx r = 0 /\ h_iterations r = k /\ residuals st' 0 (h_v r) k = Some (h_res r)) \/
  (tx_stepping = true /\ exists v1 k1 s v k,
     nr st v0 0 = NR false v1 k1 (s 0%nat) /\ v 0%nat = v0 /\ runs 101 s v k /\
     s 101%nat = st' /\ v 101%nat = h_v r /\ h_tx r = -1 / 100 /\ h_iterations r = S (k 100%nat) /\
     residuals st' 0 (h_v r) (k 100%nat) = Some (h_res r)).
Proof.
  intros tx_stepping st v0 r st' H Hok. pose proof (homotopy_outcome tx_stepping st v0) as O.
  destruct (nr st v0 0) as [ok v k st1|e st1] eqn:En; [|congruence].
  destruct (ok || negb tx_stepping)%bool eqn:Eb.
  - rewrite H in O. symmetry in O. apply h_return_ok in O as [A [B [C [D [F' G]]]]]. subst. left.
    rewrite Hok in *. exists (h_iterations r). repeat split; auto.
  - apply orb_false_iff in Eb as [-> Eb]. destruct tx_stepping; [|discriminate].
    destruct O as [s [w [kk [S0 [W0 [[Hr O]|[j [Hj [Hr [[v' [k' [st2 [N O]]]]|[e [st2 [N O]]]]]]]]]]]]].
    + rewrite H in O. symmetry in O. apply h_return_ok in O as [A [B [C [D [F' G]]]]]. right. split; auto.
      exists v, k, s, w, kk. rewrite S0, B in *. subst st'. repeat split; auto.
    + rewrite H in O. symmetry in O. apply h_return_ok in O as [A _]. congruence.
    + congruence.
Qed.

(** and a reported failure stops at the first failing run *)
Lemma homotopy_failure : forall tx_stepping st v0 r st', hrun tx_stepping st v0 = HOk r st' -> h_ok r = false ->
  exists v1 k1 st1, nr st v0 0 = NR false v1 k1 st1 /\
  ((tx_stepping = false /\ h_v r = v1 /\ h_tx r = 0 /\ h_iterations r = k1 /\ st' = st1) \/
   (tx_stepping = true /\ exists j s v k kj, (j <= 100)%nat /\ s 0%nat = st1 /\ v 0%nat = v0 /\ runs j s v k /\
      nr (s j) (v j) ((100 - INR j) / 100) = NR false (h_v r) kj st' /\ h_tx r = (100 - INR j) / 100 /\ h_iterations r = S kj)).
Proof.
  intros tx_stepping st v0 r st' H Hok. pose proof (homotopy_outcome tx_stepping st v0) as O.
  destruct (nr st v0 0) as [ok v k st1|e st1] eqn:En; [|congruence].
  destruct (ok || negb tx_stepping)%bool eqn:Eb.
  - rewrite H in O. symmetry in O. apply h_return_ok in O as [A [B [C [D [F' G]]]]].
    rewrite Hok in A. subst ok. exists v, k, st1. split; [auto|]. left. destruct tx_stepping; [discriminate|]. repeat split; auto.
  - apply orb_false_iff in Eb as [-> Eb]. destruct tx_stepping; [|discriminate]. exists v, k, st1. split; auto. right. split; auto.
    destruct O as [s [w [kk [S0 [W0 [[Hr O]|[j [Hj [Hr [[v' [k' [st2 [N O]]]]|[e [st2 [N O]]]]]]]]]]]]].
    + rewrite H in O. symmetry in O. apply h_return_ok in O as [A _]. congruence.
    + rewrite H in O. symmetry in O. apply h_return_ok in O as [A [B [C [D [F' G]]]]].
      exists j, s, w, kk, k'. subst st'. rewrite B in *. repeat split; auto.
    + congruence.
Qed.

(** number of runs *)
Definition hst (o : @hout St V E Res) : St := match o with HOk _ st | HRaise _ st => st end.
Lemma tx_loop_count : forall (cnt : St -> nat) (c : nat),
  (forall st v tx, match nr st v tx with NR _ _ _ st' | NRraise _ st' => (cnt st' <= cnt st + c)%nat end) ->
  forall f st v ok iters k, (cnt (hst (tx_loop nr residuals f st v ok iters k)) <= cnt st + f * c)%nat.
Proof.
  intros cnt c Hc. induction f as [|f IH]; intros st v ok iters k; cbn [tx_loop].
  - unfold h_return. destruct residuals; simpl; lia.
  - specialize (Hc st v (tx_value (Z.of_nat f))). destruct (nr st v (tx_value (Z.of_nat f))) as [[|] v' k' st'|e st'].
    + specialize (IH st' v' true (S k') k'). simpl. lia.
    + unfold h_return. destruct residuals; simpl; lia.
    + simpl. lia.
Qed.
Lemma homotopy_count : forall (cnt : St -> nat) (c : nat),
  (forall st v tx, match nr st v tx with NR _ _ _ st' | NRraise _ st' => (cnt st' <= cnt st + c)%nat end) ->
  forall tx_stepping st v0, (cnt (hst (hrun tx_stepping st v0)) <= cnt st + 102 * c)%nat.
Proof.
  intros cnt c Hc tx_stepping st v0. unfold homotopy_run. pose proof (Hc st v0 0) as H0.
  destruct (nr st v0 0) as [ok v k st'|e st']; [|simpl; lia].
  destruct (ok || negb tx_stepping)%bool.
  - unfold h_return. destruct residuals; simpl; lia.
  - pose proof (tx_loop_count cnt c Hc (S TX_ITERATIONS) st' v0 false 0 k). unfold TX_ITERATIONS in *. lia.
Qed.
End Abstract.

(** ** on networks *)
Section Net.
Context {M So : Type}.
Variable nan : R.
Variable opt : bool.
Variable l : list (M * option details * list R).
Variable cs : list (@coll R skey (list sym) rkey M).
Variable ms0 : @mstamper R skey (list sym) M.
Hypothesis Hb : build_colls l = Some cs.
Hypothesis Hok : forall e, In e (elements_of l) -> element_ok opt e.
Hypothesis Hst : stamps_present cs.
Hypothesis Hm : build_stamper 0 nan skey_eqb pkey_eqb rkey_eqb input_eqb opt cs = SOk ms0.
Variable spsolve : So -> list (nat * nat * R) -> list R -> So * option (list R).
Variable limiting : option (list R -> list R -> option (list R)).
Variable cfg : settings.
Notation nnr := (net_nr spsolve limiting cfg).

Lemma net_nr_at : forall s v tx ok v' k s' w tx0 j, at_net nan opt cs (fst s) w tx0 j -> nnr s v tx = NR ok v' k s' ->
  exists u, at_net nan opt cs (fst s') u (Some tx) (Z.of_nat k).
Proof.
  intros s v tx ok v' k s' w tx0 j Hat H. unfold net_nr in H.
  destruct (network_run spsolve limiting cfg (fst s) (snd s) v tx) as [b v1 k1 st1 so1|] eqn:E; [|discriminate]. injection H as <- <- <- <-.
  destruct (run_state _ _ _ spsolve limiting cfg _ _ _ _ (net_lin nan opt cs) (net_nl nan opt cs) (net_res nan opt cs)
     _ _ _ _ _ _ _ _ _ _ _ _ Hat E) as [u [A _]]. eauto.
Qed.

(** a successful run at factor 0 together with the residual report made after it *)
Lemma net_final : forall s v v' k s' w tx0 j rd, at_net nan opt cs (fst s) w tx0 j -> nnr s v 0 = NR true v' k s' ->
  net_residuals s' 0 v' k = Some rd ->
  exists u lin stale J so0,
    spsolve so0 (lin ++ stale) J = (snd s', Some v') /\
    (set_debug cfg = true \/ k = 0%nat -> stale = []) /\
    ((forall e, In e (elements_of l) -> defined_at e u 0) -> linearised_at (elements_of l) 0 u lin J) /\
    (forall r, (r < length v')%nat -> Rabs (F (elements_of l) u 0 r) < set_tolerance cfg /\ nth r (rd_residuals rd) 0 = F (elements_of l) u 0 r) /\
    rd_max rd < set_tolerance cfg.
Proof.
  intros s v v' k s' w tx0 j rd Hat H Hrd. unfold net_nr in H.
  destruct (network_run spsolve limiting cfg (fst s) (snd s) v 0) as [b v1 k1 st1 so1|] eqn:E; [|discriminate]. injection H as -> <- <- <-.
  destruct (run_success _ _ _ _ _ _ (at_net nan opt cs) (net_EL nan opt cs) (net_EN nan opt cs) (net_RS nan opt cs)
     (net_lin nan opt cs) (net_nl nan opt cs) (net_res nan opt cs) (net_const nan opt l cs Hb Hok) _ _ _ _ _ _ _ _ _ _ _ Hat E)
     as [u [[es [J [lin [stale [so0 [A [B [C [D [E' [G [I L]]]]]]]]]]]] U]].
  subst es. exists u, lin, stale, J, so0. simpl snd. split; [exact A|]. split; [intros [X|X]; auto|]. split; [|].
  { intros Hd. eapply (net_system nan opt l cs Hb Hok); eauto. }
  unfold net_residuals in Hrd. simpl fst in Hrd.
  destruct (net_res nan opt cs st1 u (Some 0) (Z.of_nat k1) 0 (vec v1) (Z.of_nat k1) L) as [_ P]. rewrite Z.eqb_refl in P.
  destruct (residual_details_correct _ _ _ Hrd) as [Q0 [Q1 [Q2 [Q3 [Q4 _]]]]].
  assert (X : forall r, row_sum (snd (calc_residuals pkey_eqb st1 0 (vec v1) (Z.of_nat k1))) r = F (elements_of l) u 0 r).
  { intros r. rewrite <- Rrow_row_sum, Rrow_rsum, (rsum_perm _ _ _ P), <- Rrow_rsum. apply (net_residual_F nan opt l cs Hb Hok). }
  split.
  - intros r Hr. split.
    + rewrite <- (net_residual_F nan opt l cs Hb Hok). apply G. auto.
    + rewrite Q1 by auto. apply X.
  - rewrite <- Q4, X, <- (net_residual_F nan opt l cs Hb Hok). apply G. lia.
Qed.

Lemma runs_at : forall m s v k w tx0 j, at_net nan opt cs (fst (s 0%nat)) w tx0 j -> successful_runs nnr m s v k ->
  forall i, (i <= m)%nat -> exists w tx0 j, at_net nan opt cs (fst (s i)) w tx0 j.
Proof.
  intros m s v k w tx0 j H0 Hr. induction i as [|i IH]; intros Hi; [eauto|].
  destruct IH as [w' [t' [j' A]]]; [lia|]. destruct (net_nr_at _ _ _ _ _ _ _ _ _ _ A (Hr i ltac:(lia))) as [u B]. eauto.
Qed.

Lemma net_homotopy_certified : forall tx_stepping so v0 r s',
  net_homotopy spsolve limiting cfg tx_stepping ms0 so v0 = HOk r s' -> h_ok r = true ->
  exists u lin stale J so0,
    spsolve so0 (lin ++ stale) J = (snd s', Some (h_v r)) /\
    (set_debug cfg = true -> stale = []) /\
    ((forall e, In e (elements_of l) -> defined_at e u 0) -> linearised_at (elements_of l) 0 u lin J) /\
    (forall q, (q < length (h_v r))%nat ->
       Rabs (F (elements_of l) u 0 q) < set_tolerance cfg /\ nth q (rd_residuals (h_res r)) 0 = F (elements_of l) u 0 q) /\
    rd_max (h_res r) < set_tolerance cfg.
Proof.
  intros tx_stepping so v0 r s' H Hk.
  pose proof (net_reached nan opt l cs ms0 Hb Hok Hst Hm [] ms0 [] eq_refl) as At0. simpl in At0.
  destruct (homotopy_success _ _ _ _ _ _ _ H Hk) as [[k [A [_ [_ B]]]]|[_ [v1 [k1 [s [v [k [A [B [C [D [E [_ [_ G]]]]]]]]]]]]]].
  - destruct (net_final (ms0, so) _ _ _ _ _ _ _ _ At0 A B) as [u [lin [stale [J [so0 [P [Q X]]]]]]]. exists u, lin, stale, J, so0. auto.
  - destruct (net_nr_at (ms0, so) _ _ _ _ _ _ _ _ _ At0 A) as [u0 A0].
    destruct (runs_at 101 s v k _ _ _ A0 C 100 ltac:(lia)) as [w [t [j Aw]]].
    pose proof (C 100%nat ltac:(lia)) as L. replace ((100 - INR 100) / 100) with 0 in L.
    + rewrite D, E in L. destruct (net_final _ _ _ _ _ _ _ _ _ Aw L G) as [u [lin [stale [J [so0 [P [Q X]]]]]]]. exists u, lin, stale, J, so0. auto.
    + rewrite INR_IZR_INZ. simpl. lra.
Qed.

Lemma net_homotopy_bounded : forall (cnt : So -> nat), (forall so es J, cnt (fst (spsolve so es J)) = S (cnt so)) ->
  forall tx_stepping (st : @mstamper R skey (list sym) M) so v0,
  (cnt (snd (hst (net_homotopy spsolve limiting cfg tx_stepping st so v0))) <= cnt so + 102 * set_max_iters cfg)%nat.
Proof.
  intros cnt Hc tx_stepping st so v0.
  apply (homotopy_count nnr (@net_residuals M So) (fun s => cnt (snd s)) (set_max_iters cfg)).
  intros s v tx. unfold net_nr.
  destruct (run_bounded (stamp_linear pkey_eqb) (stamp_nonlinear pkey_eqb) (calc_residuals pkey_eqb) spsolve limiting cfg cnt Hc (fst s) (snd s) v tx) as [A _].
  unfold network_run. destruct (nr_run _ _ _ _ _ _ _ _ _ _); exact A.
Qed.
End Net.

(** C24 *)
Lemma homotopy_negative_factor : forall (St V E Res : Type) (nr : St -> V -> R -> @nrout St V E) (residuals : St -> R -> V -> nat -> option Res)
    st v0 r st' v1 k1 st1, nr st v0 0 = NR false v1 k1 st1 -> homotopy_run nr residuals true st v0 = HOk r st' -> h_ok r = true ->
  h_tx r = -1 / 100 /\ exists s v k_last, nr s v 0 = NR true (h_v r) k_last st' /\ h_iterations r = S k_last.
Proof.
  intros St V E Res nr residuals st v0 r st' v1 k1 st1 H1 H Hk.
  destruct (homotopy_success _ _ _ _ _ _ _ H Hk) as [[k [A _]]|[_ [v1' [k1' [s [v [k [A [B [C [D [E' [G [I L]]]]]]]]]]]]]]; [congruence|].
  split; auto. exists (s 100%nat), (v 100%nat), (k 100%nat). split; auto. pose proof (C 100%nat ltac:(lia)) as X.
  rewrite D, E' in X. replace ((100 - INR 100) / 100) with 0 in X; auto. rewrite INR_IZR_INZ. simpl. lra.
Qed.
