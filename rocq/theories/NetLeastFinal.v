(** Lemmas behind the C148 theorems. *)
From Coq Require Import String List Bool Arith ZArith Reals Lra Lia.
From Verif Require Import Expr ExprProofs Segment Collect SpecSystem Components SpecComponents ComponentsProofs ElementProofs UnbalancedLine SpecUnbalanced UnbalancedProofs
  SpecInfeasibility BilinearProofs InfeasibilityProofs Network SpecNetwork NetworkProofs NetworkKinds NetworkAssign SpecKirchhoff KirchhoffProofs KirchhoffNet
  NetTwin SpecNetInfeas NetInfeasProofs NetInfeasFinal SpecNetLeast NetLeastProofs.
Import ListNotations.
Local Open Scope R_scope.

Lemma lsum_app {A} (f : A -> R) l1 l2 : lsum f (l1 ++ l2) = lsum f l1 + lsum f l2.
Proof. induction l1 as [|x l IH]; cbn [app]; [change (lsum f []) with 0; ring|]. change (lsum f (x :: l ++ l2)) with (f x + lsum f (l ++ l2)). change (lsum f (x :: l)) with (f x + lsum f l). rewrite IH. ring. Qed.
Lemma lsum_fours G n : lsum G (seq 0 (4 * n)) = Rsum (fun k => G (4 * k)%nat + G (4 * k + 1)%nat + G (4 * k + 2)%nat + G (4 * k + 3)%nat) n.
Proof.
  rewrite Rsum_lsum. induction n as [|n IH]; [reflexivity|].
  replace (4 * S n)%nat with (4 * n + 4)%nat by lia. rewrite seq_app, lsum_app, IH. rewrite (seq_S n), lsum_app. f_equal.
  change (0 + 4 * n)%nat with (4 * n)%nat. change (0 + n)%nat with n. unfold lsum. cbn [seq fold_right]. generalize (4 * n)%nat as m. intros m.
  rewrite (Nat.add_comm m 1), (Nat.add_comm m 2), (Nat.add_comm m 3). cbn [Nat.add]. ring.
Qed.
Lemma Rsum_nonneg g n : (forall i, (i < n)%nat -> 0 <= g i) -> 0 <= Rsum g n.
Proof.
  intros H. rewrite Rsum_lsum. assert (Z : forall l, (forall i, In i l -> 0 <= g i) -> 0 <= lsum g l).
  { induction l as [|x l IH]; intros HL; cbn [lsum fold_right]; [lra|]. fold (lsum g l). specialize (HL x (or_introl eq_refl)) as Hx. specialize (IH (fun i Hi => HL i (or_intror Hi))). lra. }
  apply Z. intros i Hi. apply H. now apply in_seq0.
Qed.
Lemma Rsum_zero_each g n : (forall i, (i < n)%nat -> 0 <= g i) -> Rsum g n = 0 -> forall i, (i < n)%nat -> g i = 0.
Proof.
  intros H E. rewrite Rsum_lsum in E. assert (Z : forall l, (forall i, In i l -> 0 <= g i) -> 0 <= lsum g l /\ (lsum g l = 0 -> forall i, In i l -> g i = 0)).
  { induction l as [|x l IH]; intros HL; [split; [cbn; lra|intros _ i []]|]. change (lsum g (x :: l)) with (g x + lsum g l). specialize (HL x (or_introl eq_refl)) as Hx.
    destruct (IH (fun i Hi => HL i (or_intror Hi))) as [I1 I2]. split; [lra|]. intros E0 i [<-|Hi]; [lra|apply I2; auto; lra]. }
  intros i Hi. apply (proj2 (Z (seq 0 n) (fun j Hj => H j (proj1 (in_seq0 _ _) Hj)))); [exact E|now apply in_seq0].
Qed.
Lemma Cnorm2_nonneg c : 0 <= Cnorm2 c.
Proof. unfold Cnorm2. pose proof (Rle_0_sqr (fst c)). pose proof (Rle_0_sqr (snd c)). unfold Rsqr in *. lra. Qed.
Lemma Cnorm2_zero c : Cnorm2 c = 0 -> c = C0.
Proof. destruct c as [x y]. unfold Cnorm2, C0. cbn [fst snd]. intros H. destruct (Rplus_sqr_eq_0 x y) as [-> ->]; [exact H|reflexivity]. Qed.

Section Network.
Variables (old : table) (nw : network) (l1 : bool).
Hypothesis OK : network_ok nw.
Hypothesis HO : nw_optimization nw = Some l1.
Hypothesis AF : affine_network nw.
Let a := assign_matrix old nw.
Let a0 := assign_matrix old (plain nw).
Let N := length (nw_buses nw).
Let ws := (repeat 2%nat N ++ flat_map blocks (elements nw))%list.
Let U := unknowns nw.
Let els1 := flat_map present (fst (assign_elems true (as_table a) (2 * (2 * N)) (elements nw))).
Let P := fun q => snd (back ws q).

Lemma affine_energised V : energised nw V.
Proof. split; intros; [apply AF in H; contradiction|apply AF in H; destruct H]. Qed.
(** a vector at which all laws hold when [e] is drawn besides *)
Definition balanced (e : nat -> C) (y : nat -> R) : Prop :=
  (forall k, (k < N)%nat -> F (equations a0) y 0 (2 * k) = - fst (e k) /\ F (equations a0) y 0 (2 * k + 1) = - snd (e k)) /\
  forall r, (2 * N <= r < U)%nat -> F (equations a0) y 0 r = 0.
Definition lam (v : nat -> R) (k : nat) : C := (v (4 * k + 2)%nat, v (4 * k + 3)%nat).
Lemma weighed e v w : balanced e (fun i => w (sig ws i)) -> weigh (fun i => negb (P i)) (2 * U) v els1 w 0 = - Rsum (fun k => dot (lam v k) (e k)) N.
Proof.
  intros [HB HL]. unfold weigh. set (G := fun r => if negb (P r) then v r * F els1 w 0 r else 0).
  assert (4 * N <= 2 * U)%nat by (unfold U, unknowns; fold N; lia).
  replace (2 * U)%nat with (4 * N + (2 * U - 4 * N))%nat by lia. rewrite seq_app, lsum_app. cbn [Nat.add].
  rewrite (lsum_zero _ _ (seq (4 * N) _)).
  - rewrite lsum_fours, Rplus_0_r. replace (- Rsum (fun k => dot (lam v k) (e k)) N) with (Rsum (fun k => - dot (lam v k) (e k)) N).
    2:{ rewrite !Rsum_lsum. replace (- lsum (fun k => dot (lam v k) (e k)) (seq 0 N)) with (-1 * lsum (fun k => dot (lam v k) (e k)) (seq 0 N)) by ring. rewrite <- lsum_scale. apply lsum_ext. intros. ring. }
    apply Rsum_ext. intros k Hk. destruct (bus_places nw k 0 Hk ltac:(lia)) as [A0 B0]. destruct (bus_places nw k 1 Hk ltac:(lia)) as [A1 B1]. fold N ws in A0, A1, B0, B1. rewrite !Nat.add_0_r in A0, B0.
    destruct (HB k Hk) as [H1 H2]. pose proof (row_of_dual old nw l1 OK HO w) as R. fold N ws a a0 els1 in R.
    pose proof (R (2 * k)%nat) as R0. pose proof (R (2 * k + 1)%nat) as R1. rewrite B0, H1 in R0. rewrite B1, H2 in R1. replace (4 * k + 2 + 1)%nat with (4 * k + 3)%nat in R1, B1 by lia.
    assert (Pn : P (4 * k) = true /\ P (4 * k + 1) = true /\ P (4 * k + 2) = false /\ P (4 * k + 3) = false).
    { unfold P. split; [rewrite <- A0; now rewrite back_sig|]. split; [rewrite <- A1; now rewrite back_sig|]. split; [rewrite <- B0|rewrite <- B1]; now rewrite back_del. }
    destruct Pn as (P0 & P1 & P2 & P3). unfold G. rewrite P0, P1, P2, P3. cbn [negb]. rewrite R0, R1. unfold dot, lam. cbn [fst snd]. ring.
  - intros q Hq. apply in_seq in Hq. unfold G. destruct (sig_or_del ws q) as [r [-> | ->]]; unfold P; [now rewrite back_sig|]. rewrite back_del. cbn [snd negb].
    assert (r < U)%nat. { pose proof (proj2 (del_bound ws r)) as D. pose proof (ws_sum nw) as S. fold N ws U in S. rewrite S in D. apply D. lia. }
    assert (2 * N <= r)%nat.
    { destruct (Nat.lt_ge_cases r (2 * N)) as [L|L]; [|exact L]. exfalso. pose proof (Nat.div_mod r 2 ltac:(lia)) as DM. pose proof (Nat.mod_upper_bound r 2 ltac:(lia)) as M.
      destruct (bus_places nw (r / 2) (r mod 2)) as [_ B]; [fold N; lia|lia|]. fold N ws in B. rewrite <- DM in B. rewrite B in Hq. lia. }
    pose proof (row_of_dual old nw l1 OK HO w r) as R. fold N ws a a0 els1 in R. rewrite R, HL by lia. ring.
Qed.

Section Solution.
Variable v : nat -> R.
Hypothesis HF : forall r, (r < as_size a)%nat -> F (equations a) v 0 r = 0.
Lemma big : as_size a = (2 * U + width l1 * N)%nat. Proof. exact (size1 old nw l1 OK HO). Qed.
Lemma wsU : list_sum ws = U. Proof. exact (ws_sum nw). Qed.
Lemma primal_zero r : (r < U)%nat -> F els1 v 0 (sig ws r) = 0.
Proof.
  intros H. pose proof (proj1 (sig_bound ws r)) as B. rewrite wsU in B. specialize (B H).
  assert (HS : F (equations a) v 0 (sig ws r) = 0) by (apply HF; rewrite big; generalize (width l1 * N)%nat; intros; lia).
  pose proof (F_split old nw l1 OK HO v (sig ws r)) as S. fold a N U els1 in S. rewrite S in HS.
  assert (E : F (flat_map present (fst (assign_infeasibility l1 (as_table a) (2 * U) (nw_buses nw)))) v 0 (sig ws r) = 0).
  { apply (inf_elsewhere l1 (as_table a) v (nw_buses nw) 0 (2 * U)); [exact (numbered_all old nw l1 OK HO)|exact B|].
    intros k Hk. fold N in Hk. destruct (bus_places nw k 0) as [_ B0]; [fold N; lia|lia|]. destruct (bus_places nw k 1) as [_ B1]; [fold N; lia|lia|]. fold N ws in B0, B1.
    split; intros E; [apply (sig_del ws r (2 * k + 0))|apply (sig_del ws r (2 * k + 1))]; lia. }
  rewrite E in HS. lra.
Qed.
Lemma own_balanced : balanced (extra l1 a v) (fun i => v (sig ws i)).
Proof.
  split.
  - intros k Hk. destruct (nth_error (nw_buses nw) k) as [b|] eqn:E; [|apply nth_error_None in E; fold N in E; lia].
    unfold a. rewrite (extra_is old nw l1 OK HO v k b E). pose proof (row_bus old nw l1 OK HO v k b E) as R. fold N ws a a0 U in R |- *.
    assert (4 * N <= 2 * U)%nat by (unfold U, unknowns; fold N; lia). assert (SZ : (4 * k + 3 < as_size a)%nat) by (rewrite big; generalize (width l1 * N)%nat; intros; lia).
    rewrite !HF in R by lia. unfold Cadd in R. cbn [fst snd] in R. pose proof (f_equal fst R) as R1. pose proof (f_equal snd R) as R2. cbn [fst snd] in R1, R2. split; lra.
  - intros r Hr. pose proof (row_law old nw l1 OK HO v r) as R. fold N ws a a0 U in R. rewrite <- (R Hr). apply HF. rewrite big.
    pose proof (proj1 (del_bound ws r)) as D. rewrite wsU in D. specialize (D ltac:(lia)). lia.
Qed.
Lemma extra_lam k : (k < N)%nat -> extra l1 a v k = Cscale (if l1 then -1 else -1 / 2) (lam v k).
Proof.
  intros Hk. destruct (nth_error (nw_buses nw) k) as [b|] eqn:E; [|apply nth_error_None in E; fold N in E; lia].
  destruct (infeasible_sound old nw l1 OK HO v (affine_energised _) HF) as [_ H]. fold a in H. rewrite (H k b E). unfold multiplier, a. rewrite (table1 old nw l1 OK HO k b E). reflexivity.
Qed.
(** any other currents *)
Lemma other_balanced E' W : physical_with E' nw W -> exists w, balanced E' (fun i => w (sig ws i)).
Proof.
  intros [W0 [ac [HA [HM HK]]]]. destruct (realised old (plain nw) OK eq_refl W ac W0 HA) as [y [_ [R1 [R2 R3]]]]. fold a0 in R1, R2, R3. cbn [nw_buses plain] in R1, R2, R3. fold N in R2, R3.
  assert (S0 : as_size a0 = U) by (unfold a0; rewrite (size_is old (plain nw) OK eq_refl); reflexivity).
  exists (lift nw l1 y). assert (EQ : forall r, F (equations a0) (fun i => lift nw l1 y (sig ws i)) 0 r = F (equations a0) y 0 r).
  { intros r. apply (plain_rows old nw OK). intros i Hi. now apply (lift_sig nw l1). }
  split.
  - intros k Hk. rewrite !EQ. destruct (nth_error (nw_buses nw) k) as [b|] eqn:E; [|apply nth_error_None in E; fold N in E; lia].
    pose proof (R1 k b E) as Q. pose proof (HK k b E) as K. rewrite <- Q in K. unfold Cadd, C0 in K. cbn [fst snd] in K. pose proof (f_equal fst K) as K1. pose proof (f_equal snd K) as K2. cbn [fst snd] in K1, K2. split; lra.
  - intros r Hr. rewrite EQ. destruct (nth_error (misses ac) (r - 2 * N)) as [x|] eqn:E; [|apply nth_error_None in E; lia].
    pose proof (R2 _ x E) as Q. replace (2 * N + (r - 2 * N))%nat with r in Q by lia. rewrite Q. rewrite Forall_forall in HM. apply HM. eapply nth_error_In; eauto.
Qed.
Lemma pythagoras E' W : physical_with E' nw W -> total_square nw E' = total_square nw (extra l1 a v) + total_square nw (fun k => Csub (E' k) (extra l1 a v k)).
Proof.
  intros HP. destruct (other_balanced E' W HP) as [w HB]. pose proof (els_adjoint old nw l1 OK HO AF v w) as AD. fold a N ws U els1 in AD. fold P in AD.
  rewrite weigh_zero in AD.
  2:{ intros r Hr HPr. destruct (sig_or_del ws r) as [x [-> | ->]].
      - apply primal_zero. pose proof (proj2 (sig_bound ws x)) as D. rewrite wsU in D. auto.
      - unfold P in HPr. rewrite back_del in HPr. discriminate. }
  rewrite (weighed E' v w HB), (weighed (extra l1 a v) v v own_balanced) in AD.
  unfold total_square. fold N. set (e := extra l1 a v) in *. set (c := if l1 then -1 else -1 / 2).
  assert (Hc : forall k x, (k < N)%nat -> dot (e k) x = c * dot (lam v k) x) by (intros k x Hk; unfold e; rewrite (extra_lam k Hk); unfold dot, Cscale, c; cbn [fst snd]; ring).
  assert (Z : Rsum (fun k => dot (e k) (E' k)) N = Rsum (fun k => dot (e k) (e k)) N).
  { rewrite (Rsum_ext _ (fun k => c * dot (lam v k) (E' k))) by auto. rewrite (Rsum_ext (fun k => dot (e k) (e k)) (fun k => c * dot (lam v k) (e k))) by auto.
    rewrite !Rsum_lsum in *. rewrite !lsum_scale. f_equal. lra. }
  rewrite !Rsum_lsum in *. 
  transitivity (lsum (fun k => Cnorm2 (e k)) (seq 0 N) + lsum (fun k => Cnorm2 (Csub (E' k) (e k))) (seq 0 N) + 2 * (lsum (fun k => dot (e k) (E' k)) (seq 0 N) + -1 * lsum (fun k => dot (e k) (e k)) (seq 0 N))); [|rewrite Z; ring].
  rewrite <- !lsum_scale, <- !lsum_add, <- !lsum_scale, <- !lsum_add. apply lsum_ext. intros k _. unfold Cnorm2, Csub, dot. cbn [fst snd]. ring.
Qed.
Lemma square_nonneg E : 0 <= total_square nw E.
Proof. apply Rsum_nonneg. intros. apply Cnorm2_nonneg. Qed.
Lemma square_zero E : total_square nw E = 0 -> forall k, (k < N)%nat -> E k = C0.
Proof. intros H k Hk. apply Cnorm2_zero. exact (Rsum_zero_each _ _ (fun i _ => Cnorm2_nonneg (E i)) H k Hk). Qed.
Lemma least E' W : physical_with E' nw W -> total_square nw (extra l1 a v) <= total_square nw E' /\
  (total_square nw E' <= total_square nw (extra l1 a v) -> forall k, (k < length (nw_buses nw))%nat -> E' k = extra l1 a v k).
Proof.
  intros H. pose proof (pythagoras E' W H) as Q. pose proof (square_nonneg (fun k => Csub (E' k) (extra l1 a v k))) as S. split; [lra|]. intros L k Hk.
  assert (Z : total_square nw (fun k => Csub (E' k) (extra l1 a v k)) = 0) by lra. pose proof (square_zero _ Z k Hk) as D. cbv beta in D.
  destruct (E' k) as [x y], (extra l1 a v k) as [x' y']. unfold Csub, C0 in D. cbn [fst snd] in D. injection D as D1 D2. f_equal; lra.
Qed.
Lemma feasible W : physical nw W -> (forall k, (k < length (nw_buses nw))%nat -> extra l1 a v k = C0) /\ physical nw (voltages a v).
Proof.
  intros [W0 [ac [HA [HM HK]]]].
  assert (PW : physical_with (fun _ => C0) nw W).
  { split; [exact W0|]. exists ac. split; [exact HA|]. split; [exact HM|]. intros k b Hk. rewrite HK by (eapply nth_error_In; eauto). unfold Cadd, C0. cbn [fst snd]. f_equal; ring. }
  assert (Z : forall k, (k < length (nw_buses nw))%nat -> extra l1 a v k = C0).
  { apply square_zero. destruct (least _ _ PW) as [L _]. pose proof (square_nonneg (extra l1 a v)). assert (T : total_square nw (fun _ => C0) = 0).
    { unfold total_square. rewrite Rsum_lsum. apply lsum_zero. intros. unfold Cnorm2, C0. cbn [fst snd]. ring. }
    lra. }
  split; [exact Z|]. exact (infeasible_zero old nw l1 OK HO v (affine_energised _) HF Z).
Qed.
End Solution.
End Network.
(** both objectives, any numbering *)
Lemma same_currents old old' nw nw' l1 l1' : network_ok nw -> affine_network nw -> nw_optimization nw = Some l1 -> nw_optimization nw' = Some l1' ->
  nw_buses nw' = nw_buses nw -> elements nw' = elements nw -> let a := assign_matrix old nw in let a' := assign_matrix old' nw' in forall v v',
  (forall r, (r < as_size a)%nat -> F (equations a) v 0 r = 0) -> (forall r, (r < as_size a')%nat -> F (equations a') v' 0 r = 0) ->
  forall k, (k < length (nw_buses nw))%nat -> extra l1 a v k = extra l1' a' v' k.
Proof.
  intros OK AF HO HO' EB EE a a' v v' H H' k Hk.
  assert (OK' : network_ok nw') by (unfold network_ok; rewrite EB, EE; exact OK).
  assert (AF' : affine_network nw') by (unfold affine_network; rewrite EE; exact AF).
  destruct (infeasible_sound old nw l1 OK HO v (affine_energised nw AF _) H) as [P1 _]. fold a in P1.
  destruct (infeasible_sound old' nw' l1' OK' HO' v' (affine_energised nw' AF' _) H') as [P2 _]. fold a' in P2.
  assert (P2' : physical_with (extra l1' a' v') nw (voltages a' v')).
  { destruct P2 as [X [ac [[Q1 Q2] [Q3 Q4]]]]. split; [exact X|]. exists ac. rewrite EE in Q1. rewrite EB in Q4. split; [split; assumption|]. split; assumption. }
  assert (P1' : physical_with (extra l1 a v) nw' (voltages a v)).
  { destruct P1 as [X [ac [[Q1 Q2] [Q3 Q4]]]]. split; [exact X|]. exists ac. rewrite <- EE in Q1. rewrite <- EB in Q4. split; [split; assumption|]. split; assumption. }
  destruct (least old nw l1 OK HO AF v H _ _ P2') as [_ L]. destruct (least old' nw' l1' OK' HO' AF' v' H' _ _ P1') as [L' _]. symmetry. apply L; [|exact Hk].
  unfold total_square in L' |- *. rewrite EB in L'. exact L'.
Qed.
