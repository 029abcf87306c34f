(** Lemmas behind the C147 theorems. *)
From Coq Require Import String List Bool Arith ZArith Reals Lra Lia.
From Verif Require Import Expr ExprProofs Segment Collect SpecSystem Components SpecComponents ComponentsProofs ElementProofs UnbalancedLine
  Network SpecNetwork NetworkProofs NetworkKinds NetworkAssign SpecKirchhoff KirchhoffProofs KirchhoffNet NetTwin SpecNetInfeas NetInfeasProofs.
Import ListNotations.
Local Open Scope R_scope.

(** *** elements only see their buses and their own unknowns *)
Lemma row_cols e v v' r : (forall x i, lookup (sd_var (fst e)) x = Some (Some i) -> v i = v' i) -> elem_row e v 0 r = elem_row e v' 0 r.
Proof.
  intros H. rewrite !elem_row_hsum. generalize (first_orders (fst e)). induction l as [|x l IH]; [reflexivity|]. cbn [hsum]. rewrite IH. f_equal. f_equal.
  apply den_ext. intros s _. unfold sym_val. destruct (index_of s (sg_constants (sd_seg (fst e)))); [reflexivity|].
  destruct (lookup (sd_var (fst e)) s) as [[i|]|] eqn:E; auto. exact (H s i E).
Qed.
Lemma elem_cols (opt : bool) tbl e m n v v' r : refs_ok (below m) tbl e -> (m <= n)%nat ->
  (forall i, (i < n + (if opt then 2 else 1) * own_unknowns e)%nat -> v i = v' i) ->
  F (present (fst (assign_elem opt tbl n e))) v 0 r = F (present (fst (assign_elem opt tbl n e))) v' 0 r.
Proof.
  intros H Hm Hv. pose proof (good_elem (below m) opt tbl n e H) as G. rewrite elem_size in G.
  assert (Z : forall es, incl es (present (fst (assign_elem opt tbl n e))) -> F es v 0 r = F es v' 0 r).
  2:{ apply Z, incl_refl. }
  induction es as [|x es IH]; intros I; [reflexivity|]. unfold F in *. cbn [fold_right]. rewrite IH by (intros y Hy; apply I; now right). f_equal.
  apply row_cols. intros s i E. apply Hv. destruct (g_used _ _ _ _ G i) as [B|B]; [|unfold below in B; lia|lia].
  apply used_in. exists x, s. split; [apply I; now left|now apply lookup_in].
Qed.
Lemma elems_cols (opt : bool) tbl es m v v' r : (forall e, In e es -> refs_ok (below m) tbl e) -> forall n, (m <= n)%nat ->
  (forall i, (i < n + (if opt then 2 else 1) * list_sum (map own_unknowns es))%nat -> v i = v' i) ->
  F (flat_map present (fst (assign_elems opt tbl n es))) v 0 r = F (flat_map present (fst (assign_elems opt tbl n es))) v' 0 r.
Proof.
  induction es as [|e es IH]; intros H n Hm Hv; [reflexivity|]. cbn [map list_sum fold_right] in Hv. fold (list_sum (map own_unknowns es)) in Hv.
  cbn [assign_elems]. pose proof (elem_cols opt tbl e m n v v' r (H e (or_introl eq_refl)) Hm) as A. pose proof (elem_size opt tbl n e) as Sz.
  destruct (assign_elem opt tbl n e) as [s n1]. cbn [fst snd] in *. specialize (IH (fun x Hx => H x (or_intror Hx)) n1 ltac:(lia)).
  destruct (assign_elems opt tbl n1 es) as [rest n2]. cbn [fst flat_map] in *. rewrite !F_app, A, IH; [reflexivity| |]; intros i Hi; apply Hv; destruct opt; lia.
Qed.

Section Network.
Variables (old : table) (nw : network) (l1 : bool).
Hypothesis OK : network_ok nw.
Hypothesis HO : nw_optimization nw = Some l1.
Let a := assign_matrix old nw.
Let a0 := assign_matrix old (plain nw).
Let N := length (nw_buses nw).
Let ws := (repeat 2%nat N ++ flat_map blocks (elements nw))%list.
Let U := unknowns nw.

Lemma W : list_sum ws = U. Proof. exact (ws_sum nw). Qed.
Lemma infeasible_rows v : energised nw (voltages a v) -> exists ac, accounts_for (voltages a v) nw ac /\ gives_infeasible_rows l1 nw a ac v.
Proof. intros H. exists (ac_of old nw v). split; [now apply ac_accounts|]. exact (all_gives old nw l1 OK HO v). Qed.
Lemma infeasible_within eps v : energised nw (voltages a v) -> (forall r, (r < as_size a)%nat -> Rabs (F (equations a) v 0 r) < eps) ->
  nearly_physical_with eps (extra l1 a v) nw (voltages a v).
Proof.
  intros HE HF. split; [reflexivity|]. destruct (infeasible_rows v HE) as [ac [HA [R1 [R2 _]]]]. exists ac. split; [exact HA|]. cbv zeta in R1, R2. split.
  - apply Forall_forall. intros x Hx. apply In_nth_error in Hx as [j Hj]. destruct (R2 j x Hj) as [r [Hr <-]]. auto.
  - intros k b Hk. destruct (R1 k b Hk) as [i [j [_ [_ [Hi [Hj E]]]]]]. rewrite <- E. cbn [fst snd]. auto.
Qed.
Lemma infeasible_sound v : energised nw (voltages a v) -> (forall r, (r < as_size a)%nat -> F (equations a) v 0 r = 0) ->
  physical_with (extra l1 a v) nw (voltages a v) /\
  forall k b, nth_error (nw_buses nw) k = Some b -> extra l1 a v k = Cscale (if l1 then -1 else -1 / 2) (multiplier a v b).
Proof.
  intros HE HF. destruct (infeasible_rows v HE) as [ac [HA [R1 [R2 R3]]]]. cbv zeta in R1, R2, R3. split; [split; [reflexivity|]|].
  - exists ac. split; [exact HA|]. split.
    + apply Forall_forall. intros x Hx. apply In_nth_error in Hx as [j Hj]. destruct (R2 j x Hj) as [r [Hr <-]]. auto.
    + intros k b Hk. destruct (R1 k b Hk) as [i [j [_ [_ [Hi [Hj E]]]]]]. rewrite <- E. now rewrite !HF.
  - intros k b Hk. specialize (R3 k b Hk). unfold extra. destruct l1.
    + destruct R3 as [i [j [p [q [_ [_ [_ [_ [Hi [Hj [Hp [Hq [E1 [E2 [E3 E4]]]]]]]]]]]]]]].
      rewrite HF in E1, E2, E3, E4 by assumption. unfold Csub, Cscale. cbn [fst snd]. f_equal; lra.
    + destruct R3 as [i [j [_ [_ [Hi [Hj [E1 E2]]]]]]]. rewrite HF in E1, E2 by assumption. unfold Cscale. f_equal; lra.
Qed.
Lemma infeasible_zero v : energised nw (voltages a v) -> (forall r, (r < as_size a)%nat -> F (equations a) v 0 r = 0) ->
  (forall k, (k < length (nw_buses nw))%nat -> extra l1 a v k = C0) -> physical nw (voltages a v).
Proof.
  intros HE HF HZ. destruct (infeasible_sound v HE HF) as [[V0 [ac [HA [HM HK]]]] _]. split; [exact V0|]. exists ac. split; [exact HA|]. split; [exact HM|].
  intros b Hb. apply In_nth_error in Hb as [k Hk]. specialize (HK k b Hk). rewrite HZ in HK by (apply nth_error_Some; congruence).
  destruct (net_current (bus_id b) ac) as [x y]. unfold Cadd, C0 in *. cbn [fst snd] in HK. injection HK as E1 E2. f_equal; lra.
Qed.
(** a vector with given values of unknowns, all multipliers 0 *)
Definition lift (v0 : nat -> R) (q : nat) : R :=
  if Nat.ltb q (2 * U) then (let (r, b) := back ws q in if b then v0 r else 0) else if l1 then -1 / 2 else 0.
Lemma lift_sig v0 r : (r < U)%nat -> lift v0 (sig ws r) = v0 r.
Proof.
  intros H. unfold lift. pose proof (proj1 (sig_bound ws r)) as B. rewrite W in B. specialize (B H).
  rewrite (proj2 (Nat.ltb_lt _ _) B), back_sig. reflexivity.
Qed.
Lemma lift_del v0 r : (r < U)%nat -> lift v0 (del ws r) = 0.
Proof.
  intros H. unfold lift. pose proof (proj1 (del_bound ws r)) as B. rewrite W in B. specialize (B H).
  rewrite (proj2 (Nat.ltb_lt _ _) B), back_del. reflexivity.
Qed.
Lemma lift_own v0 q : (2 * U <= q)%nat -> lift v0 q = if l1 then -1 / 2 else 0.
Proof. intros H. unfold lift. destruct (Nat.ltb_spec q (2 * U)); [lia|reflexivity]. Qed.
Lemma plain_rows v v' r : (forall i, (i < U)%nat -> v i = v' i) -> F (equations a0) v 0 r = F (equations a0) v' 0 r.
Proof.
  intros H. unfold a0. rewrite (els0_equations old nw OK). apply (elems_cols false _ _ (bus_count (plain nw))).
  - intros e He. apply (covers_ref old (plain nw)); auto.
  - unfold bus_count. cbn. lia.
  - intros i Hi. apply H. unfold U, unknowns. lia.
Qed.
Lemma primal_rows v r : (r < U)%nat -> (forall i, (i < U)%nat -> v (del ws i) = 0) -> F (equations a) v 0 (sig ws r) = 0.
Proof.
  intros H Z. set (v' := fun q => if Nat.ltb q (2 * U) then v q else 0).
  assert (Z' : forall i, v' (del ws i) = 0).
  { intros i. unfold v'. destruct (Nat.ltb_spec (del ws i) (2 * U)) as [L|L]; [|reflexivity]. apply Z. rewrite <- W in *. now apply del_bound in L. }
  transitivity (F (equations a) v' 0 (sig ws r)); [|exact (row_primal old nw l1 OK HO v' r H Z')]. unfold a. rewrite !(F_split old nw l1 OK HO). f_equal.
  - apply (elems_cols true _ _ (bus_count nw)).
    + intros e He. apply covers_ref; auto.
    + unfold bus_count, optimizing. rewrite HO. cbn [per_bus]. fold N. lia.
    + intros i Hi. unfold v'. destruct (Nat.ltb_spec i (2 * U)) as [L|L]; [reflexivity|]. unfold U, unknowns in L. fold N in L. lia.
  - assert (P : (sig ws r < 2 * U)%nat). { pose proof (proj1 (sig_bound ws r)) as B. rewrite W in B. auto. }
    assert (Q : forall k, (0 <= k < 0 + length (nw_buses nw))%nat -> sig ws r <> (4 * k + 2)%nat /\ sig ws r <> (4 * k + 3)%nat).
    { intros k Hk. destruct (bus_places nw k 0) as [_ B0]; [lia|lia|]. destruct (bus_places nw k 1) as [_ B1]; [lia|lia|]. fold N ws in B0, B1.
      split; intros E; [apply (sig_del ws r (2 * k + 0))|apply (sig_del ws r (2 * k + 1))]; lia. }
    rewrite !(inf_elsewhere l1 _ _ (nw_buses nw) 0 _ _ (numbered_all old nw l1 OK HO) P Q). reflexivity.
Qed.
Lemma zero_multiplier v k b : nth_error (nw_buses nw) k = Some b -> (forall i, (i < U)%nat -> v (del ws i) = 0) -> multiplier a v b = C0.
Proof.
  intros H Z. unfold multiplier, a. rewrite (table1 old nw l1 OK HO k b H). pose proof (bus_lt nw k b H) as L. fold N in L.
  destruct (bus_places nw k 0) as [_ B0]; [exact L|lia|]. destruct (bus_places nw k 1) as [_ B1]; [exact L|lia|]. fold N ws in B0, B1.
  unfold mult, new_nodes, SpecComponents.read. cbn [n_Lr n_Li]. unfold C0.
  assert (2 * k + 1 < U)%nat by (unfold U, unknowns; fold N; lia).
  f_equal; [replace (4 * k + 2)%nat with (del ws (2 * k + 0)) by lia|replace (4 * k + 3)%nat with (del ws (2 * k + 1)) by lia]; apply Z; lia.
Qed.
(** all rows at a vector with zero multipliers *)
Lemma zero_rows v0 v : (forall i, (i < U)%nat -> v (sig ws i) = v0 i) -> (forall i, (i < U)%nat -> v (del ws i) = 0) ->
  (forall q, (2 * U <= q < as_size a)%nat -> v q = if l1 then -1 / 2 else 0) -> (forall r, (r < U)%nat -> F (equations a0) v0 0 r = 0) ->
  forall q, (q < as_size a)%nat -> F (equations a) v 0 q = 0.
Proof.
  intros H1 Zd H3 H4. assert (SZ : as_size a = (2 * U + width l1 * N)%nat) by exact (size1 old nw l1 OK HO). rewrite SZ in H3.
  intros q Hq. destruct (row_kinds old nw l1 OK HO q Hq) as [[r [Hr [-> | ->]]]|[k [b [i [Hk [Hi ->]]]]]].
    + fold N ws. now apply primal_rows.
    + fold N ws. assert (E0 : F (equations a0) (fun i => v (sig ws i)) 0 r = 0).
      { rewrite (plain_rows _ v0) by auto. auto. }
      destruct (Nat.lt_ge_cases r (2 * N)) as [L|L].
      * assert (K : (r / 2 < N)%nat) by (apply Nat.div_lt_upper_bound; lia).
        destruct (nth_error (nw_buses nw) (r / 2)) as [b|] eqn:E; [|apply nth_error_None in E; fold N in E; lia].
        pose proof (row_bus old nw l1 OK HO v (r / 2) b E) as R. fold N ws a0 U in R.
        assert (D : drawn_at l1 v (2 * U + width l1 * (r / 2)) = C0).
        { unfold drawn_at. clear R. destruct l1; cbn [width] in *; rewrite !H3 by lia; unfold C0; f_equal; lra. }
        rewrite D in R. destruct (bus_places nw (r / 2) (r mod 2)) as [_ B]; [exact K|apply Nat.mod_upper_bound; lia|]. fold N ws in B.
        pose proof (Nat.div_mod r 2 ltac:(lia)) as DM. rewrite <- DM in B. rewrite B. unfold Cadd, C0 in R. pose proof (f_equal fst R) as R1. pose proof (f_equal snd R) as R2. cbn [fst snd] in R1, R2.
        destruct (r mod 2) as [|[|z]] eqn:M; [| |pose proof (Nat.mod_upper_bound r 2 ltac:(lia)); lia].
        -- rewrite Nat.add_0_r in *. fold a in R1. rewrite R1. replace (2 * (r / 2))%nat with r by lia. rewrite E0. ring.
        -- replace (4 * (r / 2) + 2 + 1)%nat with (4 * (r / 2) + 3)%nat by lia. fold a in R2. rewrite R2. replace (2 * (r / 2) + 1)%nat with r by lia. rewrite E0. ring.
      * pose proof (row_law old nw l1 OK HO v r) as RL. fold N ws a a0 U in RL. rewrite RL by lia. exact E0.
    + unfold a. rewrite (row_own old nw l1 OK HO v k b i Hk Hi). fold U. pose proof (zero_multiplier v k b Hk Zd) as M. unfold multiplier in M. unfold ties. fold a. rewrite M.
      unfold C0. cbn [fst snd]. pose proof (bus_lt nw k b Hk) as KL. fold N in KL. destruct l1; cbn [width] in *; rewrite !H3 by lia.
      * destruct i as [|[|[|[|i]]]]; cbn [nth]; try lra; lia.
      * destruct i as [|[|i]]; cbn [nth]; try lra; lia.
Qed.
Lemma infeasible_complete V : physical nw V -> exists v,
  (forall b, In b (nw_buses nw) -> voltages a v (Some (bus_id b)) = V (Some (bus_id b)) /\ multiplier a v b = C0) /\
  (forall k, (k < length (nw_buses nw))%nat -> extra l1 a v k = C0) /\
  forall r, (r < as_size a)%nat -> F (equations a) v 0 r = 0.
Proof.
  intros HP. destruct (complete old (plain nw) OK eq_refl V HP) as [v0 [HV HF]]. fold a0 in HV, HF.
  assert (S0 : as_size a0 = U) by (unfold a0; rewrite (size_is old (plain nw) OK eq_refl); reflexivity).
  set (v := lift v0). assert (Zd : forall i, (i < U)%nat -> v (del ws i) = 0) by (intros; now apply lift_del).
  exists v. split; [|split].
  - intros b Hb. pose proof (HV b Hb) as HVb. apply In_nth_error in Hb as [k Hk]. split; [|eapply zero_multiplier; eauto]. rewrite <- HVb.
    unfold a. rewrite (voltages_bus old nw l1 OK HO v k b Hk). fold N ws a0. unfold voltages. cbn [at_ref]. unfold a0. rewrite (table0 old nw OK k b Hk). unfold volt, SpecComponents.read, new_nodes.
    cbn [n_Vr n_Vi]. pose proof (bus_lt nw k b Hk). assert (2 * k + 1 < U)%nat by (unfold U, unknowns; lia).
    f_equal; apply lift_sig; lia.
  - intros k Hk. destruct (nth_error (nw_buses nw) k) as [b|] eqn:E; [|apply nth_error_None in E; lia]. unfold a. rewrite (extra_is old nw l1 OK HO v k b E). fold U.
    unfold drawn_at, v. destruct l1 eqn:EL; rewrite !lift_own by lia; rewrite EL; unfold C0; f_equal; lra.
  - apply (zero_rows v0); auto.
    + intros; now apply lift_sig.
    + intros. apply lift_own. lia.
    + intros. apply HF. lia.
Qed.
End Network.
