(** Lemmas for C147: the rows of a whole network with infeasibility currents. *)
From Coq Require Import String List Bool Arith Reals Lra Lia.
From Verif Require Import Expr Segment Collect SpecSystem Components SpecComponents ComponentsProofs ElementProofs UnbalancedLine
  Network SpecNetwork NetworkProofs NetworkKinds NetworkAssign SpecKirchhoff KirchhoffProofs KirchhoffNet NetTwin SpecNetInfeas.
Import ListNotations.
Local Open Scope R_scope.

(** *** infeasibility currents *)
Definition inf_stampers (l1 : bool) := if l1 then l1_stampers else l2_stampers.
Definition width (l1 : bool) : nat := if l1 then 4%nat else 2%nat.
Definition drawn_at (l1 : bool) (v : nat -> R) (n : nat) : C :=
  if l1 then (v (n + 2)%nat - v n, v (n + 3)%nat - v (n + 1)%nat) else (v n, v (S n)).
Definition ties (l1 : bool) (v : nat -> R) (b : nodes) (n : nat) : list R :=
  let L := mult v b in
  if l1 then [1 - fst L + 2 * v n; 1 - snd L + 2 * v (n + 1)%nat; 1 + fst L + 2 * v (n + 2)%nat; 1 + snd L + 2 * v (n + 3)%nat]
  else [fst L + 2 * v n; snd L + 2 * v (S n)].
Lemma ties_length l1 v b n : length (ties l1 v b n) = width l1.
Proof. destruct l1; reflexivity. Qed.
Lemma inf_rows l1 v b n r : F (present (fst (inf_stampers l1 b n))) v 0 r = own n (ties l1 v b n) r + at_lambda b (drawn_at l1 v n) r.
Proof.
  destruct l1; cbn [inf_stampers ties drawn_at own]; [rewrite l1_rows|rewrite l2_rows]; cbv zeta.
  - replace (n + 1)%nat with (S n) by lia. replace (n + 2)%nat with (S (S n)) by lia. replace (n + 3)%nat with (S (S (S n))) by lia. ring.
  - ring.
Qed.
Lemma own_above m : forall n r, (n + length m <= r)%nat -> own n m r = 0.
Proof.
  induction m as [|x m IH]; intros n r H; [reflexivity|]. cbn [own length] in *. rewrite IH by lia. unfold hit. destruct (Nat.eqb_spec n r); [lia|ring].
Qed.
Lemma inf_cons l1 tbl b bs n :
  assign_infeasibility l1 tbl n (b :: bs) =
  (fst (inf_stampers l1 (tbl (bus_id b)) n) :: fst (assign_infeasibility l1 tbl (n + width l1) bs), snd (assign_infeasibility l1 tbl (n + width l1) bs)).
Proof.
  cbn [assign_infeasibility]. destruct l1; cbn [inf_stampers width l1_stampers l2_stampers fst]; now destruct (assign_infeasibility _ tbl _ bs).
Qed.
Section Inf.
Variables (l1 : bool) (tbl : table) (v : nat -> R).
Let Finf (n : nat) (bs : list bus) (r : nat) := F (flat_map present (fst (assign_infeasibility l1 tbl n bs))) v 0 r.
Lemma Finf_cons n b bs r : Finf n (b :: bs) r = own n (ties l1 v (tbl (bus_id b)) n) r + at_lambda (tbl (bus_id b)) (drawn_at l1 v n) r + Finf (n + width l1) bs r.
Proof. unfold Finf. rewrite inf_cons. cbn [fst flat_map]. now rewrite F_app, inf_rows. Qed.
Definition numbered (k0 : nat) (bs : list bus) : Prop := forall j b, nth_error bs j = Some b -> tbl (bus_id b) = new_nodes (4 * (k0 + j)) true.
Lemma numbered_tail k0 b bs : numbered k0 (b :: bs) -> numbered (S k0) bs.
Proof. intros H j c Hj. replace (S k0 + j)%nat with (k0 + S j)%nat by lia. now apply H. Qed.
Lemma numbered_head k0 b bs : numbered k0 (b :: bs) -> tbl (bus_id b) = new_nodes (4 * k0) true.
Proof. intros H. rewrite (H 0%nat b eq_refl). f_equal. lia. Qed.
Lemma lambda_new k c r : at_lambda (new_nodes (4 * k) true) c r = (if Nat.eqb r (4 * k + 2) then fst c else 0) + (if Nat.eqb r (4 * k + 3) then snd c else 0).
Proof.
  unfold at_lambda, new_nodes. cbn [n_Lr n_Li hit]. rewrite (Nat.eqb_sym (4 * k + 2) r), (Nat.eqb_sym (4 * k + 3) r).
  destruct (Nat.eqb r (4 * k + 2)), (Nat.eqb r (4 * k + 3)); ring.
Qed.
Ltac eqbs := repeat match goal with |- context [Nat.eqb ?a ?b] => destruct (Nat.eqb_spec a b); try lia end.
Lemma inf_elsewhere bs : forall k0 n r, numbered k0 bs -> (r < n)%nat -> (forall k, (k0 <= k < k0 + length bs)%nat -> r <> 4 * k + 2 /\ r <> 4 * k + 3)%nat -> Finf n bs r = 0.
Proof.
  induction bs as [|b bs IH]; intros k0 n r Hn Hr Hk; [reflexivity|]. rewrite Finf_cons, (IH (S k0)); [|eapply numbered_tail; eauto|lia|intros k Hk'; apply Hk; cbn [length]; lia].
  rewrite own_below by lia. rewrite (numbered_head _ _ _ Hn), lambda_new. destruct (Hk k0) as [A B]; [cbn [length]; lia|]. eqbs. ring.
Qed.
Lemma inf_dual bs : forall k0 n j b, numbered k0 bs -> (4 * (k0 + length bs) <= n)%nat -> nth_error bs j = Some b ->
  (Finf n bs (4 * (k0 + j) + 2), Finf n bs (4 * (k0 + j) + 3)) = drawn_at l1 v (n + width l1 * j).
Proof.
  induction bs as [|b0 bs IH]; intros k0 n j b Hn Hl Hj; [destruct j; discriminate|]. rewrite !Finf_cons, (numbered_head _ _ _ Hn), !lambda_new. cbn [length] in Hl.
  assert (length bs >= j)%nat by (assert (j < length (b0 :: bs))%nat by (apply nth_error_Some; congruence); cbn [length] in *; lia).
  rewrite !own_below by lia. destruct j as [|j].
  - rewrite !(inf_elsewhere bs (S k0)) by (try (eapply numbered_tail; eauto); try lia; intros; lia).
    replace (4 * (k0 + 0))%nat with (4 * k0)%nat by lia. replace (n + width l1 * 0)%nat with n by lia. eqbs. destruct (drawn_at l1 v n) as [x y]. cbn [fst snd]. f_equal; ring.
  - cbn [nth_error] in Hj. specialize (IH (S k0) (n + width l1)%nat j b (numbered_tail _ _ _ Hn) ltac:(lia) Hj).
    replace (k0 + S j)%nat with (S k0 + j)%nat by lia. replace (n + width l1 * S j)%nat with (n + width l1 + width l1 * j)%nat by lia. rewrite <- IH. eqbs. f_equal; ring.
Qed.
Lemma inf_own bs : forall k0 n j b i, numbered k0 bs -> (4 * (k0 + length bs) <= n)%nat -> nth_error bs j = Some b -> (i < width l1)%nat ->
  Finf n bs (n + width l1 * j + i) = nth i (ties l1 v (tbl (bus_id b)) (n + width l1 * j)) 0.
Proof.
  induction bs as [|b0 bs IH]; intros k0 n j b i Hn Hl Hj Hi; [destruct j; discriminate|]. rewrite Finf_cons. cbn [length] in Hl.
  assert (A : forall r, (n <= r)%nat -> at_lambda (tbl (bus_id b0)) (drawn_at l1 v n) r = 0).
  { intros r Hr. rewrite (numbered_head _ _ _ Hn), lambda_new. eqbs. ring. }
  destruct j as [|j]; cbn [nth_error] in Hj.
  - injection Hj as <-. replace (n + width l1 * 0)%nat with n by lia. rewrite own_nth, A by lia.
    rewrite (inf_elsewhere bs (S k0)) by (try (eapply numbered_tail; eauto); try lia; intros; lia). ring.
  - replace (n + width l1 * S j)%nat with (n + width l1 + width l1 * j)%nat by lia.
    rewrite <- (IH (S k0) (n + width l1)%nat j b i (numbered_tail _ _ _ Hn) ltac:(lia) Hj Hi).
    rewrite A, own_above by (rewrite ?ties_length; lia). ring.
Qed.
Lemma inf_nth bs : forall n j b, nth_error bs j = Some b ->
  nth j (fst (assign_infeasibility l1 tbl n bs)) [] = fst (inf_stampers l1 (tbl (bus_id b)) (n + width l1 * j)).
Proof.
  induction bs as [|b0 bs IH]; intros n j b Hj; [destruct j; discriminate|]. rewrite inf_cons. cbn [fst]. destruct j as [|j]; cbn [nth_error nth] in *.
  - injection Hj as ->. f_equal. f_equal. lia.
  - rewrite (IH (n + width l1)%nat j b Hj). f_equal. f_equal. lia.
Qed.
End Inf.

(** *** elements have no rows beyond their own *)
Lemma elem_above tbl e m n v r : refs_ok (below m) tbl e -> (m <= n)%nat -> (n + 2 * own_unknowns e <= r)%nat -> F (present (fst (assign_elem true tbl n e))) v 0 r = 0.
Proof.
  intros H Hm Hr. pose proof (good_elem (below m) true tbl n e H) as G. pose proof (elem_size true tbl n e) as Sz. cbn [Nat.mul] in Sz.
  assert (Z : forall es, incl es (present (fst (assign_elem true tbl n e))) -> F es v 0 r = 0).
  2:{ apply Z, incl_refl. }
  induction es as [|x es IH]; intros I; [reflexivity|]. rewrite F_cons, IH by (intros y Hy; apply I; now right). rewrite hsum_free; [ring|].
  intros s Hs. apply hit_miss. destruct (g_rows _ _ _ _ G x s (I x (or_introl eq_refl)) Hs) as [o [E Ho]]. unfold where_. rewrite E. intros ->.
  specialize (Ho r eq_refl). unfold below in Ho. lia.
Qed.
Lemma elems_above tbl es m v r : (forall e, In e es -> refs_ok (below m) tbl e) -> forall n, (m <= n)%nat -> (n + 2 * list_sum (map own_unknowns es) <= r)%nat ->
  F (flat_map present (fst (assign_elems true tbl n es))) v 0 r = 0.
Proof.
  induction es as [|e es IH]; intros H n Hm Hr; [reflexivity|]. cbn [map list_sum fold_right] in Hr. fold (list_sum (map own_unknowns es)) in Hr.
  cbn [assign_elems]. pose proof (elem_above tbl e m n v r (H e (or_introl eq_refl)) Hm ltac:(lia)) as A. pose proof (elem_size true tbl n e) as Sz.
  destruct (assign_elem true tbl n e) as [s n1]. cbn [fst snd] in *. specialize (IH (fun x Hx => H x (or_intror Hx)) n1 ltac:(lia) ltac:(lia)).
  destruct (assign_elems true tbl n1 es) as [rest n2]. cbn [fst flat_map] in *. rewrite F_app, A, IH. ring.
Qed.
Lemma account_ext V V' v es : forall n, (forall e, In e es -> forall b, In b (refs e) -> V b = V' b) -> account_of V v n es = account_of V' v n es.
Proof.
  induction es as [|e es IH]; intros n H; [reflexivity|]. cbn [account_of]. cbv zeta.
  destruct (draws_ext V V' e (fun j => v (n + j)%nat) (fun j => v (n + j)%nat)) as [E1 E2]; [apply H; now left|reflexivity|]. rewrite E1, E2. f_equal.
  apply IH. intros x Hx. apply H. now right.
Qed.

(** *** the network without optimisation *)
Definition plain (nw : network) : network :=
  {| nw_three_phase := nw_three_phase nw; nw_buses := nw_buses nw; nw_lines := nw_lines nw; nw_transformers := nw_transformers nw; nw_slack := nw_slack nw;
     nw_switches := nw_switches nw; nw_generators := nw_generators nw; nw_loads := nw_loads nw; nw_misc := nw_misc nw; nw_sources := nw_sources nw;
     nw_shunts := nw_shunts nw; nw_regulators := nw_regulators nw; nw_fuses := nw_fuses nw; nw_capacitors := nw_capacitors nw; nw_optimization := None |}.

Section Network.
Variables (old : table) (nw : network) (l1 : bool).
Hypothesis OK : network_ok nw.
Hypothesis HO : nw_optimization nw = Some l1.
Let a := assign_matrix old nw.
Let a0 := assign_matrix old (plain nw).
Let N := length (nw_buses nw).
Let ws := (repeat 2%nat N ++ flat_map blocks (elements nw))%list.
Let U := unknowns nw.

Lemma plain_ok : network_ok (plain nw). Proof. exact OK. Qed.
Lemma ws_sum : list_sum ws = U.
Proof.
  unfold ws, U, unknowns. fold N. rewrite list_sum_app. f_equal.
  - clear. induction N as [|n IH]; [reflexivity|]. cbn [repeat list_sum fold_right]. fold (list_sum (repeat 2%nat n)). lia.
  - induction (elements nw) as [|e es IH]; [reflexivity|]. cbn [flat_map map list_sum fold_right]. fold (list_sum (map own_unknowns es)). now rewrite list_sum_app, blocks_sum, IH.
Qed.
Lemma sum_twos n : list_sum (repeat 2%nat n) = (2 * n)%nat.
Proof. induction n as [|n IH]; [reflexivity|]. cbn [repeat list_sum fold_right]. fold (list_sum (repeat 2%nat n)). lia. Qed.
Lemma laid_twos s d M : forall n k i, laid s d n (repeat 2%nat M) -> (k < M)%nat -> (i < 2)%nat ->
  s (n + 2 * k + i)%nat = (2 * n + 4 * k + i)%nat /\ d (n + 2 * k + i)%nat = (2 * n + 4 * k + 2 + i)%nat.
Proof.
  induction M as [|M IH]; intros n k i H Hk Hi; [lia|]. cbn [repeat laid] in H. destruct H as [H1 H2]. destruct k as [|k].
  - replace (n + 2 * 0 + i)%nat with (n + i)%nat by lia. destruct (H1 i Hi). lia.
  - specialize (IH (n + 2)%nat k i H2 ltac:(lia) Hi). replace (n + 2 * S k + i)%nat with (n + 2 + 2 * k + i)%nat by lia. lia.
Qed.
Lemma bus_places k i : (k < N)%nat -> (i < 2)%nat -> sig ws (2 * k + i) = (4 * k + i)%nat /\ del ws (2 * k + i) = (4 * k + 2 + i)%nat.
Proof. intros Hk Hi. pose proof (proj1 (proj1 (laid_app _ _ _ 0 _) (laid_all ws))) as L. exact (laid_twos _ _ N 0 k i L Hk Hi). Qed.
Lemma elems_laid : laid (sig ws) (del ws) (2 * N) (flat_map blocks (elements nw)).
Proof. pose proof (proj2 (proj1 (laid_app _ _ _ 0 _) (laid_all ws))) as L. rewrite sum_twos in L. exact L. Qed.
Lemma bus_lt k b : nth_error (nw_buses nw) k = Some b -> (k < N)%nat.
Proof. intros H. apply nth_error_Some. unfold N. congruence. Qed.
Lemma table1 k b : nth_error (nw_buses nw) k = Some b -> as_table a (bus_id b) = new_nodes (4 * k) true.
Proof. intros H. unfold a. rewrite (table_bus old nw k b OK H). unfold optimizing. rewrite HO. reflexivity. Qed.
Lemma table0 k b : nth_error (nw_buses nw) k = Some b -> as_table a0 (bus_id b) = new_nodes (2 * k) false.
Proof. intros H. exact (table_at old (plain nw) OK eq_refl k b H). Qed.
Lemma table_twin k b : nth_error (nw_buses nw) k = Some b -> as_table a (bus_id b) = twin (sig ws) (del ws) (as_table a0 (bus_id b)).
Proof.
  intros H. rewrite (table1 k b H), (table0 k b H). pose proof (bus_lt k b H) as L. destruct (bus_places k 0 L ltac:(lia)) as [A B]. destruct (bus_places k 1 L ltac:(lia)) as [A1 B1].
  rewrite Nat.add_0_r in A, B. unfold new_nodes, twin. cbn [n_Vr n_Vi n_Lr n_Li option_map]. rewrite A, B, A1, B1. f_equal; f_equal; lia.
Qed.
Lemma ref_twin e r : In e (elements nw) -> In r (refs e) -> at_ref (as_table a) r = twin (sig ws) (del ws) (at_ref (as_table a0) r).
Proof.
  intros He Hr. destruct r as [j|]; [|reflexivity]. cbn [at_ref]. pose proof (proj2 OK e He j Hr) as Hj. apply in_map_iff in Hj as [b [<- Hb]].
  apply In_nth_error in Hb as [k Hk]. exact (table_twin k b Hk).
Qed.
Let els1 := flat_map present (fst (assign_elems true (as_table a) (2 * (2 * N)) (elements nw))).
Let els0 := flat_map present (fst (assign_elems false (as_table a0) (2 * N) (elements nw))).
Let inf1 := flat_map present (fst (assign_infeasibility l1 (as_table a) (2 * U) (nw_buses nw))).
Lemma els_twin : Forall2 (twin_elem (sig ws) (del ws)) els0 els1.
Proof. apply twins_elems; [intros; eapply ref_twin; eauto|apply elems_laid]. Qed.
Lemma els0_equations : equations a0 = els0.
Proof. exact (equations_are old (plain nw) OK eq_refl). Qed.
Lemma parts : as_stampers a = fst (assign_elems true (as_table a) (2 * (2 * N)) (elements nw)) /\
  as_infeasibility a = fst (assign_infeasibility l1 (as_table a) (2 * U) (nw_buses nw)).
Proof.
  assert (T : as_table a = fst (assign_buses true (nw_buses nw) old 0)) by (unfold a; rewrite table_of; unfold optimizing; now rewrite HO).
  rewrite T. unfold a, assign_matrix, optimizing. rewrite HO.
  destruct (assign_buses_spec true (nw_buses nw) old 0 (proj1 OK)) as [Sz _].
  destruct (assign_buses true (nw_buses nw) old 0) as [tbl n0]. cbn [snd fst] in *. cbn [per_bus Nat.add] in Sz. fold N in Sz.
  replace (2 * (2 * N))%nat with n0 by lia. pose proof (elems_size true tbl (elements nw) n0) as S1.
  destruct (assign_elems true tbl n0 (elements nw)) as [s n1]. cbn [snd fst] in *.
  replace (2 * U)%nat with n1 by (unfold U, unknowns; fold N; lia).
  destruct (assign_infeasibility l1 tbl n1 (nw_buses nw)) as [i n2]. split; reflexivity.
Qed.
Lemma equations_split : equations a = els1 ++ inf1.
Proof. unfold equations, all_stampers. destruct parts as [-> ->]. rewrite flat_map_app. reflexivity. Qed.
Lemma size1 : as_size a = (2 * U + width l1 * N)%nat.
Proof. unfold a. rewrite total_size by apply OK. unfold expected_size. rewrite HO. fold U N. destruct l1; reflexivity. Qed.
Lemma numbered_all : numbered (as_table a) 0 (nw_buses nw).
Proof. intros j b H. exact (table1 j b H). Qed.
Lemma U_big : (4 * (0 + length (nw_buses nw)) <= 2 * U)%nat.
Proof. unfold U, unknowns. lia. Qed.

Lemma F_split v r : F (equations a) v 0 r = F els1 v 0 r + F inf1 v 0 r.
Proof. now rewrite equations_split, F_app. Qed.
(** rows of multipliers *)
Lemma row_of_dual v r : F els1 v 0 (del ws r) = F (equations a0) (fun i => v (sig ws i)) 0 r.
Proof. rewrite els0_equations. exact (rows_dual _ _ (del_inj ws) (sig_del ws) _ _ v 0 r els_twin). Qed.
Lemma row_bus v k b : nth_error (nw_buses nw) k = Some b ->
  (F (equations a) v 0 (4 * k + 2), F (equations a) v 0 (4 * k + 3)) =
  Cadd (F (equations a0) (fun i => v (sig ws i)) 0 (2 * k), F (equations a0) (fun i => v (sig ws i)) 0 (2 * k + 1)) (drawn_at l1 v (2 * U + width l1 * k)).
Proof.
  intros H. rewrite !F_split. pose proof (inf_dual l1 (as_table a) v (nw_buses nw) 0 (2 * U) k b numbered_all U_big H) as E. cbn [Nat.add] in E. fold inf1 in E. rewrite <- E.
  pose proof (bus_lt k b H) as L. destruct (bus_places k 0 L ltac:(lia)) as [_ B]. destruct (bus_places k 1 L ltac:(lia)) as [_ B1]. rewrite !Nat.add_0_r in B.
  rewrite <- (row_of_dual v (2 * k)), <- (row_of_dual v (2 * k + 1)), B, B1. unfold Cadd. cbn [fst snd]. replace (4 * k + 2 + 1)%nat with (4 * k + 3)%nat by lia. reflexivity.
Qed.
Lemma del_high r : (2 * N <= r)%nat -> (4 * N <= del ws r)%nat.
Proof.
  intros H. destruct (Nat.lt_ge_cases (del ws r) (4 * N)) as [L|L]; [|exact L]. exfalso.
  assert (E : exists x, (x < 2 * N)%nat /\ (del ws r = sig ws x \/ del ws r = del ws x)).
  { pose proof (Nat.div_mod (del ws r) 4 ltac:(lia)) as D. pose proof (Nat.mod_upper_bound (del ws r) 4 ltac:(lia)) as M.
    set (k := (del ws r / 4)%nat) in *. assert (k < N)%nat by lia.
    destruct (Nat.lt_ge_cases (del ws r mod 4) 2).
    - exists (2 * k + del ws r mod 4)%nat. split; [lia|]. left. destruct (bus_places k (del ws r mod 4) ltac:(lia) ltac:(lia)). lia.
    - exists (2 * k + (del ws r mod 4 - 2))%nat. split; [lia|]. right. destruct (bus_places k (del ws r mod 4 - 2) ltac:(lia) ltac:(lia)). lia. }
  destruct E as [x [Hx [E|E]]]; [symmetry in E; now apply sig_del in E|]. apply del_inj in E. lia.
Qed.
Lemma row_law v r : (2 * N <= r < U)%nat -> F (equations a) v 0 (del ws r) = F (equations a0) (fun i => v (sig ws i)) 0 r.
Proof.
  intros H. rewrite F_split, row_of_dual. unfold inf1. rewrite (inf_elsewhere l1 (as_table a) v (nw_buses nw) 0); [ring|apply numbered_all| |].
  - rewrite <- ws_sum. apply del_bound. rewrite ws_sum. lia.
  - intros k Hk. fold N in Hk. pose proof (del_high r ltac:(lia)). lia.
Qed.
Lemma row_own v k b i : nth_error (nw_buses nw) k = Some b -> (i < width l1)%nat ->
  F (equations a) v 0 (2 * U + width l1 * k + i) = nth i (ties l1 v (as_table a (bus_id b)) (2 * U + width l1 * k)) 0.
Proof.
  intros H Hi. rewrite F_split. pose proof (inf_own l1 (as_table a) v (nw_buses nw) 0 (2 * U) k b i numbered_all U_big H Hi) as E. unfold inf1. rewrite E.
  unfold els1. rewrite (elems_above _ _ (bus_count nw)); [ring| | |].
  - intros e He. apply covers_ref; auto.
  - unfold bus_count, optimizing. rewrite HO. cbn [per_bus]. fold N. lia.
  - unfold U, unknowns. fold N. lia.
Qed.
Lemma row_primal v r : (r < U)%nat -> (forall i, v (del ws i) = 0) -> F (equations a) v 0 (sig ws r) = 0.
Proof.
  intros H Z. rewrite F_split. unfold els1. rewrite (rows_primal (sig ws) (del ws) (sig_del ws) els0) by (auto using els_twin). unfold inf1.
  rewrite (inf_elsewhere l1 (as_table a) v (nw_buses nw) 0); [ring|apply numbered_all| |].
  - rewrite <- ws_sum. apply sig_bound. rewrite ws_sum. lia.
  - intros k Hk. fold N in Hk. cbn [Nat.add] in Hk. destruct (bus_places k 0 ltac:(lia) ltac:(lia)) as [_ B]. destruct (bus_places k 1 ltac:(lia) ltac:(lia)) as [_ B1].
    split; intros E; [apply (sig_del ws r (2 * k + 0))|apply (sig_del ws r (2 * k + 1))]; lia.
Qed.
(** every row is one of these *)
Lemma row_kinds q : (q < as_size a)%nat -> (exists r, (r < U)%nat /\ (q = sig ws r \/ q = del ws r)) \/
  exists k b i, nth_error (nw_buses nw) k = Some b /\ (i < width l1)%nat /\ q = (2 * U + width l1 * k + i)%nat.
Proof.
  rewrite size1. intros H. destruct (Nat.lt_ge_cases q (2 * U)) as [L|L].
  - left. destruct (sig_or_del ws q) as [r E]. exists r. split; [|exact E]. rewrite <- ws_sum in *. destruct E as [-> | ->]; [now apply sig_bound|now apply del_bound].
  - right. set (w := width l1) in *. assert (0 < w)%nat by (unfold w; destruct l1; cbn; lia).
    pose proof (Nat.div_mod (q - 2 * U) w ltac:(lia)) as D. pose proof (Nat.mod_upper_bound (q - 2 * U) w ltac:(lia)) as M.
    assert (K : ((q - 2 * U) / w < N)%nat) by (apply Nat.div_lt_upper_bound; lia).
    destruct (nth_error (nw_buses nw) ((q - 2 * U) / w)) as [b|] eqn:E; [|apply nth_error_None in E; fold N in E; lia].
    exists ((q - 2 * U) / w)%nat, b, ((q - 2 * U) mod w)%nat. split; [exact E|]. split; lia.
Qed.
Lemma inf_index k b x : nth_error (nw_buses nw) k = Some b ->
  index_in (nth k (as_infeasibility a) []) x = index_in (fst (inf_stampers l1 (as_table a (bus_id b)) (2 * U + width l1 * k))) x.
Proof. intros H. destruct parts as [_ ->]. now rewrite (inf_nth l1 (as_table a) _ _ k b H). Qed.
Lemma extra_is v k b : nth_error (nw_buses nw) k = Some b -> extra l1 a v k = drawn_at l1 v (2 * U + width l1 * k).
Proof.
  intros H. unfold extra, infeasibility. rewrite !(inf_index k b _ H). destruct l1; reflexivity.
Qed.
Lemma voltages_twin v e r : In e (elements nw) -> In r (refs e) -> voltages a v r = voltages a0 (fun i => v (sig ws i)) r.
Proof.
  intros He Hr. unfold voltages. rewrite (ref_twin e r He Hr). unfold volt, SpecComponents.read, twin. cbn [n_Vr n_Vi].
  destruct (n_Vr (at_ref (as_table a0) r)), (n_Vi (at_ref (as_table a0) r)); reflexivity.
Qed.
Lemma voltages_bus v k b : nth_error (nw_buses nw) k = Some b -> voltages a v (Some (bus_id b)) = voltages a0 (fun i => v (sig ws i)) (Some (bus_id b)).
Proof.
  intros H. unfold voltages. cbn [at_ref]. rewrite (table_twin k b H). unfold volt, SpecComponents.read, twin. cbn [n_Vr n_Vi].
  destruct (n_Vr (as_table a0 (bus_id b))), (n_Vi (as_table a0 (bus_id b))); reflexivity.
Qed.

(** *** the rows *)
Definition ac_of (v : nat -> R) : account := account_of (voltages a v) (fun i => v (sig ws i)) (2 * N) (elements nw).
Lemma ac_plain v : ac_of v = account_of (voltages a0 (fun i => v (sig ws i))) (fun i => v (sig ws i)) (2 * N) (elements nw).
Proof. apply account_ext. intros e He b Hb. eapply voltages_twin; eauto. Qed.
Lemma ac_accounts v : energised nw (voltages a v) -> accounts_for (voltages a v) nw (ac_of v).
Proof. intros H. split; [apply account_elems|]. apply account_behaves. intros e He. exact (energised_elems nw _ e H He). Qed.
Lemma ac_rows v : gives_rows (plain nw) a0 (ac_of v) (fun i => v (sig ws i)).
Proof. rewrite ac_plain. exact (rows_of_vector old (plain nw) OK eq_refl (fun i => v (sig ws i))). Qed.
Lemma all_gives v : gives_infeasible_rows l1 nw a (ac_of v) v.
Proof.
  destruct (ac_rows v) as [R1 [R2 R3]]. cbn [nw_buses plain] in R1, R2, R3. fold N in R2, R3. unfold gives_infeasible_rows. cbv zeta. split; [|split].
  - intros k b H. exists (4 * k + 2)%nat, (4 * k + 3)%nat. rewrite (table1 k b H). cbn [new_nodes n_Lr n_Li]. pose proof (bus_lt k b H).
    pose proof U_big. fold N in H1. rewrite size1. split; [reflexivity|]. split; [reflexivity|]. split; [lia|]. split; [lia|].
    rewrite (row_bus v k b H), (R1 k b H), (extra_is v k b H). reflexivity.
  - intros j x Hj. assert (j < length (misses (ac_of v)))%nat by (apply nth_error_Some; congruence).
    assert (2 * N + j < U)%nat. { unfold ac_of in H. rewrite account_length in H. unfold U, unknowns. fold N. lia. }
    exists (del ws (2 * N + j)). rewrite row_law by lia. split; [|now apply R2]. rewrite size1. pose proof (proj1 (del_bound ws (2 * N + j))) as D. rewrite ws_sum in D. specialize (D ltac:(lia)). lia.
  - intros k b H. pose proof (bus_lt k b H) as L. pose proof (fun i => row_own v k b i H) as E.
    assert (Sz : forall i, (i < width l1)%nat -> (2 * U + width l1 * k + i < as_size a)%nat) by (intros i Hi; rewrite size1; nia).
    unfold infeasibility, infeasibility_row, multiplier. rewrite !(inf_index k b _ H). clear R1 R2 R3. set (m := (2 * U + width l1 * k)%nat) in *.
    destruct l1; cbn [inf_stampers width ties] in *.
    + exists m, (m + 1)%nat, (m + 2)%nat, (m + 3)%nat. do 4 (split; [reflexivity|]).
      pose proof (E 0%nat ltac:(lia)) as E0. pose proof (E 1%nat ltac:(lia)) as E1. pose proof (E 2%nat ltac:(lia)) as E2. pose proof (E 3%nat ltac:(lia)) as E3.
      pose proof (Sz 0%nat ltac:(lia)). pose proof (Sz 1%nat ltac:(lia)). pose proof (Sz 2%nat ltac:(lia)). pose proof (Sz 3%nat ltac:(lia)).
      rewrite Nat.add_0_r in E0. do 4 (split; [lia|]). cbn [nth] in E0, E1, E2, E3. split; [exact E0|]. split; [exact E1|]. split; [exact E2|exact E3].
    + exists m, (S m). do 2 (split; [reflexivity|]).
      pose proof (E 0%nat ltac:(lia)) as E0. pose proof (E 1%nat ltac:(lia)) as E1. pose proof (Sz 0%nat ltac:(lia)). pose proof (Sz 1%nat ltac:(lia)).
      rewrite Nat.add_0_r in E0. rewrite Nat.add_1_r in E1. do 2 (split; [lia|]). cbn [nth] in E0, E1. split; [exact E0|exact E1].
Qed.
End Network.
