(** Lemmas for C42-C43: the whole network. *)
From Coq Require Import String List Bool Arith ZArith Reals Lia.
From Verif Require Import Expr Segment Collect SpecSystem Components SpecComponents UnbalancedLine Network SpecNetwork NetworkProofs NetworkKinds.
Import ListNotations.

Lemma new_nodes_in n opt i : In i (node_indexes (new_nodes n opt)) <-> n <= i < n + per_bus opt.
Proof. destruct opt; unfold node_indexes; cbn [new_nodes flat_map n_Vr n_Vi n_Lr n_Li app In per_bus]; lia. Qed.
Lemma assign_buses_spec opt bs : forall tbl n, NoDup (map bus_id bs) ->
  snd (assign_buses opt bs tbl n) = n + per_bus opt * length bs /\
  (forall k b, nth_error bs k = Some b -> fst (assign_buses opt bs tbl n) (bus_id b) = new_nodes (n + per_bus opt * k) opt) /\
  (forall j, ~ In j (map bus_id bs) -> fst (assign_buses opt bs tbl n) j = tbl j).
Proof.
  induction bs as [|b bs IH]; intros tbl n ND; cbn [assign_buses length map].
  - repeat split; cbn [fst snd]; try lia. intros [|k] ? H; discriminate H.
  - inversion ND as [|? ? Hn ND']; subst.
    destruct (IH (set_nodes tbl (bus_id b) (new_nodes n opt)) (n + per_bus opt) ND') as [H1 [H2 H3]]. split; [|split].
    + rewrite H1; lia.
    + intros [|k] b' Hk; cbn [nth_error] in Hk.
      * injection Hk as <-. rewrite H3 by assumption. unfold set_nodes; rewrite Nat.eqb_refl. f_equal; lia.
      * rewrite (H2 k b' Hk). f_equal; lia.
    + intros j Hj; cbn [In] in Hj. rewrite H3 by tauto. unfold set_nodes. destruct (Nat.eqb_spec j (bus_id b)); [exfalso; apply Hj; left; auto|auto].
Qed.

Inductive chain (P : nat -> nat -> list stamper -> Prop) : nat -> nat -> list (list stamper) -> Prop :=
| chain_nil n : chain P n n []
| chain_cons n n1 n' s l : P n n1 s -> chain P n1 n' l -> chain P n n' (s :: l).

Lemma chain_le (P : nat -> nat -> list stamper -> Prop) n n' l : (forall a b s, P a b s -> a <= b) -> chain P n n' l -> n <= n'.
Proof. intros H; induction 1; [lia|]. apply H in H0; lia. Qed.
Lemma chain_nth (P : nat -> nat -> list stamper -> Prop) n n' l k s : (forall a b s, P a b s -> a <= b) -> chain P n n' l -> nth_error l k = Some s -> exists a b, P a b s /\ n <= a /\ a <= b /\ b <= n'.
Proof.
  intros HP C; revert k; induction C as [|n n1 n' s0 l H C IH]; intros k Hk; [destruct k; discriminate|].
  pose proof (chain_le P n1 n' l HP C) as L2. destruct k as [|k]; cbn [nth_error] in Hk.
  - injection Hk as <-. exists n, n1. pose proof (HP _ _ _ H). repeat split; auto.
  - destruct (IH k Hk) as [a [b [H1 [H2 [H3 H4]]]]]. exists a, b. pose proof (HP _ _ _ H). repeat split; auto; lia.
Qed.
Lemma chain_find (P : nat -> nat -> list stamper -> Prop) n n' l i : (forall a b s, P a b s -> a <= b) -> chain P n n' l -> n <= i < n' ->
  exists k s a b, nth_error l k = Some s /\ P a b s /\ a <= i < b.
Proof.
  intros HP C; induction C as [|n n1 n' s0 l H C IH]; intros Hi; [lia|].
  destruct (Nat.lt_ge_cases i n1).
  - exists 0, s0, n, n1; repeat split; auto; lia.
  - destruct IH as [k [s [a [b [H1 H2]]]]]; [lia|]. exists (S k), s, a, b; auto.
Qed.
Lemma chain_unique (P : nat -> nat -> list stamper -> Prop) m n n' l i : (forall a b s, P a b s -> a <= b) ->
  (forall a b s, P a b s -> In i (used s) -> i < m \/ a <= i < b) -> chain P n n' l -> m <= i ->
  forall k k' s s', nth_error l k = Some s -> nth_error l k' = Some s' -> In i (used s) -> In i (used s') -> k = k'.
Proof.
  intros HP HU C Hm; induction C as [|n n1 n' s0 l H C IH]; intros k k' s s' Hk Hk' Hs Hs'; [destruct k; discriminate|].
  assert (forall j s, nth_error l j = Some s -> In i (used s) -> n1 <= i) as Later.
  { intros j t Hj Ht. destruct (chain_nth P n1 n' l j t HP C Hj) as [a [b [H1 [H2 [H3 H4]]]]]. destruct (HU _ _ _ H1 Ht); lia. }
  destruct k as [|k], k' as [|k']; cbn [nth_error] in Hk, Hk'.
  - reflexivity.
  - injection Hk as <-. pose proof (Later _ _ Hk' Hs'). destruct (HU _ _ _ H Hs); lia.
  - injection Hk' as <-. pose proof (Later _ _ Hk Hs). destruct (HU _ _ _ H Hs'); lia.
  - f_equal; eapply IH; eauto.
Qed.
Lemma chain_impl (P Q : nat -> nat -> list stamper -> Prop) n n' l : (forall a b s, P a b s -> Q a b s) -> chain P n n' l -> chain Q n n' l.
Proof. intros H; induction 1; econstructor; eauto. Qed.

Lemma elems_chain (P : nat -> nat -> list stamper -> Prop) opt tbl es : forall n,
  (forall e, In e es -> forall k, n <= k -> P k (snd (assign_elem opt tbl k e)) (fst (assign_elem opt tbl k e))) -> (forall a b s, P a b s -> a <= b) ->
  chain P n (snd (assign_elems opt tbl n es)) (fst (assign_elems opt tbl n es)).
Proof.
  induction es as [|e es IH]; intros n H HP; cbn [assign_elems]; [constructor|].
  pose proof (H e (or_introl eq_refl) n (Nat.le_refl n)) as H1. destruct (assign_elem opt tbl n e) as [s n1]. cbn [fst snd] in H1.
  pose proof (HP _ _ _ H1) as L.
  assert (chain P n1 (snd (assign_elems opt tbl n1 es)) (fst (assign_elems opt tbl n1 es))) as C by (apply IH; auto; intros; apply H; [right; auto|lia]).
  destruct (assign_elems opt tbl n1 es) as [r n2]; cbn [fst snd] in *. econstructor; eauto.
Qed.
Lemma infeas_chain (P : nat -> nat -> list stamper -> Prop) (l1 : bool) tbl bs : forall n,
  (forall b, In b bs -> forall k, n <= k -> P k (snd ((if l1 then l1_stampers else l2_stampers) (tbl (bus_id b)) k)) (fst ((if l1 then l1_stampers else l2_stampers) (tbl (bus_id b)) k))) ->
  (forall a b s, P a b s -> a <= b) ->
  chain P n (snd (assign_infeasibility l1 tbl n bs)) (fst (assign_infeasibility l1 tbl n bs)).
Proof.
  induction bs as [|e es IH]; intros n H HP; cbn [assign_infeasibility]; [constructor|].
  pose proof (H e (or_introl eq_refl) n (Nat.le_refl n)) as H1. destruct ((if l1 then l1_stampers else l2_stampers) (tbl (bus_id e)) n) as [s n1]. cbn [fst snd] in H1.
  pose proof (HP _ _ _ H1) as L.
  assert (chain P n1 (snd (assign_infeasibility l1 tbl n1 es)) (fst (assign_infeasibility l1 tbl n1 es))) as C by (apply IH; auto; intros; apply H; [right; auto|lia]).
  destruct (assign_infeasibility l1 tbl n1 es) as [r n2]; cbn [fst snd] in *. econstructor; eauto.
Qed.

Definition bus_count (nw : network) : nat := per_bus (optimizing nw) * length (nw_buses nw).
Lemma table_of old nw : as_table (assign_matrix old nw) = fst (assign_buses (optimizing nw) (nw_buses nw) old 0).
Proof.
  unfold assign_matrix. destruct (assign_buses (optimizing nw) (nw_buses nw) old 0) as [tbl n0]; destruct (assign_elems (optimizing nw) tbl n0 (elements nw)) as [s n1].
  destruct (match nw_optimization nw with None => ([], n1) | Some l1 => assign_infeasibility l1 tbl n1 (nw_buses nw) end) as [i n2]. reflexivity.
Qed.
Lemma table_bus old nw k b : network_ok nw -> nth_error (nw_buses nw) k = Some b ->
  as_table (assign_matrix old nw) (bus_id b) = new_nodes (per_bus (optimizing nw) * k) (optimizing nw).
Proof. intros [ND _] H. rewrite table_of. destruct (assign_buses_spec (optimizing nw) (nw_buses nw) old 0 ND) as [_ [H2 _]]. exact (H2 k b H). Qed.
Lemma bus_index_iff old nw i : network_ok nw -> bus_index nw (assign_matrix old nw) i <-> i < bus_count nw.
Proof.
  intros OK; unfold bus_index, bus_count; split.
  - intros [b [Hb Hi]]. apply In_nth_error in Hb as [k Hk]. rewrite (table_bus old nw k b OK Hk) in Hi. apply new_nodes_in in Hi.
    assert (k < length (nw_buses nw)) by (apply nth_error_Some; congruence). nia.
  - intros Hi. set (p := per_bus (optimizing nw)) in *. assert (0 < p) as Hp by (unfold p; destruct (optimizing nw); cbn; lia).
    assert (i / p < length (nw_buses nw)) as Hk by (apply Nat.div_lt_upper_bound; lia).
    destruct (nth_error (nw_buses nw) (i / p)) as [b|] eqn:E; [|apply nth_error_None in E; lia].
    exists b; split; [eapply nth_error_In; eauto|]. rewrite (table_bus old nw _ b OK E). apply new_nodes_in. fold p.
    pose proof (Nat.div_mod i p); pose proof (Nat.mod_upper_bound i p); lia.
Qed.
Lemma covers_ref old nw e : network_ok nw -> In e (elements nw) -> refs_ok (below (bus_count nw)) (as_table (assign_matrix old nw)) e.
Proof.
  intros OK He r Hr. destruct r as [k|]; cbn [at_ref]; [|apply covers_GROUND].
  destruct OK as [ND H] eqn:E; clear E. specialize (H e He k Hr). apply in_map_iff in H as [b [<- Hb]].
  intros i Hi. apply (bus_index_iff old nw i (conj ND (proj2 OK))). exists b; auto.
Qed.
Lemma covers_bus old nw b : network_ok nw -> In b (nw_buses nw) -> covers (below (bus_count nw)) (as_table (assign_matrix old nw) (bus_id b)).
Proof. intros OK Hb i Hi. apply (bus_index_iff old nw i OK). exists b; auto. Qed.

(** how the pieces fit together *)
Lemma assign_parts old nw (P Q : nat -> nat -> list stamper -> Prop) : network_ok nw ->
  (forall a b s, P a b s -> a <= b) -> (forall a b s, Q a b s -> a <= b) ->
  (forall e, In e (elements nw) -> forall n, bus_count nw <= n ->
     P n (snd (assign_elem (optimizing nw) (as_table (assign_matrix old nw)) n e)) (fst (assign_elem (optimizing nw) (as_table (assign_matrix old nw)) n e))) ->
  (forall b l1, In b (nw_buses nw) -> nw_optimization nw = Some l1 -> forall n, bus_count nw <= n ->
     Q n (snd ((if l1 then l1_stampers else l2_stampers) (as_table (assign_matrix old nw) (bus_id b)) n)) (fst ((if l1 then l1_stampers else l2_stampers) (as_table (assign_matrix old nw) (bus_id b)) n))) ->
  exists n1, chain P (bus_count nw) n1 (as_stampers (assign_matrix old nw)) /\
             chain Q n1 (as_size (assign_matrix old nw)) (as_infeasibility (assign_matrix old nw)) /\ bus_count nw <= n1 <= as_size (assign_matrix old nw).
Proof.
  intros OK HP HQ HE HB. rewrite table_of in HE, HB. unfold assign_matrix.
  destruct (assign_buses_spec (optimizing nw) (nw_buses nw) old 0 (proj1 OK)) as [E0 _].
  destruct (assign_buses (optimizing nw) (nw_buses nw) old 0) as [tbl n0]; cbn [fst snd] in *.
  assert (n0 = bus_count nw) as -> by (rewrite E0; reflexivity).
  pose proof (elems_chain P (optimizing nw) tbl (elements nw) (bus_count nw) HE HP) as C1.
  destruct (assign_elems (optimizing nw) tbl (bus_count nw) (elements nw)) as [s n1]; cbn [fst snd] in C1.
  pose proof (chain_le P _ _ _ HP C1) as L1.
  destruct (nw_optimization nw) as [l1|] eqn:EO.
  - pose proof (infeas_chain Q l1 tbl (nw_buses nw) n1 (fun b Hb n Hn => HB b l1 Hb eq_refl n (Nat.le_trans _ _ _ L1 Hn)) HQ) as C2.
    destruct (assign_infeasibility l1 tbl n1 (nw_buses nw)) as [r n2]; cbn [fst snd as_stampers as_size as_infeasibility as_table] in *.
    exists n1; repeat split; auto. eapply chain_le; eauto.
  - exists n1; cbn; repeat split; auto. constructor.
Qed.
Definition good_in (nw : network) := good (below (bus_count nw)).
Lemma parts_good old nw : network_ok nw ->
  exists n1, chain (good_in nw) (bus_count nw) n1 (as_stampers (assign_matrix old nw)) /\
             chain (good_in nw) n1 (as_size (assign_matrix old nw)) (as_infeasibility (assign_matrix old nw)) /\ bus_count nw <= n1 <= as_size (assign_matrix old nw).
Proof.
  intros OK. apply assign_parts; auto; try (intros a b s G; exact (g_le _ _ _ _ G)).
  - intros e He n _. apply good_elem. apply covers_ref; auto.
  - intros b [|] Hb _ n _; [apply good_l1|apply good_l2]; apply covers_bus; auto.
Qed.
Lemma good_in_le nw a b s : good_in nw a b s -> a <= b. Proof. apply g_le. Qed.
Lemma good_in_used nw i a b s : good_in nw a b s -> In i (used s) -> i < bus_count nw \/ a <= i < b.
Proof. intros G H; exact (g_used _ _ _ _ G i H). Qed.

Lemma all_owned old nw i : network_ok nw -> i < as_size (assign_matrix old nw) <-> exists o, owns nw (assign_matrix old nw) o i.
Proof.
  intros OK. destruct (parts_good old nw OK) as [n1 [C1 [C2 L]]]. split.
  - intros Hi. destruct (Nat.lt_ge_cases i (bus_count nw)) as [Hb|Hb].
    + apply (bus_index_iff old nw i OK) in Hb as [b [Hb H]]. apply In_nth_error in Hb as [k Hk]. exists (OBus k), b; auto.
    + assert (~ bus_index nw (assign_matrix old nw) i) as NB by (rewrite bus_index_iff by assumption; lia).
      destruct (Nat.lt_ge_cases i n1).
      * destruct (chain_find _ _ _ _ i (good_in_le nw) C1) as [k [s [x [y [H1 [H2 H3]]]]]]; [lia|].
        exists (OElem k), s; repeat split; auto. apply H2; auto.
      * destruct (chain_find _ _ _ _ i (good_in_le nw) C2) as [k [s [x [y [H1 [H2 H3]]]]]]; [lia|].
        exists (OInf k), s; repeat split; auto. apply H2; auto.
  - intros [[k|k|k] H].
    + destruct H as [b [Hk Hi]]. assert (bus_index nw (assign_matrix old nw) i) as HB by (exists b; split; auto; eapply nth_error_In; eauto).
      apply bus_index_iff in HB; auto; lia.
    + destruct H as [s [Hk [Hi NB]]]. rewrite bus_index_iff in NB by assumption.
      destruct (chain_nth _ _ _ _ k s (good_in_le nw) C1 Hk) as [x [y [G HH]]]. destruct (good_in_used nw i _ _ _ G Hi); lia.
    + destruct H as [s [Hk [Hi NB]]]. rewrite bus_index_iff in NB by assumption.
      destruct (chain_nth _ _ _ _ k s (good_in_le nw) C2 Hk) as [x [y [G HH]]]. destruct (good_in_used nw i _ _ _ G Hi); lia.
Qed.
Lemma one_owner old nw o1 o2 i : network_ok nw -> owns nw (assign_matrix old nw) o1 i -> owns nw (assign_matrix old nw) o2 i -> o1 = o2.
Proof.
  intros OK. destruct (parts_good old nw OK) as [n1 [C1 [C2 L]]].
  assert (forall k, owns nw (assign_matrix old nw) (OBus k) i -> i < bus_count nw /\ i / per_bus (optimizing nw) = k) as HB.
  { intros k [b [Hk Hi]]. split.
    - apply (bus_index_iff old nw i OK). exists b; split; auto; eapply nth_error_In; eauto.
    - rewrite (table_bus old nw k b OK Hk) in Hi. apply new_nodes_in in Hi. symmetry; apply Nat.div_unique with (i - per_bus (optimizing nw) * k); lia. }
  assert (forall k, owns nw (assign_matrix old nw) (OElem k) i -> bus_count nw <= i < n1) as HE.
  { intros k [s [Hk [Hi NB]]]. rewrite bus_index_iff in NB by assumption.
    destruct (chain_nth _ _ _ _ k s (good_in_le nw) C1 Hk) as [x [y [G HH]]]. destruct (good_in_used nw i _ _ _ G Hi); lia. }
  assert (forall k, owns nw (assign_matrix old nw) (OInf k) i -> n1 <= i) as HI.
  { intros k [s [Hk [Hi NB]]]. rewrite bus_index_iff in NB by assumption.
    destruct (chain_nth _ _ _ _ k s (good_in_le nw) C2 Hk) as [x [y [G HH]]]. destruct (good_in_used nw i _ _ _ G Hi); lia. }
  intros H1 H2. destruct o1 as [k1|k1|k1], o2 as [k2|k2|k2];
    try (exfalso; repeat match goal with H : owns _ _ (OBus _) _ |- _ => apply HB in H | H : owns _ _ (OElem _) _ |- _ => apply HE in H | H : owns _ _ (OInf _) _ |- _ => apply HI in H end; lia).
  - apply HB in H1 as [_ <-]; apply HB in H2 as [_ <-]; reflexivity.
  - f_equal. pose proof (HE _ H1) as B1. destruct H1 as [s1 [K1 [U1 _]]], H2 as [s2 [K2 [U2 _]]].
    apply (chain_unique (good_in nw) (bus_count nw) _ _ _ i (good_in_le nw) (good_in_used nw i) C1 ltac:(lia) k1 k2 s1 s2 K1 K2 U1 U2).
  - f_equal. pose proof (HI _ H1) as B1. destruct H1 as [s1 [K1 [U1 _]]], H2 as [s2 [K2 [U2 _]]].
    apply (chain_unique (good_in nw) (bus_count nw) _ _ _ i (good_in_le nw) (good_in_used nw i) C2 ltac:(lia) k1 k2 s1 s2 K1 K2 U1 U2).
Qed.

(** names *)
Lemma element_names old nw s : network_ok nw -> In s (as_stampers (assign_matrix old nw)) -> names_apart nw (assign_matrix old nw) s.
Proof.
  intros OK Hs e x y i He Hx Hy NB. rewrite bus_index_iff in NB by assumption.
  destruct (assign_parts old nw (fun a b s => a <= b /\ injective_above (bus_count nw) s) (fun a b _ => a <= b) OK) as [n1 [C1 _]].
  - intros a b t H; apply H.
  - auto.
  - intros e0 He0 n Hn. split.
    + exact (g_le _ _ _ _ (good_elem _ (optimizing nw) _ n e0 (covers_ref old nw e0 OK He0))).
    + apply inj_elem; auto. apply covers_ref; auto.
  - intros b [|] Hb _ n _; cbn; lia.
  - apply In_nth_error in Hs as [k Hk].
    destruct (chain_nth _ _ _ _ k s (fun a b t H => proj1 H) C1 Hk) as [a [b [[_ HI] _]]].
    apply above_inj with (n := bus_count nw) (m := sd_var (fst e)) (i := i); auto using lookup_in; try lia.
Qed.
Lemma infeas_names old nw s : network_ok nw -> In s (as_infeasibility (assign_matrix old nw)) -> kinds_apart nw (assign_matrix old nw) s.
Proof.
  intros OK Hs e x y i He HK Hx Hy NB. rewrite bus_index_iff in NB by assumption.
  destruct (assign_parts old nw (fun a b _ => a <= b)
    (fun a b s => a <= b /\ forall e x y i, In e (present s) ->
       (In x (sg_primals (sd_seg (fst e))) /\ In y (sg_primals (sd_seg (fst e))) \/ In x (sg_duals (sd_seg (fst e))) /\ In y (sg_duals (sd_seg (fst e)))) ->
       lookup (sd_var (fst e)) x = Some (Some i) -> lookup (sd_var (fst e)) y = Some (Some i) -> bus_count nw <= i -> x = y) OK) as [n1 [_ [C2 _]]].
  - auto.
  - intros a b t H; apply H.
  - intros e0 He0 n Hn. exact (g_le _ _ _ _ (good_elem _ (optimizing nw) _ n e0 (covers_ref old nw e0 OK He0))).
  - intros b [|] Hb _ n Hn.
    + split; [cbn; lia|]. intros e0 x0 y0 i0 He0 HK0 Hx0 Hy0 L0. exact (inj_l1 _ n _ e0 x0 y0 i0 Hn (covers_bus old nw b OK Hb) He0 HK0 Hx0 Hy0 L0).
    + split; [cbn; lia|]. intros e0 x0 y0 i0 He0 _ Hx0 Hy0 L0.
      apply above_inj with (n := bus_count nw) (m := sd_var (fst e0)) (i := i0); auto using lookup_in.
      apply (inj_l2 (bus_count nw) n (as_table (assign_matrix old nw) (bus_id b))); auto. apply covers_bus; auto.
  - apply In_nth_error in Hs as [k Hk].
    destruct (chain_nth _ _ _ _ k s (fun a b t H => proj1 H) C2 Hk) as [a [b [[_ HI] _]]].
    apply (HI e x y i); auto; lia.
Qed.

(** size *)
Lemma elem_size opt tbl n e : snd (assign_elem opt tbl n e) = n + (if opt then 2 else 1) * own_unknowns e.
Proof.
  destruct e; cbn [assign_elem own_unknowns]; try (destruct opt; cbn; lia).
  - destruct closed, opt; cbn; lia.
  - unfold load_stampers. rewrite pq_next. destruct (both0 (ld_P l) (ld_Q l)); rewrite ic_next; destruct (both0 (ld_IP l) (ld_IQ l)); cbn [snd]; lia.
Qed.
Lemma elems_size opt tbl es : forall n, snd (assign_elems opt tbl n es) = n + (if opt then 2 else 1) * list_sum (map own_unknowns es).
Proof.
  induction es as [|e es IH]; intros n; cbn [assign_elems map]; [cbn; lia|].
  pose proof (elem_size opt tbl n e) as E. destruct (assign_elem opt tbl n e) as [s n1]. cbn [snd] in E.
  specialize (IH n1). destruct (assign_elems opt tbl n1 es) as [r n2]; cbn [snd] in *. unfold list_sum in *; cbn [fold_right]. destruct opt; lia.
Qed.
Lemma infeas_size (l1 : bool) tbl bs : forall n, snd (assign_infeasibility l1 tbl n bs) = n + (if l1 then 4 else 2) * length bs.
Proof.
  induction bs as [|b bs IH]; intros n; cbn [assign_infeasibility length]; [cbn; lia|].
  assert (snd ((if l1 then l1_stampers else l2_stampers) (tbl (bus_id b)) n) = n + if l1 then 4 else 2) as E by (destruct l1; reflexivity).
  destruct ((if l1 then l1_stampers else l2_stampers) (tbl (bus_id b)) n) as [s n1]; cbn [snd] in E.
  specialize (IH n1). destruct (assign_infeasibility l1 tbl n1 bs) as [r n2]; cbn [snd] in *. destruct l1; lia.
Qed.
Lemma total_size old nw : NoDup (map bus_id (nw_buses nw)) -> as_size (assign_matrix old nw) = expected_size nw.
Proof.
  intros ND. unfold assign_matrix. destruct (assign_buses_spec (optimizing nw) (nw_buses nw) old 0 ND) as [E0 _].
  destruct (assign_buses (optimizing nw) (nw_buses nw) old 0) as [tbl n0]; cbn [fst snd] in *.
  pose proof (elems_size (optimizing nw) tbl (elements nw) n0) as E1. destruct (assign_elems (optimizing nw) tbl n0 (elements nw)) as [s n1]; cbn [snd] in E1.
  unfold expected_size, unknowns, optimizing in *. destruct (nw_optimization nw) as [l1|].
  - pose proof (infeas_size l1 tbl (nw_buses nw) n1) as E2. destruct (assign_infeasibility l1 tbl n1 (nw_buses nw)) as [r n2]; cbn [snd as_size per_bus] in *. lia.
  - cbn [as_size per_bus] in *. lia.
Qed.

(** independence of what an earlier assignment left behind *)
Lemma assign_elem_ext opt t1 t2 n e : (forall r, In r (refs e) -> at_ref t1 r = at_ref t2 r) -> assign_elem opt t1 n e = assign_elem opt t2 n e.
Proof.
  intros H; destruct e; cbn [refs] in H; cbn [assign_elem];
    try (rewrite ?(H f), ?(H t), ?(H fp), ?(H fn), ?(H tp), ?(H tn), ?(H from), ?(H pri), ?(H s1), ?(H t3), ?(H s2), ?(H t4) by (simpl; tauto); reflexivity).
  - f_equal; f_equal. apply map_ext_in; intros p Hp. f_equal; apply H; apply in_flat_map; exists p; simpl; auto.
  - repeat match goal with |- context [at_ref t1 ?r] => rewrite (H r) by (simpl; tauto) end; reflexivity.
  - repeat match goal with |- context [at_ref t1 ?r] => rewrite (H r) by (simpl; tauto) end; reflexivity.
  - repeat match goal with |- context [at_ref t1 ?r] => rewrite (H r) by (simpl; tauto) end; reflexivity.
  - repeat match goal with |- context [at_ref t1 ?r] => rewrite (H r) by (simpl; tauto) end; reflexivity.
  - repeat match goal with |- context [at_ref t1 ?r] => rewrite (H r) by (simpl; tauto) end; reflexivity.
  - repeat match goal with |- context [at_ref t1 ?r] => rewrite (H r) by (simpl; tauto) end; reflexivity.
Qed.
Lemma assign_elems_ext opt t1 t2 es : forall n, (forall e, In e es -> forall r, In r (refs e) -> at_ref t1 r = at_ref t2 r) -> assign_elems opt t1 n es = assign_elems opt t2 n es.
Proof.
  induction es as [|e es IH]; intros n H; cbn [assign_elems]; auto.
  rewrite (assign_elem_ext opt t1 t2 n e) by (apply H; left; auto). destruct (assign_elem opt t2 n e) as [s n1]. rewrite (IH n1); auto. intros; apply (H e0); auto; right; auto.
Qed.
Lemma assign_infeas_ext (l1 : bool) t1 t2 bs : forall n, (forall b, In b bs -> t1 (bus_id b) = t2 (bus_id b)) -> assign_infeasibility l1 t1 n bs = assign_infeasibility l1 t2 n bs.
Proof.
  induction bs as [|e es IH]; intros n H; cbn [assign_infeasibility]; auto.
  rewrite (H e) by (left; auto). destruct ((if l1 then l1_stampers else l2_stampers) (t2 (bus_id e)) n) as [s n1]. rewrite (IH n1); auto. intros; apply H; right; auto.
Qed.
Lemma repeatable old1 old2 nw : network_ok nw ->
  let a := assign_matrix old1 nw in let b := assign_matrix old2 nw in
  (forall u, In u (nw_buses nw) -> as_table a (bus_id u) = as_table b (bus_id u)) /\
  as_stampers a = as_stampers b /\ as_infeasibility a = as_infeasibility b /\ as_size a = as_size b.
Proof.
  intros OK a b.
  assert (forall u, In u (nw_buses nw) -> as_table a (bus_id u) = as_table b (bus_id u)) as HT.
  { intros u Hu. apply In_nth_error in Hu as [k Hk]. unfold a, b. rewrite !(table_bus _ nw k u OK Hk); reflexivity. }
  split; [exact HT|]. unfold a, b in *; rewrite !table_of in HT. clear a b. unfold assign_matrix.
  destruct (assign_buses_spec (optimizing nw) (nw_buses nw) old1 0 (proj1 OK)) as [E1 _].
  destruct (assign_buses_spec (optimizing nw) (nw_buses nw) old2 0 (proj1 OK)) as [E2 _].
  destruct (assign_buses (optimizing nw) (nw_buses nw) old1 0) as [t1 n1], (assign_buses (optimizing nw) (nw_buses nw) old2 0) as [t2 n2]; cbn [fst snd] in *.
  rewrite E1, E2. rewrite (assign_elems_ext (optimizing nw) t1 t2).
  2:{ intros e He [k|] Hr; cbn [at_ref]; auto. apply (proj2 OK e He) in Hr. apply in_map_iff in Hr as [u [<- Hu]]; auto. }
  destruct (assign_elems (optimizing nw) t2 (0 + per_bus (optimizing nw) * length (nw_buses nw)) (elements nw)) as [s m].
  destruct (nw_optimization nw) as [l1|]; [|cbn; auto].
  rewrite (assign_infeas_ext l1 t1 t2) by assumption. destruct (assign_infeasibility l1 t2 m (nw_buses nw)) as [r p]; cbn; auto.
Qed.

(** equations *)
Lemma rows_exist old nw s e x : network_ok nw -> In s (all_stampers (assign_matrix old nw)) -> In e (present s) -> In x (first_orders (fst e)) ->
  exists o, row_index (fst e) x = Some o /\ forall i, o = Some i -> i < as_size (assign_matrix old nw).
Proof.
  intros OK Hs He Hx. destruct (parts_good old nw OK) as [n1 [C1 [C2 L]]].
  apply in_app_iff in Hs as [Hs|Hs]; apply In_nth_error in Hs as [k Hk];
    [destruct (chain_nth _ _ _ _ k s (good_in_le nw) C1 Hk) as [a [b [G [H1 [H2 H3]]]]]|destruct (chain_nth _ _ _ _ k s (good_in_le nw) C2 Hk) as [a [b [G [H1 [H2 H3]]]]]];
    destruct (g_rows _ _ _ _ G e x He Hx) as [o [E Ho]]; exists o; split; auto; intros i Hi; destruct (Ho i Hi); unfold below in *; lia.
Qed.
Lemma cols_exist old nw s e x : network_ok nw -> In s (all_stampers (assign_matrix old nw)) -> In e (present s) -> In x (sg_variables (sd_seg (fst e))) ->
  exists o, col_index (fst e) x = Some o /\ forall i, o = Some i -> i < as_size (assign_matrix old nw).
Proof.
  intros OK Hs He Hx. destruct (parts_good old nw OK) as [n1 [C1 [C2 L]]].
  apply in_app_iff in Hs as [Hs|Hs]; apply In_nth_error in Hs as [k Hk];
    [destruct (chain_nth _ _ _ _ k s (good_in_le nw) C1 Hk) as [a [b [G [H1 [H2 H3]]]]]|destruct (chain_nth _ _ _ _ k s (good_in_le nw) C2 Hk) as [a [b [G [H1 [H2 H3]]]]]];
    destruct (g_cols _ _ _ _ G e x He Hx) as [o E]; exists o; split; auto; intros i ->;
    assert (In i (used s)) as U by (apply used_in; exists e, x; split; auto; apply lookup_in; exact E);
    destruct (good_in_used nw i _ _ _ G U); lia.
Qed.
Lemma own_rows old nw i o : network_ok nw -> owns nw (assign_matrix old nw) o i ->
  match o with
  | OBus _ => True
  | OElem k => exists s, nth_error (as_stampers (assign_matrix old nw)) k = Some s /\ writes s i
  | OInf k => exists s, nth_error (as_infeasibility (assign_matrix old nw)) k = Some s /\ writes s i
  end.
Proof.
  intros OK. destruct (parts_good old nw OK) as [n1 [C1 [C2 L]]]. destruct o as [k|k|k]; [auto| |]; intros [s [Hk [Hi NB]]];
    rewrite bus_index_iff in NB by assumption; exists s; split; auto;
    [destruct (chain_nth _ _ _ _ k s (good_in_le nw) C1 Hk) as [a [b [G H]]]|destruct (chain_nth _ _ _ _ k s (good_in_le nw) C2 Hk) as [a [b [G H]]]];
    apply G; destruct (good_in_used nw i _ _ _ G Hi); auto; lia.
Qed.
(** a bus nothing is connected to *)
Definition except (nw : network) (j i : nat) : Prop := i < bus_count nw /\ ~ (per_bus (optimizing nw) * j <= i < per_bus (optimizing nw) * j + per_bus (optimizing nw)).
Lemma isolated_rows old nw b i s : network_ok nw -> In b (nw_buses nw) -> isolated nw (bus_id b) -> In i (node_indexes (as_table (assign_matrix old nw) (bus_id b))) ->
  In s (as_stampers (assign_matrix old nw)) -> ~ In i (used s) /\ ~ writes s i.
Proof.
  intros OK Hb HI Hi Hs.
  assert (i < bus_count nw) as HiB by (apply (covers_bus old nw b OK Hb i Hi)).
  destruct (assign_parts old nw (good (fun j => j < bus_count nw /\ j <> i)) (fun a b _ => a <= b) OK) as [n1 [C1 _]].
  - apply g_le.
  - auto.
  - intros e He n Hn. apply good_elem. intros r Hr. destruct r as [k|]; [|apply covers_GROUND]. cbn [at_ref].
    intros j Hj. pose proof (proj2 OK e He k Hr) as Hk. apply in_map_iff in Hk as [u [<- Hu]]. split; [apply (covers_bus old nw u OK Hu j Hj)|].
    intros ->. apply In_nth_error in Hb as [kb Hkb], Hu as [ku Hku].
    assert (OBus kb = OBus ku) as E by (apply (one_owner old nw _ _ i OK); [exists b|exists u]; auto).
    injection E as ->. rewrite Hkb in Hku. injection Hku as ->. exact (HI e He Hr).
  - intros u [|] _ _ n _; cbn; lia.
  - apply In_nth_error in Hs as [k Hk]. destruct (chain_nth _ _ _ _ k s (g_le _) C1 Hk) as [a [c [G HH]]]. split.
    + intros U. destruct (g_used _ _ _ _ G i U); lia.
    + intros [e [x [He [Hx E]]]]. destruct (g_rows _ _ _ _ G e x He Hx) as [o [E' Ho]]. rewrite E in E'; injection E' as <-.
      destruct (Ho i eq_refl); lia.
Qed.
