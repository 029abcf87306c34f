(** Lemmas for C142: the rows of a whole network, and a solution vector for given voltages and currents. *)
From Coq Require Import String List Bool Arith Reals Lra Lia.
From Verif Require Import Expr Segment Collect SpecSystem Components SpecComponents ComponentsProofs ElementProofs UnbalancedLine
  SpecUnbalanced UnbalancedProofs Network SpecNetwork NetworkAssign SpecKirchhoff KirchhoffProofs.
Import ListNotations.
Local Open Scope R_scope.

Fixpoint account_of (V : bref -> C) (v : nat -> R) (n : nat) (es : list elem) : account :=
  match es with
  | [] => []
  | e :: es => let w j := v (n + j)%nat in (e, draws V e w, laws V e w) :: account_of V v (n + own_unknowns e) es
  end.
Lemma account_elems V v es : forall n, map (fun x => fst (fst x)) (account_of V v n es) = es.
Proof. induction es as [|e es IH]; intros n; cbn [account_of map fst]; [reflexivity|now rewrite IH]. Qed.
Lemma account_length V v es : forall n, length (misses (account_of V v n es)) = list_sum (map own_unknowns es).
Proof.
  induction es as [|e es IH]; intros n; [reflexivity|]. unfold misses in *. cbn [account_of flat_map snd map]. rewrite app_length, laws_length, IH. reflexivity.
Qed.
Lemma account_behaves V v es : forall n, (forall e, In e es -> energised_at V e) ->
  Forall (fun x => behaves V (fst (fst x)) (snd (fst x)) (snd x)) (account_of V v n es).
Proof.
  induction es as [|e es IH]; intros n H; cbn [account_of]; constructor.
  - cbn [fst snd]. apply behaves_draws, H. now left.
  - apply IH. intros x Hx. apply H. now right.
Qed.
Lemma account_rows tbl v es : forall n r, let V b := volt v (at_ref tbl b) in let ac := account_of V v n es in
  F (flat_map present (fst (assign_elems false tbl n es))) v 0 r = spread (at_ref tbl) (flat_map (fun x => snd (fst x)) ac) r + own n (misses ac) r.
Proof.
  induction es as [|e es IH]; intros n r V ac; [unfold ac; cbn; ring|]. unfold ac. cbn [account_of assign_elems].
  pose proof (rows_elem tbl v e n r) as E. pose proof (elem_size false tbl n e) as Sz. destruct (assign_elem false tbl n e) as [s n1]. cbn [fst snd] in E, Sz.
  specialize (IH n1 r). destruct (assign_elems false tbl n1 es) as [rest n2]. cbn [fst flat_map] in IH |- *. rewrite F_app. cbv zeta in E, IH. rewrite E, IH.
  unfold misses. cbn [flat_map snd fst]. rewrite spread_app, own_app, laws_length.
  replace (n + 1 * own_unknowns e)%nat with (n + own_unknowns e)%nat in Sz by lia. subst n1. fold V. ring.
Qed.

(** *** extensionality *)
Lemma flat_map_ext_in {A B} (f g : A -> list B) l : (forall x, In x l -> f x = g x) -> flat_map f l = flat_map g l.
Proof. induction l as [|x l IH]; intros H; cbn [flat_map]; [reflexivity|]. rewrite H, IH; auto; [intros; apply H; now right|now left]. Qed.
Lemma Csum_ext g h n : (forall j, (j < n)%nat -> g j = h j) -> Csum g n = Csum h n.
Proof.
  intros H. unfold Csum. assert (E : forall l, (forall j, In j l -> (j < n)%nat) -> fold_right (fun i acc => Cadd (g i) acc) C0 l = fold_right (fun i acc => Cadd (h i) acc) C0 l).
  { induction l as [|a l IH]; intros L; cbn [fold_right]; [reflexivity|]. rewrite H, IH; auto; [intros; apply L; now right|apply L; now left]. }
  apply E. intros j Hj. apply in_seq in Hj. lia.
Qed.
Lemma unb_ref ph g b B i (e : bool) : (i < length ph)%nat -> In (if e then fst (nth i ph (None, None)) else snd (nth i ph (None, None))) (refs (EUnb ph g b B)).
Proof. intros H. cbn [refs]. apply in_flat_map. exists (nth i ph (None, None)). split; [now apply nth_In|]. destruct e; simpl; auto. Qed.
Lemma draws_ext V V' e w w' : (forall b, In b (refs e) -> V b = V' b) -> (forall j, (j < own_unknowns e)%nat -> w j = w' j) ->
  draws V e w = draws V' e w' /\ laws V e w = laws V' e w'.
Proof.
  intros HV HW. destruct e; try (destruct closed); cbn [draws laws refs own_unknowns] in *; unfold across, pair_of;
    rewrite ?HV by (simpl; auto 8); rewrite ?HW by lia; auto.
  split; auto. apply flat_map_ext_in. intros i Hi. apply in_seq in Hi.
  assert (Ef : forall j, (j < length phases)%nat -> V (fst (nth j phases (None, None))) = V' (fst (nth j phases (None, None)))).
  { intros j Hj. apply HV. exact (unb_ref phases g b B j true Hj). }
  assert (Et : forall j, (j < length phases)%nat -> V (snd (nth j phases (None, None))) = V' (snd (nth j phases (None, None)))).
  { intros j Hj. apply HV. exact (unb_ref phases g b B j false Hj). }
  rewrite (Csum_ext (fun j => Cmul (g i j, b i j) (Csub (V (fst (nth j phases (None, None)))) (V (snd (nth j phases (None, None))))))
                    (fun j => Cmul (g i j, b i j) (Csub (V' (fst (nth j phases (None, None)))) (V' (snd (nth j phases (None, None))))))) by (intros; now rewrite Ef, Et).
  rewrite (Csum_ext (fun j => Cmul (0, B i j / 2) (V (fst (nth j phases (None, None))))) (fun j => Cmul (0, B i j / 2) (V' (fst (nth j phases (None, None)))))) by (intros; now rewrite Ef).
  rewrite (Csum_ext (fun j => Cmul (0, B i j / 2) (V (snd (nth j phases (None, None))))) (fun j => Cmul (0, B i j / 2) (V' (snd (nth j phases (None, None)))))) by (intros; now rewrite Et).
  reflexivity.
Qed.
Lemma draws_refs V e w : incl (map fst (draws V e w)) (refs e).
Proof.
  destruct e; try (destruct closed); cbn [draws refs map fst]; try (intros b' Hb; cbn [In] in *; tauto).
  intros x Hx. apply in_map_iff in Hx as [y [<- Hy]]. apply in_flat_map in Hy as [i [Hi Hy]]. apply in_seq in Hi. destruct Hi as [_ Hi]. cbn [Nat.add] in Hi.
  destruct Hy as [<-|[<-|[]]]; cbn [fst]; [exact (unb_ref phases g b B i true Hi)|exact (unb_ref phases g b B i false Hi)].
Qed.

(** *** rows *)
Lemma own_below m : forall n r, (r < n)%nat -> own n m r = 0.
Proof.
  induction m as [|x m IH]; intros n r H; cbn [own]; [reflexivity|]. rewrite IH by lia. unfold hit. destruct (Nat.eqb_spec n r); [lia|ring].
Qed.
Lemma own_nth m : forall n j, own n m (n + j) = nth j m 0.
Proof.
  induction m as [|x m IH]; intros n j; cbn [own]; [destruct j; reflexivity|]. destruct j as [|j]; cbn [nth].
  - rewrite own_below by lia. rewrite Nat.add_0_r. unfold hit. rewrite Nat.eqb_refl. ring.
  - replace (n + S j)%nat with (S n + j)%nat by lia. rewrite IH. unfold hit. destruct (Nat.eqb_spec n (S n + j)); [lia|ring].
Qed.

Section Network.
Variables (old : table) (nw : network).
Hypothesis OK : network_ok nw.
Hypothesis NO : nw_optimization nw = None.
Let a := assign_matrix old nw.
Let N := length (nw_buses nw).

Lemma table_at k b : nth_error (nw_buses nw) k = Some b -> as_table a (bus_id b) = new_nodes (2 * k) false.
Proof. intros H. unfold a. rewrite (table_bus old nw k b OK H). unfold optimizing. rewrite NO. reflexivity. Qed.
Lemma bus_at j : In j (map bus_id (nw_buses nw)) -> exists k b, nth_error (nw_buses nw) k = Some b /\ bus_id b = j.
Proof. intros H. apply in_map_iff in H as [b [<- Hb]]. apply In_nth_error in Hb as [k Hk]. eauto. Qed.
Lemma same_bus k k' b b' : nth_error (nw_buses nw) k = Some b -> nth_error (nw_buses nw) k' = Some b' -> bus_id b = bus_id b' -> k = k'.
Proof.
  intros H H' E. destruct OK as [ND _]. pose proof (map_nth_error bus_id _ _ H) as M. pose proof (map_nth_error bus_id _ _ H') as M'.
  rewrite NoDup_nth_error in ND. apply ND; [apply nth_error_Some; congruence|congruence].
Qed.
Lemma spread_bus k b l : nth_error (nw_buses nw) k = Some b -> (forall j, In (Some j) (map fst l) -> In j (map bus_id (nw_buses nw))) ->
  (spread (at_ref (as_table a)) l (2 * k), spread (at_ref (as_table a)) l (2 * k + 1)) = drawn (bus_id b) l.
Proof.
  intros Hk. induction l as [|[o c] l IH]; intros HI; [reflexivity|]. cbn [spread drawn fold_right fst snd]. fold (drawn (bus_id b) l).
  rewrite <- IH by (intros; apply HI; now right). destruct o as [j|]; cbn [at_ref].
  2:{ rewrite !bus_gnd, !Rplus_0_l. reflexivity. }
  destruct (bus_at j) as [k' [b' [Hk' <-]]]; [apply HI; now left|]. rewrite (table_at k' b' Hk').
  unfold at_bus, new_nodes, hit. cbn [n_Vr n_Vi].
  destruct (Nat.eqb_spec (bus_id b') (bus_id b)) as [E|E].
  - assert (k' = k) by (eapply same_bus; eauto). subst k'. rewrite !Nat.eqb_refl.
    destruct (Nat.eqb_spec (2 * k + 1) (2 * k)); [lia|]. destruct (Nat.eqb_spec (2 * k) (2 * k + 1)); [lia|].
    unfold Cadd. cbn [fst snd]. f_equal; ring.
  - assert (k' <> k) by (intros ->; apply E; congruence).
    destruct (Nat.eqb_spec (2 * k') (2 * k)); [lia|]. destruct (Nat.eqb_spec (2 * k' + 1) (2 * k)); [lia|].
    destruct (Nat.eqb_spec (2 * k') (2 * k + 1)); [lia|]. destruct (Nat.eqb_spec (2 * k' + 1) (2 * k + 1)); [lia|].
    f_equal; ring.
Qed.
Lemma spread_above l r : (2 * N <= r)%nat -> (forall j, In (Some j) (map fst l) -> In j (map bus_id (nw_buses nw))) -> spread (at_ref (as_table a)) l r = 0.
Proof.
  intros Hr. induction l as [|[o c] l IH]; intros HI; [reflexivity|]. cbn [spread]. rewrite IH by (intros; apply HI; now right).
  destruct o as [j|]; cbn [at_ref]; [|rewrite bus_gnd; ring].
  destruct (bus_at j) as [k [b [Hk <-]]]; [apply HI; now left|]. rewrite (table_at k b Hk).
  assert (k < N)%nat by (apply nth_error_Some; unfold N; congruence).
  unfold at_bus, new_nodes, hit. cbn [n_Vr n_Vi]. destruct (Nat.eqb_spec (2 * k) r); [lia|]. destruct (Nat.eqb_spec (2 * k + 1) r); [lia|]. ring.
Qed.
Lemma account_ids V v es : (forall e, In e es -> In e (elements nw)) -> forall n j,
  In (Some j) (map fst (flat_map (fun x => snd (fst x)) (account_of V v n es))) -> In j (map bus_id (nw_buses nw)).
Proof.
  intros HE. induction es as [|e es IH]; intros n j; cbn [account_of flat_map fst snd map]; [intros []|].
  rewrite map_app, in_app_iff. intros [H|H].
  - apply (proj2 OK e); [apply HE; now left|]. now apply draws_refs in H.
  - eapply IH; [|exact H]. intros x Hx. apply HE. now right.
Qed.
Lemma equations_are : equations a = flat_map present (fst (assign_elems false (as_table a) (2 * N) (elements nw))).
Proof.
  assert (T : as_table a = fst (assign_buses false (nw_buses nw) old 0)) by (unfold a; rewrite table_of; unfold optimizing; now rewrite NO).
  rewrite T. unfold equations, all_stampers, a, assign_matrix, optimizing. rewrite NO.
  destruct (assign_buses_spec false (nw_buses nw) old 0 (proj1 OK)) as [Sz _].
  destruct (assign_buses false (nw_buses nw) old 0) as [tbl n0]. cbn [snd fst] in *. cbn [per_bus Nat.add] in Sz. subst n0. fold N.
  destruct (assign_elems false tbl (2 * N) (elements nw)) as [s n1]. cbn [as_stampers as_infeasibility fst]. now rewrite app_nil_r.
Qed.
Lemma size_is : as_size a = (2 * N + list_sum (map own_unknowns (elements nw)))%nat.
Proof. unfold a. rewrite total_size by apply OK. unfold expected_size, unknowns. now rewrite NO. Qed.
Lemma rows_of_vector v : gives_rows nw a (account_of (voltages a v) v (2 * N) (elements nw)) v.
Proof.
  unfold gives_rows. fold N. cbv zeta. rewrite equations_are.
  pose proof (fun r => account_rows (as_table a) v (elements nw) (2 * N) r) as E. cbv zeta in E. fold (voltages a v) in E.
  set (ac := account_of (voltages a v) v (2 * N) (elements nw)) in *.
  assert (Ids : forall j, In (Some j) (map fst (flat_map (fun x => snd (fst x)) ac)) -> In j (map bus_id (nw_buses nw))) by (intros j; apply account_ids; auto).
  split; [|split].
  - intros k b Hk. assert (k < N)%nat by (apply nth_error_Some; unfold N; congruence). rewrite !E, !own_below by lia. rewrite !Rplus_0_r. now apply spread_bus.
  - intros j x Hj. rewrite E, own_nth, spread_above by (auto; lia). rewrite (nth_error_nth _ _ 0 Hj). ring.
  - unfold ac. rewrite account_length. apply size_is.
Qed.
Lemma energised_elems V e : energised nw V -> In e (elements nw) -> energised_at V e.
Proof. intros [H1 H2] H. destruct e; cbn [energised_at]; auto. intros; eapply H1; eauto. Qed.

(** *** C142 *)
Lemma all_rows v : energised nw (voltages a v) -> exists ac, accounts_for (voltages a v) nw ac /\ gives_rows nw a ac v.
Proof.
  intros H. exists (account_of (voltages a v) v (2 * N) (elements nw)). split; [split|].
  - apply account_elems.
  - apply account_behaves. intros. now apply energised_elems.
  - apply rows_of_vector.
Qed.

(** a vector with given voltages and own unknowns *)
Lemma account_values V ac : Forall (fun x => behaves V (fst (fst x)) (snd (fst x)) (snd x)) ac ->
  exists W, forall V' v n, (forall e, In e (map (fun x => fst (fst x)) ac) -> forall b, In b (refs e) -> V b = V' b) ->
    (forall j, (j < length W)%nat -> v (n + j)%nat = nth j W 0) -> account_of V' v n (map (fun x => fst (fst x)) ac) = ac.
Proof.
  induction 1 as [|[[e I] m] ac H HF IH]; [exists []; reflexivity|]. cbn [fst snd] in H. destruct (behaves_inv V e I m H) as [l [L [-> ->]]].
  destruct IH as [W IH]. exists (l ++ W). intros V' v n HV HW. cbn [map fst account_of]. rewrite app_length in HW.
  destruct (draws_ext V' V e (fun j => v (n + j)%nat) (values l)) as [E1 E2].
  { intros b Hb. symmetry. apply (HV e); [now left|auto]. }
  { intros j Hj. rewrite HW by lia. unfold values. rewrite app_nth1 by lia. reflexivity. }
  rewrite E1, E2. f_equal. apply IH.
  - intros x Hx. apply HV. now right.
  - intros j Hj. replace (n + own_unknowns e + j)%nat with (n + (length l + j))%nat by lia. rewrite HW by lia. rewrite app_nth2 by lia. f_equal. lia.
Qed.
Definition bus_value (V : bref -> C) (i : nat) : R :=
  match nth_error (nw_buses nw) (i / 2) with
  | Some b => let c := V (Some (bus_id b)) in if Nat.even i then fst c else snd c
  | None => 0
  end.
Lemma volt_value V v k b : nth_error (nw_buses nw) k = Some b -> (forall i, (i < 2 * N)%nat -> v i = bus_value V i) -> voltages a v (Some (bus_id b)) = V (Some (bus_id b)).
Proof.
  intros Hk Hv. assert (k < N)%nat by (apply nth_error_Some; unfold N; congruence).
  unfold voltages. cbn [at_ref]. rewrite (table_at k b Hk). unfold volt, SpecComponents.read, new_nodes. cbn [n_Vr n_Vi].
  rewrite !Hv by lia. unfold bus_value.
  replace (2 * k / 2)%nat with k by (rewrite Nat.mul_comm, Nat.div_mul by lia; reflexivity).
  replace ((2 * k + 1) / 2)%nat with k by (rewrite (Nat.mul_comm 2), Nat.div_add_l by lia; cbn; lia).
  rewrite Hk. replace (Nat.even (2 * k)) with true by (symmetry; rewrite Nat.even_mul; reflexivity).
  replace (Nat.even (2 * k + 1)) with false by (symmetry; rewrite Nat.even_add, Nat.even_mul; reflexivity).
  now destruct (V (Some (bus_id b))).
Qed.
Lemma realised V ac : V None = C0 -> accounts_for V nw ac ->
  exists v, (forall b, In b (nw_buses nw) -> voltages a v (Some (bus_id b)) = V (Some (bus_id b))) /\ gives_rows nw a ac v.
Proof.
  intros V0 [HE HF]. destruct (account_values V ac HF) as [W HW].
  set (v := fun i => if Nat.ltb i (2 * N) then bus_value V i else nth (i - 2 * N) W 0).
  assert (Hv : forall k b, nth_error (nw_buses nw) k = Some b -> voltages a v (Some (bus_id b)) = V (Some (bus_id b))).
  { intros k b Hk. apply (volt_value V v k b Hk). intros i Hi. unfold v. destruct (Nat.ltb_spec i (2 * N)); [reflexivity|lia]. }
  exists v. split.
  - intros b Hb. apply In_nth_error in Hb as [k Hk]. eauto.
  - pose proof (rows_of_vector v) as R. rewrite <- HE in R. rewrite (HW (voltages a v) v (2 * N)%nat) in R; auto.
    + intros e He b Hb. rewrite HE in He. destruct b as [j|]; [|now rewrite V0].
      destruct (bus_at j) as [k [b [Hk <-]]]; [exact (proj2 OK e He j Hb)|]. symmetry. eauto.
    + intros j Hj. unfold v. destruct (Nat.ltb_spec (2 * N + j) (2 * N)); [lia|]. f_equal. lia.
Qed.
Lemma row_cases v ac r : gives_rows nw a ac v -> (r < as_size a)%nat ->
  (exists k b, nth_error (nw_buses nw) k = Some b /\ (r = 2 * k \/ r = 2 * k + 1)%nat) \/ exists j x, nth_error (misses ac) j = Some x /\ r = (2 * N + j)%nat.
Proof.
  intros [_ [_ H]] Hr. fold N in H. destruct (Nat.lt_ge_cases r (2 * N)) as [L|L].
  - left. assert (r / 2 < N)%nat by (apply Nat.div_lt_upper_bound; lia).
    destruct (nth_error (nw_buses nw) (r / 2)) as [b|] eqn:E; [|apply nth_error_None in E; fold N in E; lia].
    exists (r / 2)%nat, b. split; auto. pose proof (Nat.div_mod r 2). pose proof (Nat.mod_upper_bound r 2). lia.
  - right. destruct (nth_error (misses ac) (r - 2 * N)) as [x|] eqn:E; [|apply nth_error_None in E; lia]. exists (r - 2 * N)%nat, x. split; auto. lia.
Qed.
Lemma volt_none v : voltages a v None = C0.
Proof. reflexivity. Qed.
Lemma within eps v : energised nw (voltages a v) -> (forall r, (r < as_size a)%nat -> Rabs (F (equations a) v 0 r) < eps) -> nearly_physical eps nw (voltages a v).
Proof.
  intros HE HF. split; [reflexivity|]. destruct (all_rows v HE) as [ac [HA HR]]. exists ac. split; auto. destruct HR as [R1 [R2 R3]]. fold N in R2, R3. split.
  - apply Forall_forall. intros x Hx. apply In_nth_error in Hx as [j Hj]. rewrite <- (R2 j x Hj). apply HF. rewrite R3.
    assert (j < length (misses ac))%nat by (apply nth_error_Some; congruence). lia.
  - intros b Hb. apply In_nth_error in Hb as [k Hk]. rewrite <- (R1 k b Hk). cbn [fst snd].
    assert (k < N)%nat by (apply nth_error_Some; unfold N; congruence). split; apply HF; lia.
Qed.
Lemma exact_iff v : energised nw (voltages a v) -> (forall r, (r < as_size a)%nat -> F (equations a) v 0 r = 0) -> physical nw (voltages a v).
Proof.
  intros HE HF. split; [reflexivity|]. destruct (all_rows v HE) as [ac [HA HR]]. exists ac. split; auto. destruct HR as [R1 [R2 R3]]. fold N in R2, R3. split.
  - apply Forall_forall. intros x Hx. apply In_nth_error in Hx as [j Hj]. rewrite <- (R2 j x Hj). apply HF.
    assert (j < length (misses ac))%nat by (apply nth_error_Some; congruence). lia.
  - intros b Hb. apply In_nth_error in Hb as [k Hk]. rewrite <- (R1 k b Hk).
    assert (k < N)%nat by (apply nth_error_Some; unfold N; congruence). rewrite !HF by lia. reflexivity.
Qed.
Lemma complete V : physical nw V -> exists v, (forall b, In b (nw_buses nw) -> voltages a v (Some (bus_id b)) = V (Some (bus_id b))) /\
  forall r, (r < as_size a)%nat -> F (equations a) v 0 r = 0.
Proof.
  intros [V0 [ac [HA [HM HK]]]]. destruct (realised V ac V0 HA) as [v [Hv HR]]. exists v. split; auto. intros r Hr.
  destruct (row_cases v ac r HR Hr) as [[k [b [Hk Hr']]]|[j [x [Hj ->]]]]; destruct HR as [R1 [R2 R3]].
  - specialize (R1 k b Hk). rewrite HK in R1 by (eapply nth_error_In; eauto). unfold C0 in R1. injection R1 as E1 E2. destruct Hr' as [-> | ->]; auto.
  - fold N in R2. rewrite (R2 j x Hj). rewrite Forall_forall in HM. apply HM. eapply nth_error_In; eauto.
Qed.
End Network.
