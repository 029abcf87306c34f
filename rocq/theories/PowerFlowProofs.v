(** Lemmas for C144: switching capacitors changes neither indexes nor sizes; the graph of a network; the devices of a run. *)
From Coq Require Import String List Bool Arith ZArith Reals Permutation Lia Lra.
From Verif Require Import Expr Segment Collect SpecSystem Components SpecComponents Network SpecNetwork NetworkAssign NetworkInit Devices SpecDevices DevicesProofs
  Graph SpecGraph GraphProofs SpecKirchhoff KirchhoffProofs KirchhoffNet SpecNetStamper PowerFlow SpecPowerFlow.
Import ListNotations.
Local Open Scope R_scope.

(** *** switched capacitors *)
Lemma f2_refl {A} (P : A -> A -> Prop) (l : list A) : (forall y, P y y) -> Forall2 P l l.
Proof. intros H; induction l; constructor; auto. Qed.
Lemma f2_app {A B} (P : A -> B -> Prop) l1 l2 m1 m2 : Forall2 P l1 l2 -> Forall2 P m1 m2 -> Forall2 P (l1 ++ m1) (l2 ++ m2).
Proof. intros H1 H2; induction H1; cbn; auto. Qed.
Lemma switched_re d e : reswitched e (switched d e).
Proof. destruct d, e; constructor. Qed.
Lemma switch_all_re es : forall ds, Forall2 reswitched es (switch_all ds es).
Proof. induction es as [|e es IH]; intros [|d ds]; cbn; constructor; auto using switched_re, same_element. apply f2_refl. constructor. Qed.
Lemma with_devices_re nw ds : rewired nw (with_devices nw ds).
Proof. eexists. split; [reflexivity|]. apply switch_all_re. Qed.
Lemma rewired_elements nw nw' : rewired nw nw' -> Forall2 reswitched (elements nw) (elements nw').
Proof.
  intros [cs [-> H]]. unfold elements, with_capacitors; cbn. repeat (apply f2_app; [apply f2_refl; constructor|]).
  destruct (nw_three_phase nw); [|apply f2_refl; constructor]. repeat (apply f2_app; [apply f2_refl; constructor|]). exact H.
Qed.
Lemma f2_in_r {A B} (P : A -> B -> Prop) l m : Forall2 P l m -> forall y, In y m -> exists x, In x l /\ P x y.
Proof. intros H; induction H; intros z Hz; [destruct Hz|]. destruct Hz as [<-|Hz]; [eexists; split; [now left|auto]|]. destruct (IHForall2 z Hz) as [w [Hw Pw]]. exists w; split; [now right|auto]. Qed.
Lemma re_refs e e' : reswitched e e' -> refs e = refs e'.
Proof. intros H; destruct H; reflexivity. Qed.
Lemma re_unknowns e e' : reswitched e e' -> own_unknowns e = own_unknowns e'.
Proof. intros H; destruct H; reflexivity. Qed.
Lemma rewired_same nw nw' : rewired nw nw' -> nw_buses nw' = nw_buses nw /\ nw_optimization nw' = nw_optimization nw /\ nw_three_phase nw' = nw_three_phase nw /\ nw_fuses nw' = nw_fuses nw.
Proof. intros [cs [-> _]]. auto. Qed.
Lemma rewired_ok nw nw' : rewired nw nw' -> network_ok nw -> network_ok nw'.
Proof.
  intros R [O1 O2]. destruct (rewired_same _ _ R) as [Eb _]. unfold network_ok. rewrite Eb. split; [exact O1|].
  intros e He k Hk. destruct (f2_in_r _ _ _ (rewired_elements _ _ R) e He) as [d [Hd Rd]]. rewrite <- (re_refs _ _ Rd) in Hk. eauto.
Qed.
Lemma rewired_ends nw nw' : rewired nw nw' -> ends_on_buses nw -> ends_on_buses nw'.
Proof.
  intros R [E1 E2]. split.
  - intros ph g b B He p Hp. destruct (f2_in_r _ _ _ (rewired_elements _ _ R) _ He) as [d [Hd Rd]]. inversion Rd; subst. eauto.
  - intros c f p s1 t1 s2 t2 He. destruct (f2_in_r _ _ _ (rewired_elements _ _ R) _ He) as [d [Hd Rd]]. inversion Rd; subst. eauto.
Qed.
Lemma rewired_assign old nw nw' : rewired nw nw' ->
  as_table (assign_matrix old nw') = as_table (assign_matrix old nw) /\ as_size (assign_matrix old nw') = as_size (assign_matrix old nw).
Proof.
  intros R. destruct (rewired_same _ _ R) as [Eb [Eo [_ _]]]. unfold assign_matrix, optimizing. rewrite Eb, Eo.
  pose proof (rewired_elements _ _ R) as RE. revert RE. generalize (elements nw) (elements nw'). intros es es' RE.
  destruct (assign_buses _ (nw_buses nw) old 0) as [tbl n0].
  assert (forall opt, snd (assign_elems opt tbl n0 es') = snd (assign_elems opt tbl n0 es)) as Sz.
  { assert (map own_unknowns es' = map own_unknowns es) as M; [|intros opt; rewrite !elems_size, M; reflexivity].
    induction RE as [|y z l m P]; cbn; [reflexivity|]. rewrite (re_unknowns _ _ P). f_equal. auto. }
  specialize (Sz (match nw_optimization nw with Some _ => true | None => false end)).
  destruct (assign_elems _ tbl n0 es) as [s n1], (assign_elems _ tbl n0 es') as [s' n1']. cbn [snd] in Sz. subst n1'.
  destruct (match nw_optimization nw with None => ([], n1) | Some l1 => assign_infeasibility l1 tbl n1 (nw_buses nw) end) as [i n2]. auto.
Qed.

(** stampers before the capacitors *)
Definition before_caps (nw : network) : list elem :=
  nw_lines nw ++ nw_transformers nw ++ map ESlack (nw_slack nw) ++ nw_switches nw ++ map EGen (nw_generators nw) ++ nw_loads nw ++ nw_misc nw ++ nw_regulators nw ++ nw_fuses nw.
Lemma elements_caps nw : nw_three_phase nw = true -> elements nw = before_caps nw ++ nw_capacitors nw.
Proof. intros H. unfold elements, before_caps. rewrite H. repeat rewrite <- app_assoc. reflexivity. Qed.
Lemma assign_app opt tbl l : forall n m, exists r, fst (assign_elems opt tbl n (l ++ m)) = fst (assign_elems opt tbl n l) ++ r.
Proof.
  induction l as [|e l IH]; intros n m; cbn [app assign_elems]; [eexists; reflexivity|].
  destruct (assign_elem opt tbl n e) as [s n1]. destruct (IH n1 m) as [r Hr]. exists r.
  destruct (assign_elems opt tbl n1 (l ++ m)) as [r1 k1]. destruct (assign_elems opt tbl n1 l) as [r2 k2]. cbn [fst] in *. rewrite Hr. reflexivity.
Qed.
(** a stamper list at a position comes from the element there, with the unknowns of the elements before it below *)
Lemma assign_nth opt tbl es : forall n k e, nth_error es k = Some e ->
  nth_error (fst (assign_elems opt tbl n es)) k = Some (fst (assign_elem opt tbl (n + (if opt then 2 else 1) * list_sum (map own_unknowns (firstn k es)))%nat e)).
Proof.
  induction es as [|e0 es IH]; intros n [|k] e H; try discriminate; cbn [assign_elems]; cbn in H.
  - injection H as ->. pose proof (elem_size opt tbl n e) as Sz. cbn [firstn map list_sum fold_right]. rewrite Nat.mul_0_r, Nat.add_0_r.
    destruct (assign_elem opt tbl n e) as [s n1]. destruct (assign_elems opt tbl n1 es). reflexivity.
  - pose proof (elem_size opt tbl n e0) as Sz. destruct (assign_elem opt tbl n e0) as [s n1]. cbn [snd] in Sz.
    specialize (IH n1 k e H). destruct (assign_elems opt tbl n1 es) as [r m]. cbn [fst nth_error] in *. rewrite IH. do 3 f_equal. subst n1. cbn [firstn map list_sum fold_right].
    destruct opt; unfold list_sum; lia.
Qed.

(** *** current sensors *)
Lemma account_nth V v es : forall n k e, nth_error es k = Some e ->
  let w j := v (n + list_sum (map own_unknowns (firstn k es)) + j)%nat in nth_error (account_of V v n es) k = Some (e, draws V e w, laws V e w).
Proof.
  induction es as [|e0 es IH]; intros n [|k] e H; try discriminate; cbn [account_of]; cbn in H.
  - injection H as ->. cbn [firstn map list_sum fold_right nth_error]. rewrite Nat.add_0_r. reflexivity.
  - specialize (IH (n + own_unknowns e0)%nat k e H). cbn [nth_error firstn map]. cbv zeta in IH. rewrite IH.
    cbn [list_sum fold_right]. unfold list_sum. rewrite Nat.add_assoc. reflexivity.
Qed.
Definition base_of (nw : network) (k : nat) : nat := (2 * length (nw_buses nw) + list_sum (map own_unknowns (firstn k (elements nw))))%nat.
Lemma buses_size opt bs : forall t n, snd (assign_buses opt bs t n) = (n + per_bus opt * length bs)%nat.
Proof. induction bs as [|b bs IH]; intros t n; cbn [assign_buses length snd]; [lia|]. rewrite IH. lia. Qed.
Lemma stampers_nth old nw k e : nw_optimization nw = None -> nth_error (elements nw) k = Some e ->
  let a := assign_matrix old nw in nth_error (as_stampers a) k = Some (fst (assign_elem false (as_table a) (base_of nw k) e)).
Proof.
  intros O H. unfold assign_matrix, optimizing. rewrite O. pose proof (buses_size false (nw_buses nw) old 0) as Sz.
  destruct (assign_buses false (nw_buses nw) old 0) as [tbl n0]. cbn [snd] in Sz.
  pose proof (assign_nth false tbl (elements nw) n0 k e H) as A. destruct (assign_elems false tbl n0 (elements nw)) as [s n1]. cbn [as_stampers as_table fst] in *.
  rewrite A. do 3 f_equal. unfold base_of. rewrite Sz. cbn [per_bus]. lia.
Qed.
Lemma fuse_position nw k e : nw_three_phase nw = true -> nth_error (nw_fuses nw) k = Some e -> nth_error (elements nw) (before_fuses nw + k) = Some e.
Proof.
  intros T H. unfold elements, before_fuses. rewrite T. repeat rewrite app_assoc. rewrite nth_error_app1.
  - rewrite nth_error_app2 by lia. replace (_ - _)%nat with k by lia. exact H.
  - rewrite (app_length _ (nw_fuses nw)). assert (k < length (nw_fuses nw))%nat by (apply nth_error_Some; congruence). lia.
Qed.
Lemma sensor_at old nw k f t m : nw_optimization nw = None -> nw_three_phase nw = true -> nth_error (nw_fuses nw) k = Some (EFuse f t m) ->
  let s := nth (before_fuses nw + k) (as_stampers (assign_matrix old nw)) [] in
  sensor s "Ir"%string = base_of nw (before_fuses nw + k) /\ sensor s "Ii"%string = S (base_of nw (before_fuses nw + k)).
Proof.
  intros O T H s. assert (nth_error (as_stampers (assign_matrix old nw)) (before_fuses nw + k) = Some s) as E.
  { unfold s. apply nth_error_nth'. apply nth_error_Some. rewrite (stampers_nth old nw _ _ O (fuse_position _ _ _ T H)). discriminate. }
  rewrite (stampers_nth old nw _ _ O (fuse_position _ _ _ T H)) in E. injection E as E. clearbody s. revert E. generalize (base_of nw (before_fuses nw + k)).
  intros n <-. cbn. generalize (at_ref (as_table (assign_matrix old nw)) m), (at_ref (as_table (assign_matrix old nw)) t). intros x y. split; [reflexivity|]. reflexivity.
Qed.

Lemma buses_known opt bs j : forall t n, (exists i1 i2, n_Vr (t j) = Some i1 /\ n_Vi (t j) = Some i2) \/ In j (map bus_id bs) ->
  exists i1 i2, n_Vr (fst (assign_buses opt bs t n) j) = Some i1 /\ n_Vi (fst (assign_buses opt bs t n) j) = Some i2.
Proof.
  induction bs as [|b bs IH]; intros t n H; cbn [assign_buses]; [destruct H as [H|[]]; exact H|]. apply IH. unfold set_nodes.
  destruct (Nat.eqb_spec j (bus_id b)) as [-> | N]; [left; eexists; eexists; split; reflexivity|]. destruct H as [H|[H|H]]; [left; exact H|congruence|right; exact H].
Qed.
Lemma table_known old nw j : In j (map bus_id (nw_buses nw)) ->
  exists i1 i2, n_Vr (as_table (assign_matrix old nw) j) = Some i1 /\ n_Vi (as_table (assign_matrix old nw) j) = Some i2.
Proof. intros H. rewrite table_of. apply buses_known. auto. Qed.
Lemma f2_length {A B} (P : A -> B -> Prop) l m : Forall2 P l m -> length l = length m.
Proof. intros H; induction H; cbn; auto. Qed.
