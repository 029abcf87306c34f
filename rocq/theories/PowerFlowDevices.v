(** Lemmas for C144: the devices a run ends with. *)
From Coq Require Import String List Bool Arith ZArith Reals Lia Lra.
From Verif Require Import SpecSystem Components SpecComponents Network SpecNetwork Devices SpecDevices DevicesProofs SpecKirchhoff KirchhoffProofs KirchhoffNet
  Solver PowerFlow SpecPowerFlow PowerFlowProofs PowerFlowGraph.
Import ListNotations.
Local Open Scope R_scope.

(** the same device up to its state *)
Definition same_device (d d' : device) : Prop :=
  match d, d' with
  | DFuse f, DFuse f' => f' = set_status f (f_status f')
  | DCap c, DCap c' => c' = set_switch c (c_switch c')
  | DReg r, DReg r' => r' = r
  | DOther, DOther => True
  | _, _ => False
  end.
Lemma same_refl d : same_device d d.
Proof. destruct d as [[]|[]| |]; cbn; auto. Qed.
Lemma same_trans d1 d2 d3 : same_device d1 d2 -> same_device d2 d3 -> same_device d1 d3.
Proof.
  destruct d1 as [f1|c1| |], d2 as [f2|c2| |], d3 as [f3|c3| |]; cbn; try tauto; try congruence.
  - intros -> ->. reflexivity.
  - intros -> ->. reflexivity.
Qed.
Lemma adjust_same v d d' a : adjust_device v d = Some (d', a) -> same_device d d'.
Proof.
  destruct d as [f|c| |]; cbn [adjust_device].
  - unfold fuse_adjust. destruct (f_status f) eqn:E; [destruct (gtb _ _)|]; intros H; injection H as <- <-; cbn; try reflexivity; rewrite E; destruct f; cbn in *; now rewrite E.
  - unfold cap_adjust. destruct (c_mode c); cbn [option_map]; try discriminate.
    + intros H; injection H as <- <-. destruct c; reflexivity.
    + intros H. destruct (gtb _ _), (ltb _ _), (c_switch c) eqn:E; cbn in H; rewrite ?E in H; cbn in H; injection H as <- <-; destruct c; cbn in *; subst; reflexivity.
  - intros H; injection H as <- <-. reflexivity.
  - intros H; injection H as <- <-. constructor.
Qed.
Lemma adjust_all_same v : forall ds ds' a, adjust_all v ds = Some (ds', a) -> Forall2 same_device ds ds'.
Proof.
  induction ds as [|d ds IH]; intros ds' a H; cbn in H; [injection H as <- <-; constructor|].
  destruct (adjust_device v d) as [[d1 a1]|] eqn:E; [|discriminate]. destruct (adjust_all v ds) as [[r b]|] eqn:E2; [|discriminate].
  injection H as <- <-. constructor; [eapply adjust_same; eauto|eauto].
Qed.
Lemma try_adjust_same tp v ds ds' a : try_adjust_devices tp v ds = Some (ds', a) -> Forall2 same_device ds ds'.
Proof. destruct tp; cbn; [apply adjust_all_same|]. intros H; injection H as <- <-. apply f2_refl, same_refl. Qed.
Lemma f2_trans {A} (P : A -> A -> Prop) : (forall x y z, P x y -> P y z -> P x z) -> forall l m n, Forall2 P l m -> Forall2 P m n -> Forall2 P l n.
Proof. intros T l m n H. revert n. induction H; intros n K; inversion K; subst; constructor; eauto. Qed.

Section Controller.
Context {H V E Res : Type}.
Variable homotopy : H -> list device -> V -> H * ((bool * V * Res) + E).
Variable read : V -> nat -> R.
Lemma loop_same : forall n dc tp h ds v ok v' res ds' h', device_loop homotopy read n dc tp h ds v = DOk ok v' res ds' h' -> Forall2 same_device ds ds'.
Proof.
  induction n as [|n IH]; intros dc tp h ds v ok v' res ds' h' Hr; cbn [device_loop] in Hr; [discriminate|].
  destruct (solve homotopy h ds v) as [h1 [[[ok1 v1] res1]|e]]; [|discriminate].
  destruct ok1; cbn [negb] in Hr; cbn iota in Hr; [|injection Hr as <- <- <- <- <-; apply f2_refl, same_refl].
  destruct dc; cbn [negb] in Hr; cbn iota in Hr; [|injection Hr as <- <- <- <- <-; apply f2_refl, same_refl].
  destruct (try_adjust_devices tp (read v1) ds) as [[ds1 [|]]|] eqn:Ea; [| |discriminate].
  - eapply f2_trans; [exact same_trans|eapply try_adjust_same; eauto|eauto].
  - injection Hr as <- <- <- <- <-. eapply try_adjust_same; eauto.
Qed.
Lemma run_same dc tp h ds v ok v' res ds' h' : device_run homotopy read dc tp h ds v = DOk ok v' res ds' h' -> Forall2 same_device ds ds'.
Proof.
  unfold device_run. destruct dc; [|apply loop_same]. destruct (try_adjust_devices tp (read v) ds) as [[ds1 a]|] eqn:Ea; [|discriminate].
  intros Hr. eapply f2_trans; [exact same_trans|eapply try_adjust_same; eauto|eapply loop_same; eauto].
Qed.
(** work: every run of the homotopy costs at most [B] *)
Lemma loop_work (cnt : H -> nat) B : (forall h ds v, (cnt (fst (homotopy h ds v)) <= cnt h + B)%nat) ->
  forall n dc tp h ds v, (dcount cnt (device_loop homotopy read n dc tp h ds v) <= cnt h + n * B)%nat.
Proof.
  intros Hc. induction n as [|n IH]; intros dc tp h ds v; cbn [device_loop]; [cbn; lia|].
  unfold solve. destruct (any_blown ds); [cbn; lia|]. pose proof (Hc h ds v) as C.
  destruct (homotopy h ds v) as [h' [[[ok v'] res]|e]]; cbn [fst] in C; [|cbn; lia].
  destruct ok; cbn [negb]; cbn iota; [|cbn; lia]. destruct dc; cbn [negb]; cbn iota; [|cbn; lia].
  destruct (try_adjust_devices tp (read v') ds) as [[ds' [|]]|]; [|cbn; lia|cbn; lia].
  specialize (IH true tp h' ds' v). cbn [Nat.mul]. lia.
Qed.
Lemma run_work (cnt : H -> nat) B : (forall h ds v, (cnt (fst (homotopy h ds v)) <= cnt h + B)%nat) ->
  forall dc tp h ds v, (dcount cnt (device_run homotopy read dc tp h ds v) <= cnt h + 10 * B)%nat.
Proof.
  intros Hc dc tp h ds v. unfold device_run. destruct dc; [|apply loop_work; auto].
  destruct (try_adjust_devices tp (read v) ds) as [[ds1 a]|]; [apply loop_work; auto|cbn [dcount]; lia].
Qed.
Lemma run_good dc tp h ds v ok v' res ds' h' : device_run homotopy read dc tp h ds v = DOk ok v' res ds' h' -> any_blown ds' = false.
Proof.
  unfold device_run. destruct dc.
  - destruct (try_adjust_devices tp (read v) ds) as [[ds1 a]|]; [|discriminate]. intros Hr. apply (loop_result _ _ _ _ _ _ _ _ _ _ _ _ _ Hr).
  - intros Hr. apply (loop_result _ _ _ _ _ _ _ _ _ _ _ _ _ Hr).
Qed.
End Controller.

(** *** the devices of a network *)
Section Network.
Variables (x : details_of) (old : table) (nw : network).
Let a := assign_matrix old nw.
Let ds := devices_of x nw a.
Variable ds' : list device.
Hypothesis SA : Forall2 same_device ds ds'.
Let nw' := with_devices nw ds'.

Lemma f2_nth {A B} (P : A -> B -> Prop) l m : Forall2 P l m -> forall k y, nth_error m k = Some y -> exists z, nth_error l k = Some z /\ P z y.
Proof. intros F; induction F; intros [|k] z Hz; try discriminate; cbn in *; [injection Hz as <-; eauto|eauto]. Qed.
Lemma f2_nth_l {A B} (P : A -> B -> Prop) l m : Forall2 P l m -> forall k y, nth_error l k = Some y -> exists z, nth_error m k = Some z /\ P y z.
Proof. intros F; induction F; intros [|k] z Hz; try discriminate; cbn in *; [injection Hz as <-; eauto|eauto]. Qed.
Lemma number_nth {A} (l : list A) : forall n k, nth_error (number n l) k = option_map (fun y => ((n + k)%nat, y)) (nth_error l k).
Proof. induction l as [|z l IH]; intros n [|k]; cbn; auto; [now rewrite Nat.add_0_r|]. rewrite IH. replace (S n + k)%nat with (n + S k)%nat by lia. reflexivity. Qed.
Lemma nth_map {A B} (f : A -> B) l k : nth_error (map f l) k = option_map f (nth_error l k).
Proof. revert k; induction l; intros [|k]; cbn; auto. Qed.

Lemma fuse_device k e : nw_three_phase nw = true -> nth_error (nw_fuses nw) k = Some e -> nth_error ds k = Some (fuse_of x nw a k).
Proof.
  intros T H. unfold ds, devices_of. rewrite T. rewrite nth_error_app1.
  - rewrite nth_map, number_nth, H. reflexivity.
  - rewrite map_length, number_length. apply nth_error_Some. congruence.
Qed.
Lemma cap_device k e : nw_three_phase nw = true -> nth_error (nw_capacitors nw) k = Some e -> nth_error ds (length (nw_fuses nw) + k) = Some (cap_of x a k e).
Proof.
  intros T H. unfold ds, devices_of. rewrite T. rewrite nth_error_app2; rewrite map_length, number_length; [|lia].
  replace (_ - _)%nat with k by lia. rewrite nth_map, number_nth, H. reflexivity.
Qed.
Lemma nth_skipn {A} (l : list A) : forall n k, nth_error (skipn n l) k = nth_error l (n + k).
Proof. induction l; intros [|n] k; cbn; auto. destruct k; reflexivity. Qed.
Lemma switch_nth es : forall dd k e d, nth_error es k = Some e -> nth_error dd k = Some d -> nth_error (switch_all dd es) k = Some (switched d e).
Proof. induction es as [|e0 es IH]; intros [|d0 dd] [|k] e d H1 H2; cbn in *; try discriminate; [congruence|eauto]. Qed.
Lemma switch_nth_none es : forall dd k, nth_error dd k = None -> nth_error (switch_all dd es) k = nth_error es k.
Proof. induction es as [|e0 es IH]; intros [|d0 dd] [|k] H; cbn in *; try discriminate; auto. Qed.

(** the fuses of a run that blew nothing *)
Hypothesis FU : forall i f, nth_error ds' i = Some (DFuse f) -> f_status f = GOOD /\ nth_error ds i = Some (DFuse f).
Lemma end_fuse k e : nw_three_phase nw = true -> nth_error (nw_fuses nw) k = Some e -> nth_error ds' k = Some (fuse_of x nw a k) /\ snd (of_fuse x k) = GOOD.
Proof.
  intros T E. pose proof (fuse_device k e T E) as Hf. destruct (f2_nth_l _ _ _ SA _ _ Hf) as [d [Hd Hs]].
  unfold fuse_of in Hs. destruct d as [f| | |]; cbn in Hs; try contradiction. destruct (FU _ _ Hd) as [G1 G2].
  rewrite Hf in G2. unfold fuse_of in G2 |- *. injection G2 as <-. auto.
Qed.
Lemma run_intact : intact x nw.
Proof. intros T k Hk. destruct (nth_error (nw_fuses nw) k) as [e|] eqn:E; [|apply nth_error_None in E; lia]. apply (end_fuse k e T E). Qed.

(** nothing has to act at the vector [v] *)
Hypothesis OK : network_ok nw.
Variable v : nat -> R.
Hypothesis ST : settled (nw_three_phase nw) v ds'.
Hypothesis TP : nw_three_phase nw = true.
Let a' := assign_matrix old nw'.
Lemma caps_at_rest : sorted nw -> capacitors_rest x (voltages a' v) nw'.
Proof.
  intros [_ SO] k B c f t H. unfold nw', with_devices, with_capacitors in H. cbn [nw_capacitors] in H.
  destruct (nth_error (nw_capacitors nw) k) as [e|] eqn:E.
  2:{ apply nth_error_None in E. assert (k < length (switch_all (skipn (length (nw_fuses nw)) ds') (nw_capacitors nw)))%nat by (apply nth_error_Some; congruence).
      pose proof (f2_length _ _ _ (switch_all_re (nw_capacitors nw) (skipn (length (nw_fuses nw)) ds'))). lia. }
  pose proof (cap_device k e TP E) as Hc. destruct (f2_nth_l _ _ _ SA _ _ Hc) as [d [Hd Hs]].
  rewrite <- nth_skipn in Hd. rewrite (switch_nth _ _ _ _ _ E Hd) in H. injection H as H. rewrite nth_skipn in Hd.
  destruct (SO e (nth_error_In _ _ E)) as [B0 [c0 [f0 [t0 ->]]]]. unfold cap_of in Hs.
  destruct (of_cap x k) as [[mode high] low] eqn:Em. destruct d as [|c'| |]; cbn in Hs; try contradiction.
  cbn [switched] in H. injection H as -> <- -> ->. pose proof (ST TP _ (nth_error_In _ _ Hd)) as NA. cbn [must_act] in NA. rewrite Hs in NA |- *. cbn in NA |- *.
  clear Hs Hd. destruct mode; auto; [|destruct f; exfalso; apply NA; exact I|destruct f; exfalso; apply NA; exact I].
  destruct f as [j|]; [|exfalso; apply NA; exact I]. split; [discriminate|].
  assert (In j (map bus_id (nw_buses nw))) as Bj.
  { apply (proj2 OK (ECap B c0 (Some j) t)); [|left; reflexivity]. apply nth_error_In in E. rewrite (elements_caps _ TP). apply in_app_iff. auto. }
  unfold voltages, a'. rewrite (proj1 (rewired_assign old nw nw' (with_devices_re nw ds'))). fold a. cbn [at_ref] in NA |- *.
  destruct (table_known old nw j Bj) as [i1 [i2 [E1 E2]]]. fold a in E1, E2. unfold volt, Cabs. rewrite E1, E2 in *. cbn [or0 read fst snd] in *.
  destruct (c_switch c'); split; intros HH; try reflexivity; exfalso; apply NA; [left|right]; auto.
Qed.
Lemma fuses_at_rest : sorted nw -> nw_optimization nw = None -> fuses_rest x nw' (account_of (voltages a' v) v (2 * length (nw_buses nw')) (elements nw')).
Proof.
  intros [SF _] O k f t m I y H1 H2. destruct (rewired_same _ _ (with_devices_re nw ds')) as [Eb [_ [_ Ef]]]. fold nw' in Eb, Ef. rewrite Ef in H1.
  change (before_fuses nw') with (before_fuses nw) in H2. rewrite Eb in H2. pose proof (fuse_position nw k _ TP H1) as P.
  assert (nth_error (elements nw') (before_fuses nw + k) = Some (EFuse f t m)) as P'.
  { destruct (f2_nth_l _ _ _ (rewired_elements _ _ (with_devices_re nw ds')) _ _ P) as [z [Hz Rz]]. inversion Rz; subst; auto. }
  rewrite (account_nth _ v _ (2 * length (nw_buses nw)) _ _ P') in H2. injection H2 as <- _.
  assert (map own_unknowns (firstn (before_fuses nw + k) (elements nw')) = map own_unknowns (firstn (before_fuses nw + k) (elements nw))) as Ep.
  { clear P P'. pose proof (rewired_elements _ _ (with_devices_re nw ds')) as RE. revert RE. fold nw'. generalize (before_fuses nw + k)%nat (elements nw) (elements nw').
    induction n as [|n IH]; intros l l' RE; [reflexivity|]. inversion RE; subst; [reflexivity|]. cbn [firstn map]. match goal with Q : reswitched _ _ |- _ => rewrite (re_unknowns _ _ Q) end. f_equal. now apply IH. }
  rewrite Ep. fold (base_of nw (before_fuses nw + k)).
  destruct (end_fuse k _ TP H1) as [Hd G]. pose proof (ST TP _ (nth_error_In _ _ Hd)) as NA. unfold fuse_of in NA.
  destruct (sensor_at old nw k f t m O TP H1) as [S1 S2]. fold a in S1, S2. cbv zeta in NA. rewrite S1, S2 in NA. cbn [must_act f_status f_limit f_Ir f_Ii] in NA.
  exists (v (base_of nw (before_fuses nw + k)), v (S (base_of nw (before_fuses nw + k)))). split.
  - cbn [draws In]. right; right; left. f_equal. unfold pair_of. rewrite Nat.add_0_r, Nat.add_1_r. reflexivity.
  - unfold Cabs. cbn [fst snd]. apply Rnot_lt_le. intros L. apply NA. auto.
Qed.
End Network.
