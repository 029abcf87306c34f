(** Proofs about device control (C26-C29). *)
From Coq Require Import List Bool Arith ZArith Reals Lra Lia.
From Verif Require Import Devices SpecDevices.
Import ListNotations.
Local Open Scope R_scope.

Lemma gtb_iff : forall x y, gtb x y = true <-> y < x.
Proof. intros. unfold gtb. destruct (Rlt_dec y x); split; intros; auto; try discriminate; contradiction. Qed.
Lemma ltb_iff : forall x y, ltb x y = true <-> x < y.
Proof. intros. unfold ltb. destruct (Rlt_dec x y); split; intros; auto; try discriminate; contradiction. Qed.

(** *** fuses *)
Lemma fuse_blows_iff : forall v f, f_status f = GOOD ->
  (f_status (fst (fuse_adjust v f)) = BLOWN <-> f_limit f < sqrt (v (f_Ir f) * v (f_Ir f) + v (f_Ii f) * v (f_Ii f))) /\
  (snd (fuse_adjust v f) = true <-> f_status (fst (fuse_adjust v f)) = BLOWN).
Proof.
  intros v f H. unfold fuse_adjust. rewrite H. change (sqrt _) with (cabs (v (f_Ir f)) (v (f_Ii f))).
  rewrite <- gtb_iff. destruct (gtb _ _); simpl; [tauto|]. rewrite H. split; split; intros; discriminate.
Qed.
Lemma fuse_stays_blown : forall vs f, f_status f = BLOWN -> fuse_history vs f = f.
Proof.
  induction vs as [|v vs IH]; intros f H; simpl; auto. unfold fuse_adjust. rewrite H. simpl. auto.
Qed.
Lemma fuse_history_blown : forall vs f, f_status f = GOOD ->
  (f_status (fuse_history vs f) = BLOWN <-> exists v, In v vs /\ f_limit f < cabs (v (f_Ir f)) (v (f_Ii f))).
Proof.
  induction vs as [|v vs IH]; intros f H; simpl.
  - rewrite H. split; [discriminate|]. intros [v [[] _]].
  - unfold fuse_adjust at 1. rewrite H. destruct (gtb (cabs (v (f_Ir f)) (v (f_Ii f))) (f_limit f)) eqn:E; simpl.
    + rewrite fuse_stays_blown by reflexivity. simpl. apply gtb_iff in E. split; [|auto]. intros _. exists v. auto.
    + rewrite (IH f H). split.
      * intros [w [Hw L]]. exists w. auto.
      * intros [w [[<-|Hw] L]]; [|exists w; auto]. apply gtb_iff in L. congruence.
Qed.

(** *** adjusting never changes anything without reporting it *)
Lemma adjust_device_false : forall v d d', adjust_device v d = Some (d', false) -> d' = d.
Proof.
  intros v d d' H. destruct d as [f|c|r|]; simpl in H.
  - unfold fuse_adjust in H. destruct f as [lim st ir ii]; simpl in H. destruct st; [destruct (gtb _ _)|];
      injection H; intros; subst; auto; discriminate.
  - unfold cap_adjust in H. destruct c as [mode hi lo sw vr vi]; simpl in H. destruct mode; simpl in H; try discriminate.
    + injection H as <-. reflexivity.
    + destruct (gtb _ _), (ltb _ _), sw; simpl in H; injection H; intros; subst; auto; discriminate.
  - injection H as <-. reflexivity.
  - injection H as <-. reflexivity.
Qed.
Lemma adjust_all_false : forall v ds ds', adjust_all v ds = Some (ds', false) -> ds' = ds.
Proof.
  induction ds as [|d ds IH]; intros ds' H; simpl in H; [injection H as <-; auto|].
  destruct (adjust_device v d) as [[d' a]|] eqn:E; [|discriminate].
  destruct (adjust_all v ds) as [[r a']|] eqn:E'; [|discriminate]. injection H as <- H. apply orb_false_iff in H as [-> ->].
  f_equal; [eapply adjust_device_false; eauto|auto].
Qed.
Lemma try_adjust_false : forall tp v ds ds', try_adjust_devices tp v ds = Some (ds', false) -> ds' = ds.
Proof. intros [|] v ds ds' H; simpl in H; [eapply adjust_all_false; eauto|congruence]. Qed.

(** the flag says whether a device had to act *)
Lemma adjust_device_acts : forall v d d', (adjust_device v d = Some (d', false) -> ~ must_act v d).
Proof.
  intros v d d' H M. destruct d as [f|c|r|]; simpl in H, M.
  - destruct M as [G M]. unfold fuse_adjust in H. rewrite G in H.
    destruct (gtb _ _) eqn:E; [discriminate|]. unfold cabs in E.
    assert (X : gtb (sqrt (v (f_Ir f) * v (f_Ir f) + v (f_Ii f) * v (f_Ii f))) (f_limit f) = true) by now apply gtb_iff.
    congruence.
  - unfold cap_adjust in H. destruct (c_mode c); simpl in H; try contradiction; try discriminate.
    fold (cabs (v (c_Vr c)) (v (c_Vi c))) in M. set (m := cabs (v (c_Vr c)) (v (c_Vi c))) in *.
    destruct M as [[M S]|[M S]].
    + apply gtb_iff in M. rewrite M in H. rewrite S in H. simpl in H. destruct (ltb m (c_low c)); discriminate.
    + apply ltb_iff in M. rewrite M in H. rewrite S in H. destruct (gtb m (c_high c)); simpl in H; rewrite ?S in H; discriminate.
  - contradiction.
  - contradiction.
Qed.
Lemma adjust_all_acts : forall v ds ds', adjust_all v ds = Some (ds', false) -> forall d, In d ds -> ~ must_act v d.
Proof.
  induction ds as [|d ds IH]; intros ds' H e Hi; [destruct Hi|]. simpl in H.
  destruct (adjust_device v d) as [[d' a]|] eqn:E; [|discriminate].
  destruct (adjust_all v ds) as [[r a']|] eqn:E'; [|discriminate]. injection H as <- H. apply orb_false_iff in H as [-> ->].
  destruct Hi as [<-|Hi]; [eapply adjust_device_acts; eauto|eauto].
Qed.
Lemma try_adjust_settled : forall tp v ds ds', try_adjust_devices tp v ds = Some (ds', false) -> settled tp v ds.
Proof. intros [|] v ds ds' H; [|intros X; discriminate]. intros _. simpl in H. eapply adjust_all_acts; eauto. Qed.
Lemma adjust_device_rest : forall v d, ~ must_act v d -> adjust_device v d = Some (d, false).
Proof.
  intros v d M. destruct d as [f|c|r|]; simpl in M |- *; auto.
  - unfold fuse_adjust. destruct (f_status f) eqn:G; auto.
    destruct (gtb _ _) eqn:E; auto. apply gtb_iff in E. exfalso. apply M. split; auto.
  - unfold cap_adjust. destruct (c_mode c) eqn:Em; try (exfalso; apply M; exact I); auto.
    fold (cabs (v (c_Vr c)) (v (c_Vi c))) in M. set (m := cabs (v (c_Vr c)) (v (c_Vi c))) in *.
    destruct (gtb m (c_high c)) eqn:E1; [apply gtb_iff in E1|]; (destruct (ltb m (c_low c)) eqn:E2; [apply ltb_iff in E2|]);
      destruct (c_switch c) eqn:Es; rewrite ?Es; simpl; auto; try (exfalso; apply M; auto; fail); rewrite ?Es; auto; exfalso; apply M; auto.
Qed.
Lemma adjust_all_rest : forall v ds, (forall d, In d ds -> ~ must_act v d) -> adjust_all v ds = Some (ds, false).
Proof.
  induction ds as [|d ds IH]; intros H; simpl; auto. rewrite (adjust_device_rest v d) by (apply H; left; auto).
  rewrite IH; auto. intros e He. apply H. now right.
Qed.
Lemma settled_rest : forall tp v ds, settled tp v ds -> try_adjust_devices tp v ds = Some (ds, false).
Proof. intros [|] v ds S; simpl; auto. apply adjust_all_rest. auto. Qed.

Lemma adjust_all_acted : forall v ds ds', adjust_all v ds = Some (ds', true) -> exists d, In d ds /\ must_act v d.
Proof.
  induction ds as [|d ds IH]; intros ds' H; simpl in H; [discriminate|].
  destruct (adjust_device v d) as [[d' a]|] eqn:E; [|discriminate].
  destruct (adjust_all v ds) as [[r a']|] eqn:E'; [|discriminate]. injection H as _ H. apply orb_true_iff in H as [->| ->].
  - exists d. split; [now left|]. destruct d as [f|c|q|]; simpl in E.
    + unfold fuse_adjust in E. destruct (f_status f) eqn:G; [|discriminate]. destruct (gtb _ _) eqn:X; [|discriminate].
      apply gtb_iff in X. split; auto.
    + unfold cap_adjust in E. simpl. destruct (c_mode c); simpl in E; try discriminate.
      fold (cabs (v (c_Vr c)) (v (c_Vi c))). set (m := cabs (v (c_Vr c)) (v (c_Vi c))) in *.
      destruct (gtb m (c_high c)) eqn:E1; [apply gtb_iff in E1|]; (destruct (ltb m (c_low c)) eqn:E2; [apply ltb_iff in E2|]);
        destruct (c_switch c) eqn:Es; simpl in E; rewrite ?Es in E; simpl in E; try discriminate; auto.
    + discriminate.
    + discriminate.
  - destruct (IH _ eq_refl) as [e [A B]]. exists e. split; [now right|auto].
Qed.

Lemma settled_iff : forall tp v ds, settled tp v ds <-> try_adjust_devices tp v ds = Some (ds, false).
Proof. intros tp v ds. split; [apply settled_rest|apply try_adjust_settled]. Qed.

(** fuses only change from good to blown, in place *)
Lemma adjust_device_fuse : forall v d d' a f', adjust_device v d = Some (d', a) -> d' = DFuse f' -> f_status f' = GOOD -> d = DFuse f'.
Proof.
  intros v d d' a f' H -> G. destruct d as [f|c|r|]; simpl in H.
  - unfold fuse_adjust in H. destruct f as [lim st ir ii]; simpl in *. destruct st; [destruct (gtb _ _)|];
      injection H; intros; subst; auto; discriminate.
  - destruct (cap_adjust v c); simpl in H; discriminate.
  - discriminate.
  - discriminate.
Qed.
Lemma adjust_all_fuse : forall v ds ds' a i f', adjust_all v ds = Some (ds', a) -> nth_error ds' i = Some (DFuse f') ->
  f_status f' = GOOD -> nth_error ds i = Some (DFuse f').
Proof.
  induction ds as [|d ds IH]; intros ds' a i f' H Hi G; simpl in H.
  - injection H as <- <-. destruct i; discriminate.
  - destruct (adjust_device v d) as [[d' a1]|] eqn:E; [|discriminate].
    destruct (adjust_all v ds) as [[r a']|] eqn:E'; [|discriminate]. injection H as <- H. destruct i as [|i]; simpl in *.
    + injection Hi as ->. f_equal. eapply adjust_device_fuse; eauto.
    + eapply IH; eauto.
Qed.
Lemma try_adjust_fuse : forall tp v ds ds' a i f', try_adjust_devices tp v ds = Some (ds', a) -> nth_error ds' i = Some (DFuse f') ->
  f_status f' = GOOD -> nth_error ds i = Some (DFuse f').
Proof. intros [|] v ds ds' a i f' H; simpl in H; [eapply adjust_all_fuse; eauto|]. injection H as <- <-. auto. Qed.

Lemma not_blown : forall ds i f, any_blown ds = false -> nth_error ds i = Some (DFuse f) -> f_status f = GOOD.
Proof.
  intros ds i f H Hi. apply nth_error_In in Hi. unfold any_blown in H.
  destruct (f_status f) eqn:E; auto. exfalso.
  assert (X : existsb (fun d => match d with DFuse f => fuse_stamps_raise f | _ => false end) ds = true).
  { apply existsb_exists. exists (DFuse f). split; auto. unfold fuse_stamps_raise. now rewrite E. }
  congruence.
Qed.

Section Controller.
Context {H V E Res : Type}.
Variable homotopy : H -> list device -> V -> H * ((bool * V * Res) + E).
Variable read : V -> nat -> R.
Notation loop := (device_loop homotopy read).
Notation run := (device_run homotopy read).
Notation solve := (solve homotopy).

Lemma solve_ok : forall h ds v h' x, solve h ds v = (h', inl x) -> any_blown ds = false /\ homotopy h ds v = (h', inl x).
Proof.
  intros h ds v h' x Hs. unfold Devices.solve in Hs. destruct (any_blown ds); [discriminate|]. split; auto.
  destruct (homotopy h ds v) as [h1 [y|e]]; congruence.
Qed.

Lemma loop_count : forall (cnt : H -> nat), (forall h ds v, cnt (fst (homotopy h ds v)) = S (cnt h)) ->
  forall n dc tp h ds v, (dcount cnt (loop n dc tp h ds v) <= cnt h + n)%nat.
Proof.
  intros cnt Hc. induction n as [|n IH]; intros dc tp h ds v; cbn [device_loop]; [simpl; lia|].
  unfold Devices.solve. destruct (any_blown ds); [simpl; lia|]. pose proof (Hc h ds v) as C.
  destruct (homotopy h ds v) as [h' [[[ok v'] res]|e]]; simpl in C; [|simpl; lia].
  destruct ok; simpl negb; cbn iota; [|simpl; lia]. destruct dc; simpl negb; cbn iota; [|simpl; lia].
  destruct (try_adjust_devices tp (read v') ds) as [[ds' [|]]|]; [|simpl; lia|simpl; lia].
  specialize (IH true tp h' ds' v). lia.
Qed.

(** what a returned result says *)
Lemma loop_result : forall n dc tp h ds v ok v' res ds' h', loop n dc tp h ds v = DOk ok v' res ds' h' ->
  any_blown ds' = false /\ (exists h0, homotopy h0 ds' v = (h', inl (ok, v', res))) /\
  (ok = true -> dc = true -> settled tp (read v') ds') /\ (dc = false -> ds' = ds) /\
  (forall i f, nth_error ds' i = Some (DFuse f) -> nth_error ds i = Some (DFuse f)).
Proof.
  induction n as [|n IH]; intros dc tp h ds v ok v' res ds' h' Hr; cbn [device_loop] in Hr; [discriminate|].
  destruct (solve h ds v) as [h1 [[[ok1 v1] res1]|e]] eqn:Es; [|discriminate].
  destruct (solve_ok _ _ _ _ _ Es) as [Hb Hh].
  destruct ok1; simpl negb in Hr; cbn iota in Hr.
  - destruct dc; simpl negb in Hr; cbn iota in Hr.
    + destruct (try_adjust_devices tp (read v1) ds) as [[ds1 [|]]|] eqn:Ea; [| |discriminate].
      * destruct (IH _ _ _ _ _ _ _ _ _ _ Hr) as [A [B [C [_ D]]]]. split; [auto|]. split; [auto|]. split; [auto|]. split; [discriminate|].
        intros i f Hi. pose proof (not_blown _ _ _ A Hi). eapply try_adjust_fuse; eauto.
      * pose proof (try_adjust_false _ _ _ _ Ea) as ->. injection Hr as <- <- <- <- <-.
        split; [auto|]. split; [eauto|]. split; [intros _ _; eapply try_adjust_settled; eauto|]. auto.
    + injection Hr as <- <- <- <- <-. split; [auto|]. split; [eauto|]. split; [discriminate|]. auto.
  - injection Hr as <- <- <- <- <-. split; [auto|]. split; [eauto|]. split; [discriminate|]. auto.
Qed.

Lemma run_result : forall dc tp h ds v ok v' res ds' h', run dc tp h ds v = DOk ok v' res ds' h' ->
  (exists h0, homotopy h0 ds' v = (h', inl (ok, v', res))) /\
  (ok = true -> dc = true -> settled tp (read v') ds') /\ (dc = false -> ds' = ds).
Proof.
  intros dc tp h ds v ok v' res ds' h' Hr. unfold device_run in Hr. destruct dc.
  - destruct (try_adjust_devices tp (read v) ds) as [[ds1 a]|]; [|discriminate].
    destruct (loop_result _ _ _ _ _ _ _ _ _ _ _ Hr) as [_ [A [B _]]]. split; [auto|]. split; [auto|discriminate].
  - destruct (loop_result _ _ _ _ _ _ _ _ _ _ _ Hr) as [_ [A [B [C _]]]]. auto.
Qed.

Lemma run_fuses : forall dc tp h ds v ok v' res ds' h', run dc tp h ds v = DOk ok v' res ds' h' ->
  forall i f, nth_error ds' i = Some (DFuse f) -> f_status f = GOOD /\ nth_error ds i = Some (DFuse f).
Proof.
  intros dc tp h ds v ok v' res ds' h' Hr i f Hi. unfold device_run in Hr. destruct dc.
  - destruct (try_adjust_devices tp (read v) ds) as [[ds1 a]|] eqn:Ea; [|discriminate].
    destruct (loop_result _ _ _ _ _ _ _ _ _ _ _ Hr) as [A [_ [_ [_ D]]]]. pose proof (not_blown _ _ _ A Hi). split; auto.
    eapply try_adjust_fuse; eauto.
  - destruct (loop_result _ _ _ _ _ _ _ _ _ _ _ Hr) as [A [_ [_ [_ D]]]]. split; [eapply not_blown; eauto|auto].
Qed.

Lemma run_count : forall (cnt : H -> nat), (forall h ds v, cnt (fst (homotopy h ds v)) = S (cnt h)) ->
  forall dc tp h ds v, (dcount cnt (run dc tp h ds v) <= cnt h + 10)%nat.
Proof.
  intros cnt Hc dc tp h ds v. unfold device_run. destruct dc; [|apply loop_count; auto].
  destruct (try_adjust_devices tp (read v) ds) as [[ds1 a]|]; [apply loop_count; auto|simpl; lia].
Qed.

(** *** giving up *)
Lemma loop_gives_up : forall n tp h ds v ds' h',
  loop n true tp h ds v = DErr DENotSettled ds' h' <->
  exists hh dd vv, hh 0%nat = h /\ dd 0%nat = ds /\ hh n = h' /\ dd n = ds' /\ unsettled_runs homotopy read n tp v hh dd vv.
Proof.
  induction n as [|n IH]; intros tp h ds v ds' h'; cbn [device_loop].
  - split.
    + intros X. injection X as <- <-. exists (fun _ => h), (fun _ => ds), (fun _ => v). repeat split; try lia. 
    + intros [hh [dd [vv [<- [<- [<- [<- _]]]]]]]. reflexivity.
  - split.
    + intros X. destruct (solve h ds v) as [h1 [[[ok1 v1] res1]|e]] eqn:Es.
      2:{ unfold Devices.solve in Es. destruct (any_blown ds).
          - injection Es as <- <-. discriminate.
          - destruct (homotopy h ds v) as [h2 [y|e']]; inversion Es; subst; discriminate. }
      destruct (solve_ok _ _ _ _ _ Es) as [Hb Hh]. destruct ok1; simpl negb in X; cbn iota in X; [|discriminate].
      destruct (try_adjust_devices tp (read v1) ds) as [[ds1 [|]]|] eqn:Ea; [|discriminate|discriminate].
      apply IH in X as [hh [dd [vv [A [B [C [D U]]]]]]].
      exists (fun i => match i with O => h | S j => hh j end), (fun i => match i with O => ds | S j => dd j end),
             (fun i => match i with O => v1 | S j => vv j end).
      do 4 (split; [auto|]). intros [|i] Hi.
      * rewrite A, B. split; [auto|]. split; [eauto|auto].
      * apply U. lia.
    + intros [hh [dd [vv [A [B [C [D U]]]]]]]. destruct (U 0%nat ltac:(lia)) as [U1 [[res U2] U3]]. rewrite A, B in *.
      unfold Devices.solve. rewrite U1, U2. simpl negb. cbn iota. rewrite U3. apply IH.
      exists (fun i => hh (S i)), (fun i => dd (S i)), (fun i => vv (S i)). do 4 (split; [auto|]).
      intros i Hi. apply U. lia.
Qed.
Lemma run_gives_up : forall tp h ds v ds' h',
  run true tp h ds v = DErr DENotSettled ds' h' <->
  exists ds0 a, try_adjust_devices tp (read v) ds = Some (ds0, a) /\
  exists hh dd vv, hh 0%nat = h /\ dd 0%nat = ds0 /\ hh 10%nat = h' /\ dd 10%nat = ds' /\ unsettled_runs homotopy read 10 tp v hh dd vv.
Proof.
  intros tp h ds v ds' h'. unfold device_run. split.
  - intros X. destruct (try_adjust_devices tp (read v) ds) as [[ds1 a]|]; [|discriminate]. exists ds1, a. split; auto.
    now apply loop_gives_up.
  - intros [ds0 [a [-> X]]]. now apply loop_gives_up.
Qed.

Lemma run_uncontrolled : forall dc tp h ds v, (dc && tp = false)%bool -> any_blown ds = false ->
  run dc tp h ds v = match homotopy h ds v with (h', inl (ok, v', res)) => DOk ok v' res ds h' | (h', inr e) => DErr (DEHomotopy e) ds h' end.
Proof.
  intros dc tp h ds v X B. unfold device_run.
  assert (L : loop MAX_DEVICE_ITERATIONS dc tp h ds v = match homotopy h ds v with (h', inl (ok, v', res)) => DOk ok v' res ds h' | (h', inr e) => DErr (DEHomotopy e) ds h' end).
  { unfold MAX_DEVICE_ITERATIONS. cbn [device_loop]. unfold Devices.solve at 1. rewrite B.
    destruct (homotopy h ds v) as [h1 [[[ok v1] res]|e]]; [|reflexivity]. destruct ok; [|reflexivity].
    destruct dc; [|reflexivity]. simpl in X. subst tp. reflexivity. }
  destruct dc; [|exact L]. simpl in X. subst tp. simpl try_adjust_devices. cbn iota. exact L.
Qed.
End Controller.

(** *** regulators *)
Lemma increment_spec : forall r inc r' a, (- r_lower r <= r_raise r)%Z -> increment_tap r inc = Some (r', a) ->
  r_tap r' = clamp (- r_lower r) (r_raise r) (r_tap r + inc) /\ r_ratio r' = ratio_of r' /\
  (a = true <-> r_tap r' <> r_tap r) /\ r_step r' = r_step r /\ r_type r' = r_type r /\ r_raise r' = r_raise r /\ r_lower r' = r_lower r.
Proof.
  intros r inc r' a Hl Hi. unfold increment_tap in Hi.
  set (t' := if (r_raise r <=? r_tap r + inc)%Z then r_raise r else if (r_tap r + inc <=? - r_lower r)%Z then (- r_lower r)%Z else (r_tap r + inc)%Z) in Hi.
  assert (Et : t' = clamp (- r_lower r) (r_raise r) (r_tap r + inc)).
  { unfold t', clamp. destruct (Z.leb_spec (r_raise r) (r_tap r + inc)); [lia|]. destruct (Z.leb_spec (r_tap r + inc) (- r_lower r)); lia. }
  assert (Hf : negb (r_tap r =? t')%Z = true <-> t' <> r_tap r).
  { rewrite negb_true_iff, Z.eqb_neq. split; congruence. }
  destruct (r_type r) eqn:Ty.
  - destruct (Req_EM_T (1 + r_step r * IZR t') 0); [discriminate|]. injection Hi as <- <-. unfold ratio_of. simpl. rewrite ?Ty.
    split; [auto|]. split; [unfold Rdiv; ring|]. split; [exact Hf|auto].
  - injection Hi as <- <-. unfold ratio_of. simpl. rewrite ?Ty. split; [auto|]. split; [auto|]. split; [exact Hf|auto].
Qed.

Definition tap_ok (r : regulator) : Prop := (- r_lower r <= r_tap r <= r_raise r)%Z /\ r_ratio r = ratio_of r.

Lemma tap_history_ok : forall incs r r', (- r_lower r <= r_raise r)%Z -> tap_ok r -> tap_history incs r = Some r' ->
  tap_ok r' /\ r_raise r' = r_raise r /\ r_lower r' = r_lower r /\ r_step r' = r_step r /\ r_type r' = r_type r.
Proof.
  induction incs as [|i incs IH]; intros r r' Hl Hok Hh; simpl in Hh; [injection Hh as <-; auto|].
  destruct (increment_tap r i) as [[r1 a]|] eqn:E; [|discriminate].
  destruct (increment_spec _ _ _ _ Hl E) as [A [B [_ [C1 [C2 [C3 C4]]]]]].
  destruct (IH r1 r') as [X [Y1 [Y2 [Y3 Y4]]]]; auto; [lia| |repeat split; try congruence; apply X].
  split; auto. rewrite A, C3, C4. unfold clamp. lia.
Qed.

Lemma regulator_invariant : forall tap step ty raise lower r0 incs r, (- lower <= raise)%Z ->
  new_regulator tap step ty raise lower = Some r0 -> tap_history incs r0 = Some r ->
  (- lower <= r_tap r <= raise)%Z /\ r_type r = ty /\ r_step r = step /\
  r_ratio r = match ty with REG_A => 1 / (1 + step * IZR (r_tap r)) | REG_B => 1 - step * IZR (r_tap r) end.
Proof.
  intros tap step ty raise lower r0 incs r Hl Hn Hh. unfold new_regulator in Hn.
  set (r00 := {| r_tap := tap; r_step := step; r_type := ty; r_raise := raise; r_lower := lower; r_ratio := 0 |}) in Hn.
  destruct (increment_tap r00 0) as [[r1 a]|] eqn:E; [|discriminate]. simpl in Hn. injection Hn as ->.
  destruct (increment_spec r00 0 r0 a Hl E) as [A [B [_ [C1 [C2 [C3 C4]]]]]]. simpl in *.
  destruct (tap_history_ok incs r0 r) as [[T1 T2] [X1 [X2 [X3 X4]]]]; auto; [lia| |].
  { split; auto. rewrite A, C3, C4. unfold clamp. lia. }
  rewrite X1, X2, C3, C4 in *. split; [exact T1|]. split; [congruence|]. split; [congruence|].
  rewrite T2. unfold ratio_of. rewrite X4, C2, X3, C1. reflexivity.
Qed.

Lemma increment_result : forall r inc r' a, (- r_lower r <= r_raise r)%Z -> increment_tap r inc = Some (r', a) ->
  (a = true <-> r_tap r' <> r_tap r) /\
  ((- r_lower r <= r_tap r + inc <= r_raise r)%Z -> r_tap r' = (r_tap r + inc)%Z) /\
  ((r_raise r < r_tap r + inc)%Z -> r_tap r' = r_raise r) /\
  ((r_tap r + inc < - r_lower r)%Z -> r_tap r' = (- r_lower r)%Z).
Proof.
  intros r inc r' a Hl Hi. destruct (increment_spec _ _ _ _ Hl Hi) as [A [_ [C _]]]. split; [exact C|]. rewrite A. unfold clamp.
  repeat split; lia.
Qed.

Lemma increment_raises : forall r inc, (- r_lower r <= r_raise r)%Z ->
  (increment_tap r inc = None <-> r_type r = REG_A /\ 1 + r_step r * IZR (clamp (- r_lower r) (r_raise r) (r_tap r + inc)) = 0).
Proof.
  intros r inc Hl. unfold increment_tap.
  set (t' := if (r_raise r <=? r_tap r + inc)%Z then r_raise r else if (r_tap r + inc <=? - r_lower r)%Z then (- r_lower r)%Z else (r_tap r + inc)%Z).
  assert (Et : t' = clamp (- r_lower r) (r_raise r) (r_tap r + inc)).
  { unfold t', clamp. destruct (Z.leb_spec (r_raise r) (r_tap r + inc)); [lia|]. destruct (Z.leb_spec (r_tap r + inc) (- r_lower r)); lia. }
  rewrite <- Et. destruct (r_type r); [|split; [discriminate|intros [X _]; discriminate]].
  destruct (Req_EM_T (1 + r_step r * IZR t') 0); split; auto; try discriminate. intros [_ X]. contradiction.
Qed.

(** *** capacitors *)
Lemma cap_volt : forall v c, c_mode c = C_VOLT -> c_low c <= c_high c ->
  let m := cabs (v (c_Vr c)) (v (c_Vi c)) in
  exists c' a, cap_adjust v c = Some (c', a) /\ c' = set_switch c (c_switch c') /\
    (a = true <-> c_switch c' <> c_switch c) /\
    (c_low c <= m <= c_high c -> c_switch c' = c_switch c) /\
    (c_high c < m -> c_switch c' = CLOSED) /\ (m < c_low c -> c_switch c' = OPEN) /\
    ((m < c_low c \/ c_high c < m) -> c_switch c' <> expected_switch m (c_low c) (c_high c) (c_switch c)).
Proof.
  intros v c Hm Hl m. unfold cap_adjust. rewrite Hm. fold m. destruct c as [mode hi lo sw vr vi]. simpl in *. subst mode.
  unfold gtb, ltb, expected_switch.
  destruct (Rlt_dec hi m), (Rlt_dec m lo), sw; try (exfalso; lra); simpl; eexists; eexists; (split; [reflexivity|]); simpl;
    repeat split; intros; try congruence; try lra; try discriminate.
Qed.

(** a capacitor over its lifetime *)
Definition side_step (low high : R) (s : option bool) (m : R) : option bool :=
  if Rlt_dec m low then Some true else if Rlt_dec high m then Some false else s.
Definition switch_of (s : option bool) : cap_switch := match s with Some true => OPEN | _ => CLOSED end.
Lemma cap_step v c s : c_mode c = C_VOLT -> c_switch c = switch_of s ->
  exists a, cap_adjust v c = Some (set_switch c (switch_of (side_step (c_low c) (c_high c) s (cabs (v (c_Vr c)) (v (c_Vi c))))), a).
Proof.
  intros Hm Hs. unfold cap_adjust. rewrite Hm. set (m := cabs _ _). destruct c as [mode hi lo sw vr vi]. cbn [c_mode c_high c_low c_switch c_Vr c_Vi] in *. subst.
  unfold gtb, ltb, side_step. destruct s as [[|]|], (Rlt_dec hi m), (Rlt_dec m lo); cbn; eexists; reflexivity.
Qed.
Lemma cap_steps : forall vs c s, c_mode c = C_VOLT -> c_switch c = switch_of s ->
  cap_history vs c = Some (set_switch c (switch_of (fold_left (side_step (c_low c) (c_high c)) (map (fun v => cabs (v (c_Vr c)) (v (c_Vi c))) vs) s))).
Proof.
  induction vs as [|v vs IH]; intros c s Hm Hs.
  - cbn. f_equal. destruct c; cbn in *; now subst.
  - destruct (cap_step v c s Hm Hs) as [a E]. cbn [cap_history map fold_left]. rewrite E.
    rewrite (IH _ (side_step (c_low c) (c_high c) s (cabs (v (c_Vr c)) (v (c_Vi c))))); [|now destruct c|reflexivity]. now destruct c.
Qed.
Lemma cap_lifetime : forall high low vr vi vs, exists c, cap_history vs (new_capacitor C_VOLT high low vr vi) = Some c /\
  (c_switch c = OPEN <-> last_side low high (map (fun v => sqrt (v vr * v vr + v vi * v vi)) vs) = Some true).
Proof.
  intros. eexists. split; [apply (cap_steps vs _ None); reflexivity|]. cbn [c_switch set_switch c_low c_high c_Vr c_Vi new_capacitor].
  unfold last_side. fold (side_step low high). change (fun v : nat -> R => sqrt (v vr * v vr + v vi * v vi)) with (fun v : nat -> R => cabs (v vr) (v vi)).
  change (fun s m => if Rlt_dec m low then Some true else if Rlt_dec high m then Some false else s) with (side_step low high).
  destruct (fold_left _ _ None) as [[|]|]; cbn; split; intros; congruence.
Qed.
