(** The tables without interaction: fixed shunts, loads, lines, transformers, switched shunts. *)
From Coq Require Import Reals ZArith List Bool Lra Lia.
From Verif Require Import Components RawTransformers RawParser SpecRaw RawBaseProofs.
Import ListNotations.
Local Open Scope R_scope.

Lemma NoDup_app_snoc_aux : forall (l : list Z) x, NoDup l -> ~ In x l -> NoDup (l ++ [x]).
Proof.
  induction l as [|y l IH]; simpl; intros x ND N; [constructor; auto|]. inversion ND; subst.
  constructor; [|apply IH; auto]. intros H. apply in_app_or in H as [H|[<-|[]]]; auto.
Qed.

Section Case.
Variable c : raw_case.
Notation bs := (rc_buses c).

Lemma not_iso_andb : forall n b, (negb (offline bs n) && b)%bool = true <-> ~ isolated c n /\ b = true.
Proof.
  intros. rewrite andb_true_iff, negb_true_iff. rewrite (offline_niff c). tauto.
Qed.

Lemma fs_step_ok : forall acc f r, fs_step bs acc f = Ok r <->
  (fs_on c f -> exists_online c (fs_bus f)) /\ ((fs_on c f /\ exists b, fs_el f b /\ r = acc ++ [b]) \/ (~ fs_on c f /\ r = acc)).
Proof.
  intros. unfold fs_step.
  set (cond := (negb (offline bs (fs_bus f)) && Z.eqb (fs_status f) 1 && (negb (reqb (fs_gl f) 0) || negb (reqb (fs_bl f) 0)))%bool).
  assert (C : cond = true <-> fs_on c f).
  { unfold cond, fs_on. rewrite <- andb_assoc, not_iso_andb, andb_true_iff, Z.eqb_eq, orb_true_iff, !negb_true_iff, !reqb_niff. tauto. }
  destruct cond.
  - assert (ON : fs_on c f) by (apply C; auto). rewrite pbind_ok. split.
    + intros (n & H & E). apply (bus_key_ok c) in H as (H & ->). injection E as <-. split; [auto|]. left. split; [auto|].
      eexists. split; [|reflexivity]. reflexivity.
    + intros (H & [(_ & b & E & ->)|(N & _)]); [|contradiction]. exists (fs_bus f).
      split; [apply (bus_key_ok c); auto|]. unfold fs_el in E. subst b. reflexivity.
  - assert (ON : ~ fs_on c f) by (intros X; apply C in X; discriminate). split.
    + intros H. injection H as <-. split; [intros; contradiction|auto].
    + intros (_ & [(X & _)|(_ & ->)]); [contradiction|auto].
Qed.
Lemma load_step_ok : forall acc f r, load_step bs acc f = Ok r <->
  (load_on c f -> exists_online c (rl_bus f)) /\ ((load_on c f /\ exists b, load_el f b /\ r = acc ++ [b]) \/ (~ load_on c f /\ r = acc)).
Proof.
  intros. unfold load_step.
  set (cond := (negb (offline bs (rl_bus f)) && Z.eqb (rl_status f) 1)%bool).
  assert (C : cond = true <-> load_on c f).
  { unfold cond, load_on. rewrite not_iso_andb, Z.eqb_eq. tauto. }
  destruct cond.
  - assert (ON : load_on c f) by (apply C; auto). rewrite pbind_ok. split.
    + intros (n & H & E). apply (bus_key_ok c) in H as (H & ->). injection E as <-. split; [auto|]. left. split; [auto|].
      eexists. split; [|reflexivity]. reflexivity.
    + intros (H & [(_ & b & E & ->)|(N & _)]); [|contradiction]. exists (rl_bus f).
      split; [apply (bus_key_ok c); auto|]. unfold load_el in E. subst b. reflexivity.
  - assert (ON : ~ load_on c f) by (intros X; apply C in X; discriminate). split.
    + intros H. injection H as <-. split; [intros; contradiction|auto].
    + intros (_ & [(X & _)|(_ & ->)]); [contradiction|auto].
Qed.
Lemma is0_iff : forall x, is0 x = true <-> x = 0.
Proof. intros. unfold is0. destruct (Req_EM_T x 0); split; intros; auto; discriminate || contradiction. Qed.
Lemma both0_f : forall x y, both0 x y = false <-> x <> 0 \/ y <> 0.
Proof.
  intros. unfold both0. pose proof (is0_iff x) as X. pose proof (is0_iff y) as Y.
  destruct (is0 x), (is0 y); simpl; split; intros H; auto; try discriminate.
  - exfalso. destruct H as [H|H]; apply H; [apply X|apply Y]; auto.
  - right. intros E. apply Y in E. discriminate.
  - left. intros E. apply X in E. discriminate.
  - left. intros E. apply X in E. discriminate.
Qed.
Lemma branch_step_ok : forall acc f r, branch_step bs acc f = Ok r <->
  (branch_on c f -> branch_fine c f) /\ ((branch_on c f /\ exists b, branch_el f b /\ r = acc ++ [b]) \/ (~ branch_on c f /\ r = acc)).
Proof.
  intros. unfold branch_step.
  set (cond := (negb (offline bs (br_i f)) && negb (offline bs (br_j f)) && Z.eqb (br_st f) 1)%bool).
  assert (C : cond = true <-> branch_on c f).
  { unfold cond, branch_on. rewrite <- andb_assoc, !not_iso_andb, Z.eqb_eq. tauto. }
  destruct cond.
  - assert (ON : branch_on c f) by (apply C; auto). rewrite pbind_ok. unfold new_line.
    assert (LS : line_shunt f = false <-> br_gi f = 0 /\ br_bi f = 0 /\ br_gj f = 0 /\ br_bj f = 0).
    { unfold line_shunt. rewrite !orb_false_iff, !negb_false_iff, !reqb_iff. tauto. }
    split.
    + intros (n & H & E). apply (bus_key_ok c) in H as (H & ->). apply pbind_ok in E as (m & H' & E).
      apply (bus_key_ok c) in H' as (H' & ->).
      destruct (both0 (br_r f) (br_x f)) eqn:B0; [discriminate|]. apply both0_f in B0.
      destruct (line_shunt f) eqn:L; [discriminate|]. injection E as <-. apply proj1 in LS. specialize (LS eq_refl).
      split; [intros _; unfold branch_fine; tauto|]. left. split; [auto|]. eexists. split; [|reflexivity]. reflexivity.
    + intros (H & [(_ & b & E & ->)|(N & _)]); [|contradiction]. destruct (H ON) as (H1 & H2 & H3 & H4).
      exists (br_i f). split; [apply (bus_key_ok c); auto|]. rewrite pbind_ok. exists (br_j f).
      split; [apply (bus_key_ok c); auto|]. rewrite (proj2 (both0_f _ _) H3). rewrite (proj2 LS H4).
      unfold branch_el in E. subst b. reflexivity.
  - assert (ON : ~ branch_on c f) by (intros X; apply C in X; discriminate). split.
    + intros H. injection H as <-. split; [intros; contradiction|auto].
    + intros (_ & [(X & _)|(_ & ->)]); [contradiction|auto].
Qed.

Lemma two_winding_none : forall bs sb t o, two_winding bs sb t = Ok o -> (o = None <-> t_stat t = 0%Z).
Proof.
  intros b sb t o H. unfold two_winding in H. apply pbind_ok in H as (d & _ & H).
  destruct (Z.eqb_spec (t_stat t) 0).
  - injection H as <-. tauto.
  - apply pbind_ok in H as (x & _ & H). injection H as <-. split; [discriminate|contradiction].
Qed.
Lemma x2_step_ok : forall acc f r, x2_step bs (rc_sbase c) acc f = Ok r <->
  (x2_considered c f -> x2_fine c f) /\ ((x2_on c f /\ exists b, x2_el c f b /\ r = acc ++ [b]) \/ (~ x2_on c f /\ r = acc)).
Proof.
  intros. unfold x2_step.
  set (cond := (negb (offline bs (t_i f)) && negb (offline bs (t_j f)))%bool).
  assert (C : cond = true <-> x2_considered c f).
  { unfold cond, x2_considered. rewrite not_iso_andb, negb_true_iff, (offline_niff c). tauto. }
  destruct cond.
  - assert (ON : x2_considered c f) by (apply C; auto). rewrite pbind_ok. unfold x2_fine, x2_el, x2_on. split.
    + intros (o & H & E). injection E as <-. split; [intros _; eauto|]. pose proof (two_winding_none _ _ _ _ H) as T.
      destruct o as [x|].
      * left. split; [split; [auto|intros Z; apply T in Z; discriminate]|]. eauto.
      * right. split; [|auto]. intros (_ & N). apply N, T. auto.
    + intros (H & X). destruct (H ON) as (o & E). pose proof (two_winding_none _ _ _ _ E) as T.
      exists o. split; [auto|]. destruct X as [(_ & b & E' & ->)|(N & ->)].
      * rewrite E in E'. injection E' as ->. auto.
      * destruct o as [x|]; [|auto]. exfalso. apply N. split; [auto|]. intros Z. apply T in Z. discriminate.
  - assert (ON : ~ x2_considered c f) by (intros X; apply C in X; discriminate). unfold x2_on. split.
    + intros H. injection H as <-. split; [intros; contradiction|tauto].
    + intros (_ & [((X & _) & _)|(_ & ->)]); [contradiction|auto].
Qed.

(** switched shunts *)
Lemma bmin_loop_spec : forall l lo hi, bmin_bmax_loop lo hi (map (fun s => IZR (fst s) * snd s) l) =
  (lo + fst (bmin_bmax_loop 0 0 (map (fun s : Z * R => IZR (fst s) * snd s) l)),
   hi + snd (bmin_bmax_loop 0 0 (map (fun s : Z * R => IZR (fst s) * snd s) l))).
Proof.
  induction l as [|[n b] l IH]; intros lo hi; simpl.
  - f_equal; ring.
  - destruct (rltb 0 (IZR n * b)).
    + rewrite (IH lo), (IH 0 (0 + _)). simpl. f_equal; ring.
    + destruct (rltb (IZR n * b) 0).
      * rewrite (IH (lo + _)), (IH (0 + _)). simpl. f_equal; ring.
      * simpl. f_equal; ring.
Qed.
Lemma blocks_compute : forall l, blocks l (fst (compute_bmin_bmax l)) (snd (compute_bmin_bmax l)).
Proof.
  unfold compute_bmin_bmax. induction l as [|[n b] l IH]; simpl; [constructor|].
  destruct (rltb 0 (IZR n * b)) eqn:P.
  - apply rltb_iff in P. rewrite bmin_loop_spec. simpl. rewrite !Rplus_0_l. apply bl_pos; auto.
  - apply rltb_niff in P. destruct (rltb (IZR n * b) 0) eqn:N.
    + apply rltb_iff in N. rewrite bmin_loop_spec. simpl. rewrite !Rplus_0_l. apply bl_neg; auto.
    + apply rltb_niff in N. simpl. apply bl_zero. lra.
Qed.
Lemma blocks_fun : forall l a b, blocks l a b -> forall a' b', blocks l a' b' -> a = a' /\ b = b'.
Proof.
  induction 1; intros a' b' H'; inversion H'; subst; auto; try (exfalso; lra).
  - destruct (IHblocks _ _ H7) as (-> & ->). auto.
  - destruct (IHblocks _ _ H7) as (-> & ->). auto.
Qed.

Definition ss_fine (s : raw_ss) : Prop := ss_on c s -> exists_online c (ss_bus s).
Lemma ss_on_iff : forall s, (negb (offline bs (ss_bus s)) && Z.eqb (ss_stat s) 1)%bool = true <-> ss_on c s.
Proof. intros. unfold ss_on. rewrite not_iso_andb, Z.eqb_eq. tauto. Qed.

Lemma svc_data : forall s q, gen_data 0 (ss_binit s * (ss_vhi s * ss_vhi s)) (snd (compute_bmin_bmax (ss_steps s)) * (ss_vhi s * ss_vhi s))
      (fst (compute_bmin_bmax (ss_steps s)) * (ss_vhi s * ss_vhi s)) 1 0 = Ok q ->
  svc_el s (new_generator (ss_bus s) (0 / 100) ((ss_vhi s + ss_vlo s) / 2) (q_qt q / 100) (q_qb q / 100) (q_qg q / 100)).
Proof.
  intros s q H. unfold gen_data in H. cbn [Z.eqb pbind] in H. injection H as <-.
  unfold svc_el, new_generator. cbn [q_qt q_qb q_qg].
  exists (fst (compute_bmin_bmax (ss_steps s))), (snd (compute_bmin_bmax (ss_steps s))).
  eexists. split; [apply blocks_compute|]. cbv zeta.
  set (hi := snd _ * _). set (lo := fst _ * _). split; [|split].
  3: { f_equal. lra. }
  - intros N. rewrite rltb_t by exact N. auto.
  - intros N. destruct (rltb _ _) eqn:E; [apply rltb_iff in E; contradiction|auto].
Qed.

Lemma ss_loop_ok : forall l st st', mfold (ss_step bs) l st = Ok st' -> NoDup (ws_ctrl st) ->
  Forall ss_fine l /\ exists G N S, ws_gens st' = ws_gens st ++ G /\ ws_ctrl st' = ws_ctrl st ++ N /\ ws_shunts st' = ws_shunts st ++ S /\
    collects (continuous c) svc_el l G /\ collects (continuous c) (fun s n => n = ss_bus s) l N /\ collects (stepped c) stepped_el l S /\
    NoDup (ws_ctrl st').
Proof.
  induction l as [|s l IH]; simpl; intros st st' H ND.
  - injection H as <-. split; [constructor|]. exists [], [], []. rewrite !app_nil_r.
    split; [auto|split; [auto|split; [auto|split; [constructor|split; [constructor|split; [constructor|auto]]]]]].
  - apply pbind_ok in H as (st1 & H & H'). unfold ss_step in H.
    destruct (negb (offline bs (ss_bus s)) && Z.eqb (ss_stat s) 1)%bool eqn:ON.
    + apply ss_on_iff in ON. destruct (Z.eqb_spec (ss_modsw s) 2) as [M|M].
      * destruct (compute_bmin_bmax (ss_steps s)) as [lo hi] eqn:B.
        destruct (memz (ss_bus s) (ws_ctrl st)) eqn:MC; [discriminate|]. apply memz_niff in MC.
        apply pbind_ok in H as (q & Hq & H). apply pbind_ok in H as (n & Hn & H). apply (bus_key_ok c) in Hn as (Hn & ->).
        injection H as <-. cbn [ws_gens ws_ctrl ws_shunts] in *.
        assert (ND1 : NoDup (ws_ctrl st ++ [ss_bus s])).
        { apply NoDup_app_snoc_aux; auto. }
        destruct (IH _ _ H' ND1) as (F & G & N & S & E1 & E2 & E3 & C1 & C2 & C3 & ND2). cbn [ws_gens ws_ctrl ws_shunts] in *.
        split; [constructor; [intros _; auto|auto]|].
        exists (new_generator (ss_bus s) (0 / 100) ((ss_vhi s + ss_vlo s) / 2) (q_qt q / 100) (q_qb q / 100) (q_qg q / 100) :: G), (ss_bus s :: N), S.
        rewrite E1, E2, E3, <- !app_assoc. split; [auto|split; [auto|split; [auto|]]].
        split; [apply col_take; [split; auto| |auto]|split; [apply col_take; [split; auto|auto|auto]|split; [apply col_skip; [intros (_ & X); contradiction|auto]|auto]]].
        -- apply svc_data. rewrite B. exact Hq.
        -- rewrite E2, <- app_assoc in ND2. exact ND2.
      * apply pbind_ok in H as (n & Hn & H). apply (bus_key_ok c) in Hn as (Hn & ->). injection H as <-.
        destruct (IH _ _ H' ND) as (F & G & N & S & E1 & E2 & E3 & C1 & C2 & C3 & ND2). cbn [ws_gens ws_ctrl ws_shunts] in *.
        split; [constructor; [intros _; auto|auto]|].
        exists G, N, (new_shunt (ss_bus s) 0 (ss_binit s) :: S).
        rewrite E1, E2, E3, <- !app_assoc. split; [auto|split; [auto|split; [auto|]]].
        split; [apply col_skip; [intros (_ & X); contradiction|auto]|split; [apply col_skip; [intros (_ & X); contradiction|auto]|split; [apply col_take; [split; auto| |auto]|]]].
        -- unfold stepped_el, new_shunt. f_equal. lra.
        -- rewrite E2 in ND2. exact ND2.
    + assert (OFF : ~ ss_on c s) by (intros X; apply ss_on_iff in X; congruence). injection H as <-.
      destruct (IH _ _ H' ND) as (F & G & N & S & E1 & E2 & E3 & C1 & C2 & C3 & ND2).
      split; [constructor; [intros X; contradiction|auto]|]. exists G, N, S.
      split; [auto|split; [auto|split; [auto|split; [|split; [|split]]]]]; try (apply col_skip; [intros (X & _); contradiction|auto]). auto.
Qed.
Lemma ss_loop_total : forall l st N, Forall ss_fine l -> collects (continuous c) (fun s n => n = ss_bus s) l N -> NoDup (ws_ctrl st ++ N) ->
  exists st', mfold (ss_step bs) l st = Ok st'.
Proof.
  induction l as [|s l IH]; simpl; intros st N F C ND; [eauto|]. inversion F as [|? ? Hs F']; subst.
  unfold ss_step at 1. destruct (negb (offline bs (ss_bus s)) && Z.eqb (ss_stat s) 1)%bool eqn:ON.
  - apply ss_on_iff in ON. pose proof (Hs ON) as OL. assert (BK : bus_key bs (ss_bus s) = Ok (ss_bus s)) by (apply (bus_key_ok c); auto).
    destruct (Z.eqb_spec (ss_modsw s) 2) as [M|M].
    + inversion C as [|? b ? out' HP HR HC|? ? ? HP HC]; subst; [|exfalso; apply HP; split; auto].
      destruct (compute_bmin_bmax (ss_steps s)) as [lo hi] eqn:B.
      assert (MC : memz (ss_bus s) (ws_ctrl st) = false).
      { apply memz_niff. intros X. apply NoDup_remove_2 in ND. apply ND, in_or_app. auto. }
      rewrite MC. cbn [gen_data Z.eqb pbind]. rewrite BK. cbn [pbind]. eapply IH; [auto|eauto|]. cbn [ws_ctrl]. rewrite <- app_assoc. exact ND.
    + inversion C as [|? b ? out' HP HR HC|? ? ? HP HC]; subst; [exfalso; destruct HP; contradiction|].
      rewrite BK. cbn [pbind]. eapply IH; eauto.
  - assert (OFF : ~ ss_on c s) by (intros X; apply ss_on_iff in X; congruence).
    inversion C as [|? b ? out' HP HR HC|? ? ? HP HC]; subst; [exfalso; destruct HP; contradiction|]. cbn [pbind]. eapply IH; eauto.
Qed.
End Case.
