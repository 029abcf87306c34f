(** The generator table, and the whole parser. *)
From Coq Require Import Reals ZArith List Bool Lra Lia.
From Verif Require Import Components RawTransformers RawParser SpecRaw RawBaseProofs RawTableProofs.
Import ListNotations.
Local Open Scope R_scope.

(** order of first appearance *)
Lemma firsts_in : forall l seen n, In n (firsts seen l) <-> In n l /\ ~ In n seen.
Proof.
  induction l as [|m l IH]; simpl; intros seen n; [tauto|].
  destruct (in_dec Z.eq_dec m seen) as [I|I].
  - rewrite IH. split; [tauto|]. intros ([<-|H] & N); [contradiction|auto].
  - simpl. rewrite IH. simpl. split.
    + intros [<-|(H & N)]; [auto|]. split; [auto|tauto].
    + intros ([<-|H] & N); [auto|]. destruct (Z.eq_dec m n); [auto|]. right. split; [auto|]. intros [?|?]; auto.
Qed.
Lemma firsts_nodup : forall l seen, NoDup (firsts seen l).
Proof.
  induction l as [|m l IH]; simpl; intros seen; [constructor|].
  destruct (in_dec Z.eq_dec m seen); [auto|]. constructor; [|auto]. rewrite firsts_in. simpl. tauto.
Qed.
Lemma firsts_snoc_old : forall l seen n, In n seen \/ In n l -> firsts seen (l ++ [n]) = firsts seen l.
Proof.
  induction l as [|m l IH]; simpl; intros seen n H.
  - destruct H as [H|[]]. destruct (in_dec Z.eq_dec n seen); [auto|contradiction].
  - destruct (in_dec Z.eq_dec m seen) as [I|I].
    + apply IH. destruct H as [H|[<-|H]]; auto.
    + f_equal. apply IH. simpl. tauto.
Qed.
Lemma firsts_snoc_new : forall l seen n, ~ In n seen -> ~ In n l -> firsts seen (l ++ [n]) = firsts seen l ++ [n].
Proof.
  induction l as [|m l IH]; simpl; intros seen n H H'.
  - destruct (in_dec Z.eq_dec n seen); [contradiction|auto].
  - destruct (in_dec Z.eq_dec m seen) as [I|I]; [apply IH; auto|].
    simpl. f_equal. apply IH; simpl; tauto.
Qed.

(** the dictionary from slack buses to positions *)
Lemma zlookup_seq : forall names a n, NoDup names ->
  match zlookup n (combine names (seq a (length names))) with
  | None => ~ In n names
  | Some k => (a <= k)%nat /\ nth_error names (k - a) = Some n
  end.
Proof.
  unfold zlookup. induction names as [|m names IH]; simpl; intros a n ND; [auto|]. inversion ND; subst.
  destruct (Z.eqb_spec m n) as [->|E]; simpl.
  - rewrite Nat.sub_diag. auto.
  - specialize (IH (S a) n H2). destruct (find _ _) as [[m' k]|]; simpl in *.
    + destruct IH as (L & IH). split; [lia|]. replace (k - a)%nat with (S (k - S a)) by lia. auto.
    + intros [?|?]; auto.
Qed.
Lemma combine_seq_snoc : forall (names : list Z) a n, combine (names ++ [n]) (seq a (length (names ++ [n]))) = combine names (seq a (length names)) ++ [(n, (a + length names)%nat)].
Proof.
  induction names as [|m names IH]; simpl; intros a n.
  - rewrite Nat.add_0_r. auto.
  - rewrite IH. simpl. repeat f_equal. lia.
Qed.
Lemma update_nth_forall : forall (P : oslack -> Prop) f n S k, NoDup (map sl_bus S) -> nth_error (map sl_bus S) k = Some n ->
  (forall s, In s S -> sl_bus s <> n -> P s) -> (forall s, In s S -> sl_bus s = n -> P (f s)) -> Forall P (update_nth k f S).
Proof.
  intros P f n. induction S as [|s S IH]; simpl; intros k ND E H1 H2; [destruct k; constructor|]. inversion ND; subst.
  destruct k as [|k]; simpl in *.
  - injection E as E. constructor; [apply H2; auto|]. apply Forall_forall. intros x Hx. apply H1; [auto|].
    intros E'. match goal with N : ~ In _ _ |- _ => apply N end. rewrite E, <- E'. apply in_map. auto.
  - constructor; [|apply IH; auto]. apply H1; [auto|]. intros E'. match goal with N : ~ In _ _ |- _ => apply N end. rewrite E'. eapply nth_error_In; eauto.
Qed.
Lemma update_nth_bus : forall f S k, (forall s, sl_bus (f s) = sl_bus s) -> map sl_bus (update_nth k f S) = map sl_bus S.
Proof. intros f. induction S as [|s S IH]; intros [|k] H; simpl; auto; f_equal; auto. Qed.
Lemma update_nth_len : forall A f (S : list A) k, length (update_nth k f S) = length S.
Proof. intros A f. induction S as [|s S IH]; intros [|k]; simpl; auto. Qed.

Lemma sum_pg_snoc : forall n l g, sum_pg n (l ++ [g]) = sum_pg n l + (if Z.eq_dec (g_bus g) n then g_pg g else 0).
Proof. induction l as [|h l IH]; simpl; intros g; [ring|]. rewrite IH. ring. Qed.

Lemma collects_map : forall A B (P : A -> Prop) (R R' : A -> B -> Prop) h l out,
  (forall a b, In a l -> P a -> R a b -> R' a (h b)) -> collects P R l out -> collects P R' l (map h out).
Proof.
  intros A B P R R' h l out H C. induction C; simpl; [constructor| |].
  - apply col_take; [auto|apply H; simpl; auto|apply IHC; intros; apply H; simpl; auto].
  - apply col_skip; [auto|apply IHC; intros; apply H; simpl; auto].
Qed.

Lemma collects_R : forall A B (P : A -> Prop) (R R' : A -> B -> Prop) l out,
  (forall a b, In a l -> P a -> R a b -> R' a b) -> collects P R l out -> collects P R' l out.
Proof. intros A B P R R' l out H. apply collects_impl; [tauto|auto]. Qed.

Notation with_gens := case_with_gens.

Section Case.
Variable c : raw_case.
Notation bs := (rc_buses c).
Hypothesis UNI : NoDup (map b_num bs).

Definition sl_rel (pre : list raw_gen) (st : gen_state) : Prop :=
  exists on, collects (slack_on c) eq pre on /\ map sl_bus (gs_slack st) = firsts [] (map g_bus on) /\
    Forall (slack_el c on) (gs_slack st) /\ gs_sdic st = combine (map sl_bus (gs_slack st)) (seq 0 (length (map sl_bus (gs_slack st)))).
Record ginv (pre : list raw_gen) (st : gen_state) : Prop := {
  gi_gens : collects (regulates c) gen_el pre (gs_gens st);
  gi_ctrl : collects (regulates c) (fun g n => n = g_bus g) pre (gs_ctrl st);
  gi_nodup : NoDup (gs_ctrl st);
  gi_loads : collects (fixed_q c) neg_load_el pre (gs_loads st);
  gi_slack : sl_rel pre st;
  gi_buses : collects (fun b => b_ide b <> 4%Z) (bus_el (with_gens c pre)) bs (gs_buses st) }.

Lemma slack_on_pv : forall g, slack_on c g -> ~ pv_on c g.
Proof. intros g (H & _) (N & _). contradiction. Qed.
Lemma on_in : forall pre on g, collects (slack_on c) eq pre on -> In g on <-> In g pre /\ slack_on c g.
Proof.
  intros pre on g C. split.
  - intros H. destruct (collects_in _ _ _ _ _ C H) as (a & Ha & Hs & ->). auto.
  - intros (H & Hs). destruct (collects_all _ _ _ _ _ C H Hs) as (b & Hb & ->). auto.
Qed.

Lemma bus_el_same : forall pre g b o, ~ slack_on c g -> bus_el (with_gens c pre) b o -> bus_el (with_gens c (pre ++ [g])) b o.
Proof.
  intros pre g b o N (H1 & H2 & H3 & H4 & H5). split; [auto|split; [auto|split; [auto|]]].
  assert (X : (exists h, In h (rc_gens (with_gens c (pre ++ [g]))) /\ slack_on (with_gens c (pre ++ [g])) h /\ g_bus h = b_num b) <->
              (exists h, In h (rc_gens (with_gens c pre)) /\ slack_on (with_gens c pre) h /\ g_bus h = b_num b)).
  { split; intros (h & Hh & Hs & E); exists h; (split; [|auto]).
    - apply in_app_or in Hh as [Hh|[<-|[]]]; [auto|]. exfalso. apply N. exact Hs.
    - apply in_or_app. auto. }
  split; [rewrite X; auto|rewrite X; auto].
Qed.

(** steps that do not concern a slack bus *)
Lemma sl_rel_skip : forall pre st st' g, ~ slack_on c g -> gs_slack st' = gs_slack st -> gs_sdic st' = gs_sdic st ->
  sl_rel pre st -> sl_rel (pre ++ [g]) st'.
Proof.
  intros pre st st' g N E1 E2 (on & C & A). exists on. rewrite E1, E2. split; [apply collects_snoc_skip; auto|auto].
Qed.

Definition slack_fine (pre : list raw_gen) (g : raw_gen) : Prop :=
  slack_on c g -> forall h, In h pre -> slack_on c h -> g_bus h = g_bus g -> rc_sbase c <> 0.

Lemma slack_step_inv : forall pre st g st', ginv pre st -> has_type c (g_bus g) 3 ->
  slack_gen_step bs (rc_sbase c) st g = Ok st' -> ginv (pre ++ [g]) st' /\ slack_fine pre g.
Proof.
  intros pre st g st' [I1 I2 I3 I4 I5 I6] T H. unfold slack_gen_step in H.
  assert (NPV : ~ pv_on c g) by (intros (X & _); contradiction).
  assert (NR : ~ regulates c g) by (intros (X & _); contradiction).
  assert (NF : ~ fixed_q c g) by (intros (X & _); contradiction).
  apply pbind_ok in H as (b & Hb & H). apply (bus_data_ok c UNI) in Hb.
  assert (NI : offline bs (g_bus g) = false).
  { apply (offline_niff c). intros X. pose proof (has_type_unique c UNI _ _ _ T X). discriminate. }
  rewrite NI in H. cbn [negb andb] in H.
  destruct (Z.eqb_spec (g_stat g) 1) as [S1|S1].
  - assert (ON : slack_on c g) by (split; auto). destruct I5 as (on & C & M & F & D).
    assert (ND : NoDup (map sl_bus (gs_slack st))) by (rewrite M; apply firsts_nodup).
    pose proof (zlookup_seq (map sl_bus (gs_slack st)) 0 (g_bus g) ND) as ZL. rewrite <- D in ZL.
    destruct (zlookup (g_bus g) (gs_sdic st)) as [k|].
    + destruct ZL as (_ & ZL). rewrite Nat.sub_0_r in ZL.
      apply pbind_ok in H as (dp & Hd & H). apply pdiv_ok in Hd as (SB & ->). injection H as <-.
      assert (OLD : In (g_bus g) (map g_bus on)).
      { apply nth_error_In in ZL. rewrite M in ZL. apply firsts_in in ZL. tauto. }
      split; [|intros _ h _ _ _; auto]. constructor; cbn [gs_gens gs_ctrl gs_loads gs_buses].
      * apply collects_snoc_skip; auto.
      * apply collects_snoc_skip; auto.
      * auto.
      * apply collects_snoc_skip; auto.
      * exists (on ++ [g]). cbn [gs_slack gs_sdic].
        assert (UB : map sl_bus (update_nth k (add_pinit (g_pg g / rc_sbase c)) (gs_slack st)) = map sl_bus (gs_slack st)).
        { apply update_nth_bus. intros []. auto. }
        split; [apply collects_snoc; auto|]. split; [|split].
        -- rewrite UB, M, map_app. simpl. symmetry. apply firsts_snoc_old. auto.
        -- apply (update_nth_forall _ _ (g_bus g)); auto.
           ++ intros s Hs Ne. rewrite Forall_forall in F. destruct (F s Hs) as (l1 & g0 & l2 & b0 & -> & E0 & E1 & E2 & E3 & E4 & E5 & E6).
              exists l1, g0, (l2 ++ [g]), b0. rewrite <- app_assoc. repeat (split; [auto|]). rewrite sum_pg_snoc.
              destruct (Z.eq_dec (g_bus g) (sl_bus s)); [congruence|]. rewrite Rplus_0_r. auto.
           ++ intros s Hs Ne. rewrite Forall_forall in F. destruct (F s Hs) as (l1 & g0 & l2 & b0 & -> & E0 & E1 & E2 & E3 & E4 & E5 & E6).
              exists l1, g0, (l2 ++ [g]), b0. cbn [add_pinit sl_bus sl_vset sl_ang sl_qinit sl_pinit]. rewrite <- app_assoc. repeat (split; [auto|]). rewrite sum_pg_snoc.
              destruct (Z.eq_dec (g_bus g) (sl_bus s)); [|congruence]. rewrite E6. unfold Rdiv. ring.
        -- rewrite UB. auto.
      * eapply collects_R; [|exact I6]. intros a o Ha Hp (H1 & H2 & H3 & H4 & H5).
        apply in_map_iff in OLD as (h & Eh & Hh). apply (on_in _ _ _ C) in Hh as (Hh & Hs).
        split; [auto|split; [auto|split; [auto|split]]].
        -- intros (h' & Hh' & Hs' & E'). apply H4. apply in_app_or in Hh' as [X|[<-|[]]]; [exists h'; auto|].
           exists h. rewrite Eh. auto.
        -- intros N. apply H5. intros (h' & Hh' & Hs' & E'). apply N. exists h'. split; [apply in_or_app; auto|auto].
    + apply pbind_ok in H as (n & Hn & H). apply (bus_key_ok c) in Hn as (Hn & ->). injection H as <-.
      assert (NEW : ~ In (g_bus g) (map g_bus on)).
      { intros X. apply ZL. rewrite M. apply firsts_in. auto. }
      split; [|intros _ h Hh Hs E; exfalso; apply NEW; rewrite <- E; apply in_map; apply (on_in _ _ _ C); auto].
      constructor; cbn [gs_gens gs_ctrl gs_loads gs_buses].
      * apply collects_snoc_skip; auto.
      * apply collects_snoc_skip; auto.
      * auto.
      * apply collects_snoc_skip; auto.
      * exists (on ++ [g]). cbn [gs_slack gs_sdic]. split; [apply collects_snoc; auto|]. rewrite !map_app. cbn [map sl_bus]. split; [|split].
        -- rewrite M. symmetry. apply firsts_snoc_new; auto.
        -- apply Forall_app. split.
           ++ rewrite Forall_forall in F |- *. intros s Hs. destruct (F s Hs) as (l1 & g0 & l2 & b0 & -> & E0 & E1 & E2 & E3 & E4 & E5 & E6).
              exists l1, g0, (l2 ++ [g]), b0. rewrite <- app_assoc. repeat (split; [auto|]). rewrite sum_pg_snoc.
              destruct (Z.eq_dec (g_bus g) (sl_bus s)) as [E|_]; [|rewrite Rplus_0_r; auto].
              exfalso. apply ZL. rewrite E. apply in_map. auto.
           ++ constructor; [|constructor]. exists on, g, [], b. cbn [sl_bus sl_vset sl_ang sl_qinit sl_pinit sum_pg].
              split; [auto|split; [auto|split; [|split; [auto|split; [auto|split; [auto|split; [auto|]]]]]]].
              ** intros h Hh E. apply NEW. rewrite <- E. apply in_map. auto.
              ** unfold Rdiv. ring.
        -- rewrite combine_seq_snoc, D, map_length. auto.
      * unfold set_slack_type. eapply collects_map; [|exact I6]. intros a o Ha Hp (H1 & H2 & H3 & H4 & H5).
        destruct (Z.eqb_spec (ob_num o) (g_bus g)) as [E|E]; cbn [ob_num ob_type ob_vm ob_va].
        -- split; [auto|split; [auto|split; [auto|split; [auto|]]]]. intros N. exfalso. apply N. exists g. split; [apply in_or_app; simpl; auto|].
           split; [exact ON|]. rewrite <- E, H1. auto.
        -- split; [auto|split; [auto|split; [auto|split]]].
           ++ intros (h & Hh & Hs & E'). apply H4. apply in_app_or in Hh as [X|[<-|[]]]; [exists h; auto|]. exfalso. apply E. rewrite H1. auto.
           ++ intros N. apply H5. intros (h & Hh & Hs & E'). apply N. exists h. split; [apply in_or_app; auto|auto].
  - assert (OFF : ~ slack_on c g) by (intros (_ & X); contradiction). injection H as <-.
    split; [|intros X; contradiction]. constructor.
    + apply collects_snoc_skip; auto.
    + apply collects_snoc_skip; auto.
    + auto.
    + apply collects_snoc_skip; auto.
    + eapply sl_rel_skip; eauto.
    + eapply collects_R; [|exact I6]. intros. apply bus_el_same; auto.
Qed.

Lemma slack_step_total : forall pre st g, ginv pre st -> has_type c (g_bus g) 3 -> slack_fine pre g ->
  exists st', slack_gen_step bs (rc_sbase c) st g = Ok st'.
Proof.
  intros pre st g [I1 I2 I3 I4 I5 I6] T SF. unfold slack_gen_step.
  destruct T as (b & Hb & Hty). assert (BD : bus_data bs (g_bus g) = Ok b) by (apply (bus_data_ok c UNI); auto).
  rewrite BD. cbn [pbind]. destruct (_ && _)%bool eqn:CO; [|eauto]. apply andb_prop in CO as (CO1 & CO2). apply Z.eqb_eq in CO2.
  assert (T : has_type c (g_bus g) 3) by (exists b; auto). assert (ON : slack_on c g) by (split; auto).
  destruct I5 as (on & C & M & F & D).
  assert (ND : NoDup (map sl_bus (gs_slack st))) by (rewrite M; apply firsts_nodup).
  pose proof (zlookup_seq (map sl_bus (gs_slack st)) 0 (g_bus g) ND) as ZL. rewrite <- D in ZL.
  destruct (zlookup (g_bus g) (gs_sdic st)) as [k|].
  - destruct ZL as (_ & ZL). apply nth_error_In in ZL. rewrite M in ZL. apply firsts_in in ZL as (ZL & _).
    apply in_map_iff in ZL as (h & E & Hh). apply (on_in _ _ _ C) in Hh as (Hh & Hs).
    assert (SB : rc_sbase c <> 0) by (apply (SF ON h); auto).
    assert (PD : pdiv (g_pg g) (rc_sbase c) = Ok (g_pg g / rc_sbase c)) by (apply pdiv_ok; auto). rewrite PD. simpl. eauto.
  - assert (BK : bus_key bs (g_bus g) = Ok (g_bus g)).
    { apply (bus_key_ok c). split; [|auto]. exists b. split; [auto|]. rewrite Hty. discriminate. }
    rewrite BK. simpl. eauto.
Qed.

Lemma conv_step_inv : forall pre st g st', ginv pre st -> ~ has_type c (g_bus g) 3 ->
  conv_gen_step bs st g = Ok st' -> ginv (pre ++ [g]) st' /\ wind_fine g.
Proof.
  intros pre st g st' [I1 I2 I3 I4 I5 I6] T H. unfold conv_gen_step in H.
  assert (NS : ~ slack_on c g) by (intros (X & _); contradiction).
  apply pbind_ok in H as (q & Hq & H). destruct (gen_data_ok g q Hq) as (W & L & O). split; [|auto].
  assert (NB : collects (fun b => b_ide b <> 4%Z) (bus_el (with_gens c (pre ++ [g]))) bs (gs_buses st)).
  { eapply collects_R; [|exact I6]. intros. apply bus_el_same; auto. }
  destruct (_ && _)%bool eqn:PV in H.
  - apply andb_prop in PV as (P1 & P2). apply (pv_bus_iff c) in P1. apply Z.eqb_eq in P2.
    assert (PV : pv_on c g) by (split; [auto|split; auto]).
    assert (BK : bus_key bs (g_bus g) = Ok (g_bus g)).
    { apply (bus_key_ok c). split; [|auto]. eapply has_type_online; eauto. discriminate. }
    rewrite BK in H. cbn [pbind] in H.
    destruct (almost_equal (q_qt q) (q_qb q) && negb (Z.eqb (g_wmod g) 2))%bool eqn:AE.
    + apply andb_prop in AE as (A1 & A2). apply almost_iff in A1. apply negb_true_iff, Z.eqb_neq in A2.
      assert (FQ : fixed_q c g) by (split; [auto|split; [auto|eauto]]).
      assert (NR : ~ regulates c g) by (intros (_ & N & _); contradiction). injection H as <-.
      constructor; cbn [gs_gens gs_ctrl gs_loads gs_buses]; auto.
      * apply collects_snoc_skip; auto.
      * apply collects_snoc_skip; auto.
      * apply collects_snoc; auto. exists (q_qt q), (q_qb q). split; [auto|]. destruct O as (O & _). rewrite (O A1). reflexivity.
      * eapply sl_rel_skip; [exact NS| | |exact I5]; auto.
    + assert (NF : ~ fixed_q c g).
      { intros (_ & W2 & qt & qb & L' & N'). destruct (limits_fun g _ _ _ _ L L') as (<- & <-).
        apply almost_iff in N'. rewrite N' in AE. simpl in AE. apply negb_false_iff, Z.eqb_eq in AE. contradiction. }
      destruct (reqb (g_pg g) 0 && reqb (q_qt q) 0 && reqb (q_qb q) 0)%bool eqn:ZE.
      * apply andb_prop in ZE as (ZE & Z3). apply andb_prop in ZE as (Z1 & Z2). apply reqb_iff in Z1, Z2, Z3.
        assert (NR : ~ regulates c g) by (intros (_ & _ & N); apply N; eauto 6). injection H as <-.
        constructor; auto.
        -- apply collects_snoc_skip; auto.
        -- apply collects_snoc_skip; auto.
        -- apply collects_snoc_skip; auto.
        -- eapply sl_rel_skip; [exact NS| | |exact I5]; auto.
      * assert (RG : regulates c g).
        { split; [auto|split; [auto|]]. intros (E0 & qt & qb & L' & E1 & E2). destruct (limits_fun g _ _ _ _ L L') as (<- & <-).
          rewrite (proj2 (reqb_iff _ _) E0), (proj2 (reqb_iff _ _) E1), (proj2 (reqb_iff _ _) E2) in ZE. discriminate. }
        destruct (memz (g_bus g) (gs_ctrl st)) eqn:MC; [discriminate|]. apply memz_niff in MC. injection H as <-.
        constructor; cbn [gs_gens gs_ctrl gs_loads gs_buses]; auto.
        -- apply collects_snoc; auto. exists (q_qt q), (q_qb q), (q_qg q). auto.
        -- apply collects_snoc; auto.
        -- apply NoDup_app_snoc_aux; auto.
        -- apply collects_snoc_skip; auto.
        -- eapply sl_rel_skip; [exact NS| | |exact I5]; auto.
  - assert (NPV : ~ pv_on c g).
    { intros (_ & P1 & P2). apply (pv_bus_iff c) in P1. rewrite P1, P2 in PV. discriminate. }
    injection H as <-. constructor; auto.
    + apply collects_snoc_skip; auto. intros (X & _); contradiction.
    + apply collects_snoc_skip; auto. intros (X & _); contradiction.
    + apply collects_snoc_skip; auto. intros (X & _); contradiction.
    + eapply sl_rel_skip; [exact NS| | |exact I5]; auto.
Qed.
Lemma conv_step_total : forall st g, wind_fine g -> (regulates c g -> ~ In (g_bus g) (gs_ctrl st)) -> ~ has_type c (g_bus g) 3 ->
  exists st', conv_gen_step bs st g = Ok st'.
Proof.
  intros st g W R T. unfold conv_gen_step. destruct (gen_data_total g W) as (q & Hq). rewrite Hq. cbn [pbind].
  destruct (gen_data_ok g q Hq) as (_ & L & O).
  destruct (_ && _)%bool eqn:PV; [|eauto].
  apply andb_prop in PV as (P1 & P2). apply (pv_bus_iff c) in P1. apply Z.eqb_eq in P2.
  assert (PV : pv_on c g) by (split; [auto|split; auto]).
  assert (BK : bus_key bs (g_bus g) = Ok (g_bus g)).
  { apply (bus_key_ok c). split; [|auto]. eapply has_type_online; eauto. discriminate. }
  rewrite BK. cbn [pbind].
  destruct (almost_equal (q_qt q) (q_qb q) && negb (Z.eqb (g_wmod g) 2))%bool eqn:AE; [eauto|].
  destruct (reqb (g_pg g) 0 && reqb (q_qt q) 0 && reqb (q_qb q) 0)%bool eqn:ZE; [eauto|].
  assert (RG : regulates c g).
  { split; [auto|split].
    - intros (_ & W2 & qt & qb & L' & N'). destruct (limits_fun g _ _ _ _ L L') as (<- & <-).
      apply almost_iff in N'. rewrite N' in AE. simpl in AE. apply negb_false_iff, Z.eqb_eq in AE. contradiction.
    - intros (E0 & qt & qb & L' & E1 & E2). destruct (limits_fun g _ _ _ _ L L') as (<- & <-).
      rewrite (proj2 (reqb_iff _ _) E0), (proj2 (reqb_iff _ _) E1), (proj2 (reqb_iff _ _) E2) in ZE. discriminate. }
  rewrite (proj2 (memz_niff _ _) (R RG)). eauto.
Qed.

Lemma wind_ok_iff : forall g, ~ has_type c (g_bus g) 3 -> (wind_ok c g <-> wind_fine g).
Proof. intros g N. unfold wind_ok, wind_fine. tauto. Qed.

Lemma gen_step_inv : forall pre st g st', ginv pre st -> gen_step bs (rc_sbase c) st g = Ok st' ->
  ginv (pre ++ [g]) st' /\ wind_ok c g /\ slack_fine pre g.
Proof.
  intros pre st g st' I H. unfold gen_step in H. destruct (slack_bus bs (g_bus g)) eqn:S.
  - apply (slack_bus_iff c) in S. destruct (slack_step_inv _ _ _ _ I S H). split; [auto|split; [|auto]]. intros N. contradiction.
  - assert (N : ~ has_type c (g_bus g) 3) by (intros X; apply (slack_bus_iff c) in X; congruence).
    destruct (conv_step_inv _ _ _ _ I N H). split; [auto|split; [apply wind_ok_iff; auto|]]. intros (X & _). contradiction.
Qed.

Lemma gen_loop_inv : forall l pre st st', ginv pre st -> mfold (gen_step bs (rc_sbase c)) l st = Ok st' ->
  ginv (pre ++ l) st' /\ Forall (wind_ok c) l /\ (forall l1 g l2, l = l1 ++ g :: l2 -> slack_fine (pre ++ l1) g).
Proof.
  induction l as [|g l IH]; simpl; intros pre st st' I H.
  - injection H as <-. rewrite app_nil_r. split; [auto|split; [constructor|]]. intros [|? ?] ? ? E; discriminate.
  - apply pbind_ok in H as (s1 & H & H'). destruct (gen_step_inv _ _ _ _ I H) as (I1 & W & SF).
    destruct (IH _ _ _ I1 H') as (I2 & F & SF2). rewrite <- app_assoc in I2. split; [auto|split; [constructor; auto|]].
    intros [|x l1] h l2 E; simpl in E; injection E as <- E.
    + rewrite app_nil_r. auto.
    + specialize (SF2 _ _ _ E). rewrite <- app_assoc in SF2. auto.
Qed.
Lemma gen_loop_total : forall l pre st N, ginv pre st -> Forall (wind_ok c) l ->
  (forall l1 g l2, l = l1 ++ g :: l2 -> slack_fine (pre ++ l1) g) ->
  collects (regulates c) (fun g n => n = g_bus g) l N -> NoDup (gs_ctrl st ++ N) ->
  exists st', mfold (gen_step bs (rc_sbase c)) l st = Ok st'.
Proof.
  induction l as [|g l IH]; simpl; intros pre st N I W SF C ND; [eauto|]. inversion W; subst.
  assert (E : exists st', gen_step bs (rc_sbase c) st g = Ok st').
  { unfold gen_step. destruct (slack_bus bs (g_bus g)) eqn:S.
    - apply (slack_bus_iff c) in S. eapply slack_step_total; eauto. specialize (SF [] g l eq_refl). rewrite app_nil_r in SF. auto.
    - assert (X : ~ has_type c (g_bus g) 3) by (intros X; apply (slack_bus_iff c) in X; congruence).
      apply conv_step_total; auto; [apply wind_ok_iff; auto|]. intros RG.
      inversion C as [|? b ? out' HP HR HC|? ? ? HP HC]; subst; [|contradiction].
      intros Y. apply NoDup_remove_2 in ND. apply ND, in_or_app. auto. }
  destruct E as (s1 & E). rewrite E. cbn [pbind]. destruct (gen_step_inv _ _ _ _ I E) as (I1 & _ & _).
  assert (SF' : forall l1 h l2, l = l1 ++ h :: l2 -> slack_fine ((pre ++ [g]) ++ l1) h).
  { intros l1 h l2 ->. rewrite <- app_assoc. apply (SF (g :: l1) h l2). auto. }
  inversion C as [|? b ? out' HP HR HC|? ? ? HP HC]; subst.
  - eapply IH; eauto. pose proof (gi_ctrl _ _ I1) as C1.
    pose proof (collects_fun _ _ (fun a x y _ Hx Hy => eq_trans Hx (eq_sym Hy)) _ _ C1 _ (collects_snoc _ _ _ _ _ _ (gi_ctrl _ _ I) HP eq_refl)) as E1.
    rewrite E1, <- app_assoc. exact ND.
  - eapply IH; eauto. pose proof (gi_ctrl _ _ I1) as C1.
    pose proof (collects_fun _ _ (fun a x y _ Hx Hy => eq_trans Hx (eq_sym Hy)) _ _ C1 _ (collects_snoc_skip _ _ _ _ _ (gi_ctrl _ _ I) HP)) as E1.
    rewrite E1. exact ND.
Qed.
End Case.
