(** The whole parser: a case is accepted exactly when it is acceptable, and the network is then exactly
    the one described. *)
From Coq Require Import Reals ZArith List Bool Lra Lia.
From Verif Require Import Components RawTransformers RawParser SpecRaw RawBaseProofs RawTableProofs RawGenProofs.
Import ListNotations.
Local Open Scope R_scope.

Lemma known_rev_iff : forall r, known_rev r = true <-> In r [30; 32; 33; 34]%Z.
Proof. intros. apply memz_iff. Qed.

Lemma parse_buses_ok : forall rev l out, parse_buses rev l = Ok out <->
  Forall (fun _ => In rev [30; 32; 33; 34]%Z) l /\ collects (fun b => b_ide b <> 4%Z) (fun b o => o = new_bus b) l out.
Proof.
  intros. unfold parse_buses.
  rewrite (mfold_collect _ _ _ (fun b => b_ide b <> 4%Z) (fun _ => In rev [30; 32; 33; 34]%Z) (fun b o => o = new_bus b)).
  - split.
    + intros (F & o & -> & C). auto.
    + intros (F & C). split; [auto|exists out; auto].
  - intros acc b r. rewrite pbind_ok. split.
    + intros (u & G & E). apply guard_ok, known_rev_iff in G. split; [auto|]. injection E as <-.
      destruct (Z.eqb_spec (b_ide b) 4); [right; tauto|left; split; [auto|eauto]].
    + intros (G & H). exists tt. split; [apply guard_ok, known_rev_iff; auto|]. f_equal.
      destruct H as [(N & o & -> & ->)|(N & ->)].
      * rewrite (proj2 (Z.eqb_neq _ _) N). auto.
      * destruct (Z.eqb_spec (b_ide b) 4); [auto|contradiction].
Qed.

Lemma largest_ok : forall l, (exists m, largest l = Ok m) <-> l <> [].
Proof. intros [|o l]; simpl; split; intros H; try congruence; eauto. destruct H; discriminate. Qed.

Lemma collects_nonempty : forall A B (P : A -> Prop) (R : A -> B -> Prop) l out, collects P R l out -> (out <> [] <-> exists a, In a l /\ P a).
Proof.
  intros A B P R l out C. induction C; simpl.
  - split; [congruence|intros (a & [] & _)].
  - split; [eauto|intros _; discriminate].
  - rewrite IHC. split; intros (x & Hx & Px); eauto. destruct Hx as [<-|Hx]; [contradiction|eauto].
Qed.

Lemma collects_map_inv : forall A B C (P : A -> Prop) (R : A -> B -> Prop) (f : A -> C) (g : B -> C) l out,
  (forall a b, R a b -> g b = f a) -> collects P R l out -> collects P (fun a n => n = f a) l (map g out).
Proof. intros A B C P R f g l out H HC. induction HC; simpl; [constructor|apply col_take; auto|apply col_skip; auto]. Qed.

Section Case.
Variable c : raw_case.
Notation bs := (rc_buses c).
Hypothesis UNI : NoDup (map b_num bs).
Hypothesis NOM : ~ exists_online c (-1).

Lemma winding_on_iff : forall t off own o1 o2 x y z, bus_at c own x -> bus_at c o1 y -> bus_at c o2 z ->
  (winding_on (h_stat t) off (b_ide x) (b_ide y) (b_ide z) = true <-> winding_live c t off own o1 o2).
Proof.
  intros t off own o1 o2 x y z X Y Z.
  assert (I : forall n b, bus_at c n b -> (isolated c n <-> b_ide b = 4%Z)).
  { intros n b Hb. split; [|exists b; auto]. intros (b' & Hb' & <-). rewrite (bus_unique c UNI _ _ _ Hb Hb'). auto. }
  unfold winding_on, winding_live. rewrite (I _ _ X), (I _ _ Y), (I _ _ Z), !andb_true_iff, orb_true_iff, !negb_true_iff, !Z.eqb_neq. tauto.
Qed.
Lemma three_data_buses : forall sb t d, three_winding_data bs sb t = Ok d ->
  exists x y z, bus_at c (h_i t) x /\ bus_at c (h_j t) y /\ bus_at c (h_k t) z /\
    s_on1 d = winding_on (h_stat t) 4 (b_ide x) (b_ide y) (b_ide z) /\
    s_on2 d = winding_on (h_stat t) 2 (b_ide y) (b_ide x) (b_ide z) /\
    s_on3 d = winding_on (h_stat t) 3 (b_ide z) (b_ide x) (b_ide y).
Proof.
  intros sb t d H. unfold three_winding_data in H.
  apply pbind_ok in H as (x & Hx & H). apply pbind_ok in H as (y & Hy & H). apply pbind_ok in H as (z & Hz & H).
  apply (bus_data_ok c UNI) in Hx, Hy, Hz.
  do 10 (apply pbind_ok in H as (? & _ & H)). injection H as <-. exists x, y, z. cbn. auto 8.
Qed.
Lemma live_iff : forall sb t d, three_winding_data bs sb t = Ok d ->
  (s_on1 d = true <-> live1 c t) /\ (s_on2 d = true <-> live2 c t) /\ (s_on3 d = true <-> live3 c t).
Proof.
  intros sb t d H. destruct (three_data_buses _ _ _ H) as (x & y & z & X & Y & Z & -> & -> & ->).
  unfold live1, live2, live3. split; [|split]; apply winding_on_iff; auto.
Qed.
(** a leg towards bus -1 cannot be created *)
Lemma star_leg_no : forall on from z tr ang g b rt l, star_leg bs on from (-1) z tr ang g b rt = Ok l -> on = false /\ l = [].
Proof.
  intros [|] from z tr ang g b rt l H; simpl in H; [|injection H as <-; auto].
  exfalso. unfold make_xfmr in H. apply pbind_ok in H as (x & H & _). apply pbind_ok in H as (f & _ & H).
  apply pbind_ok in H as (m & H & _). apply (bus_key_ok c) in H as (H & _). contradiction.
Qed.
Lemma three_winding_idle : forall t l, three_winding bs (rc_sbase c) (-1) t = Ok l <-> x3_idle c t /\ l = [].
Proof.
  intros t l. unfold three_winding. rewrite pbind_ok. split.
  - intros (d & D & H). destruct (live_iff _ _ _ D) as (L1 & L2 & L3).
    apply pbind_ok in H as (l1 & H1 & H). apply pbind_ok in H as (l2 & H2 & H). apply pbind_ok in H as (l3 & H3 & H). injection H as <-.
    apply star_leg_no in H1 as (E1 & ->). apply star_leg_no in H2 as (E2 & ->). apply star_leg_no in H3 as (E3 & ->).
    split; [|auto]. split; [eauto|]. rewrite <- L1, <- L2, <- L3, E1, E2, E3. repeat split; discriminate.
  - intros (((d & D) & N1 & N2 & N3) & ->). exists d. split; [auto|]. destruct (live_iff _ _ _ D) as (L1 & L2 & L3).
    rewrite <- L1 in N1. rewrite <- L2 in N2. rewrite <- L3 in N3.
    apply not_true_is_false in N1, N2, N3. rewrite N1, N2, N3. reflexivity.
Qed.
Lemma x3_step_ok : forall t acc r, x3_step bs (rc_sbase c) acc t = Ok r <-> (h_stat t <> 0%Z -> x3_idle c t) /\ r = acc.
Proof.
  intros t ((a & b) & d) r. unfold x3_step. destruct (Z.eqb_spec (h_stat t) 0) as [E|E].
  - split; [intros H; injection H as <-; tauto|intros (_ & ->); auto].
  - rewrite pbind_ok. split.
    + intros (l & H & H'). apply three_winding_idle in H as (I & ->). injection H' as <-. auto.
    + intros (I & ->). exists []. split; [apply three_winding_idle; auto|auto].
Qed.
Lemma x3_loop : forall l acc r, mfold (x3_step bs (rc_sbase c)) l acc = Ok r <-> Forall (fun t => h_stat t <> 0%Z -> x3_idle c t) l /\ r = acc.
Proof.
  induction l as [|t l IH]; intros acc r; simpl.
  - split; [intros H; injection H as <-; split; [constructor|auto]|intros (_ & ->); auto].
  - rewrite pbind_ok. split.
    + intros (m & H & H'). apply x3_step_ok in H as (H & ->). apply IH in H' as (F & ->). split; [constructor; auto|auto].
    + intros (F & ->). inversion F; subst. exists acc. split; [apply x3_step_ok; auto|apply IH; auto].
Qed.

Notation st0 b0 := {| gs_buses := b0; gs_slack := []; gs_sdic := []; gs_gens := []; gs_ctrl := []; gs_loads := [] |}.

Lemma ginv0 : forall b0, collects (fun b => b_ide b <> 4%Z) (fun b o => o = new_bus b) bs b0 -> ginv c [] (st0 b0).
Proof.
  intros b0 C. constructor; cbn; try constructor.
  - exists []. cbn. repeat split; auto; constructor.
  - eapply collects_R; [|exact C]. intros a o _ _ ->. unfold bus_el, new_bus. cbn. split; [auto|split; [auto|split; [auto|split; [|auto]]]].
    intros (g & [] & _).
Qed.

Lemma slack_base_iff : (forall l1 g l2, rc_gens c = l1 ++ g :: l2 -> slack_fine c ([] ++ l1) g) <-> slack_base_ok c.
Proof.
  unfold slack_fine, slack_base_ok. split; simpl.
  - intros H l1 g l2 h E Hh Sg Sh Eb. apply in_split in Hh as (m1 & m2 & ->).
    apply (H (l1 ++ g :: m1) h m2) with (h := g); auto.
    + rewrite E, <- app_assoc. auto.
    + apply in_or_app. simpl. auto.
  - intros H l1 g l2 E Sg h Hh Sh Eb. apply in_split in Hh as (m1 & m2 & ->).
    rewrite <- app_assoc in E. simpl in E. apply (H m1 h (m2 ++ g :: l2) g); auto. apply in_or_app. simpl. auto.
Qed.

Lemma raw_forward : forall net, parse_raw c = Ok net -> raw_ok c /\ raw_net c net.
Proof.
  intros net H. unfold parse_raw in H.
  apply pbind_ok in H as (b0 & HB & H). apply parse_buses_ok in HB as (REV & HB).
  apply pbind_ok in H as (gs & HG & H). apply (gen_loop_inv c UNI _ [] _ _ (ginv0 _ HB)) in HG as (GI & WF & SF).
  apply pbind_ok in H as (ws & HS & H).
  destruct (ss_loop_ok c _ _ _ HS) as (SSF & G & N & S & E1 & E2 & E3 & C1 & C2 & C3 & ND).
  { exact (gi_nodup _ _ _ GI). }
  cbn [ws_gens ws_ctrl ws_shunts] in E1, E2, E3. simpl in E3.
  apply pbind_ok in H as (sh & HF & H).
  apply (mfold_collect _ _ _ _ _ _ (fs_step_ok c)) in HF as (FF & fo & -> & CF).
  apply pbind_ok in H as (lo & HL & H).
  apply (mfold_collect _ _ _ _ _ _ (load_step_ok c)) in HL as (LF & lo' & -> & CL).
  apply pbind_ok in H as (li & HL & H).
  apply (mfold_collect _ _ _ _ _ _ (branch_step_ok c)) in HL as (BF & li' & -> & CB).
  apply pbind_ok in H as (x2 & HX & H).
  apply (mfold_collect _ _ _ _ _ _ (x2_step_ok c)) in HX as (XF & x2' & -> & CX).
  apply pbind_ok in H as (top & HT & H).
  apply pbind_ok in H as (x3 & H3 & H). apply x3_loop in H3 as (X3 & ->). injection H as <-. simpl in GI.
  assert (TOP : gs_buses gs <> []) by (apply largest_ok; eauto).
  pose proof (proj1 (collects_nonempty _ _ _ _ _ _ (gi_buses _ _ _ GI)) TOP) as (b & Hb & Ob).
  split.
  - split; [rewrite Forall_forall in REV; exact (REV b Hb)|]. split; [eauto|]. split; [exact WF|].
    split; [apply slack_base_iff; exact SF|]. split; [|auto 8].
    exists (gs_ctrl gs), N. split; [apply (gi_ctrl _ _ _ GI)|split; [auto|]]. rewrite <- E2. auto.
  - constructor; cbn.
    + exact (gi_buses _ _ _ GI).
    + destruct (gi_slack _ _ _ GI) as (on & Q1 & Q2 & Q3 & Q4). exists on. auto.
    + exists (gs_gens gs), G. split; [auto|split; [apply (gi_gens _ _ _ GI)|auto]].
    + exists (gs_loads gs), lo'. split; [auto|split; [apply (gi_loads _ _ _ GI)|auto]].
    + exists S, fo. rewrite E3. auto.
    + auto.
    + auto.
Qed.

Lemma collects_total : forall A B (P : A -> Prop) (R : A -> B -> Prop) l, (forall a, P a \/ ~ P a) -> (forall a, P a -> exists b, R a b) -> exists out, collects P R l out.
Proof.
  intros A B P R l D T. induction l as [|a l (out & IH)]; [exists []; constructor|]. destruct (D a) as [Ha|Ha].
  - destruct (T a Ha) as (b & Hb). exists (b :: out). constructor; auto.
  - exists out. apply col_skip; auto.
Qed.

Lemma andb_dec : forall P Q : Prop, P \/ ~ P -> Q \/ ~ Q -> (P /\ Q) \/ ~ (P /\ Q).
Proof. tauto. Qed.
Lemma Z_dec : forall a b : Z, a = b \/ a <> b.
Proof. intros a b. destruct (Z.eq_dec a b); auto. Qed.
Lemma not_dec : forall P : Prop, P \/ ~ P -> ~ P \/ ~ ~ P.
Proof. tauto. Qed.
Lemma R_dec : forall a b : R, a = b \/ a <> b.
Proof. intros a b. destruct (Req_EM_T a b); auto. Qed.

Lemma raw_total : raw_ok c -> exists net, parse_raw c = Ok net.
Proof.
  intros (REV & (b & Hb & Ob) & WF & SB & (R & S & CR & CS & ND) & SSF & FF & LF & BF & XF & X3).
  unfold parse_raw.
  destruct (collects_total _ _ (fun b => b_ide b <> 4%Z) (fun b o => o = new_bus b) bs) as (b0 & C0); [intros; apply not_dec, Z_dec|eauto|].
  assert (PB : parse_buses (rc_rev c) bs = Ok b0) by (apply parse_buses_ok; split; [apply Forall_forall; auto|auto]).
  rewrite PB. cbn [pbind].
  destruct (gen_loop_total c UNI (rc_gens c) [] (st0 b0) R) as (gs & HG); auto.
  { apply ginv0. auto. } { apply slack_base_iff. auto. } { simpl. revert ND. clear. induction R as [|x R IH]; simpl; intros H; [constructor|]. inversion H; subst. constructor; [|auto]. intros X. apply H2, in_or_app. auto. }
  rewrite HG. cbn [pbind]. destruct (gen_loop_inv c UNI _ [] _ _ (ginv0 _ C0) HG) as (GI & _ & _). simpl in GI.
  assert (EC : gs_ctrl gs = R).
  { eapply collects_fun; [|exact (gi_ctrl _ _ _ GI)|exact CR]. intros a x y _ -> ->. auto. }
  destruct (ss_loop_total c (rc_ss c) {| ws_gens := gs_gens gs; ws_ctrl := gs_ctrl gs; ws_shunts := [] |} S) as (ws & HS); auto.
  { simpl. rewrite EC. auto. }
  rewrite HS. cbn [pbind].
  destruct (collects_total _ _ (fs_on c) fs_el (rc_fs c)) as (fo & CF); [intros f; unfold fs_on, isolated; repeat apply andb_dec; [apply not_dec, has_type_dec|apply Z_dec|destruct (R_dec (fs_gl f) 0), (R_dec (fs_bl f) 0); tauto]|unfold fs_el; eauto|].
  rewrite (proj2 (mfold_collect _ _ _ _ _ _ (fs_step_ok c) (rc_fs c) (ws_shunts ws) (ws_shunts ws ++ fo)) (conj FF (ex_intro _ fo (conj eq_refl CF)))). cbn [pbind].
  destruct (collects_total _ _ (load_on c) load_el (rc_loads c)) as (lo & CL); [intros f; unfold load_on, isolated; repeat apply andb_dec; [apply not_dec, has_type_dec|apply Z_dec]|unfold load_el; eauto|].
  rewrite (proj2 (mfold_collect _ _ _ _ _ _ (load_step_ok c) (rc_loads c) (gs_loads gs) (gs_loads gs ++ lo)) (conj LF (ex_intro _ lo (conj eq_refl CL)))). cbn [pbind].
  destruct (collects_total _ _ (branch_on c) branch_el (rc_branches c)) as (br & CB); [intros f; unfold branch_on, isolated; repeat apply andb_dec; [apply not_dec, has_type_dec|apply not_dec, has_type_dec|apply Z_dec]|unfold branch_el; eauto|].
  rewrite (proj2 (mfold_collect _ _ _ _ _ _ (branch_step_ok c) (rc_branches c) [] ([] ++ br)) (conj BF (ex_intro _ br (conj eq_refl CB)))). cbn [pbind].
  assert (CX : exists xo, collects (x2_on c) (x2_el c) (rc_x2 c) xo).
  { clear -XF. induction (rc_x2 c) as [|t l IH]; [exists []; constructor|]. inversion XF; subst. destruct (IH H2) as (xo & IH').
    assert (D : x2_on c t \/ ~ x2_on c t).
    { unfold x2_on, x2_considered, isolated. repeat apply andb_dec; [apply not_dec, has_type_dec|apply not_dec, has_type_dec|apply not_dec, Z_dec]. }
    destruct D as [D|D]; [|exists xo; apply col_skip; auto].
    pose proof D as (D1 & D2). destruct (H1 D1) as ([x|] & Hx); [exists (x :: xo); constructor; auto|].
    exfalso. apply D2. apply (two_winding_none _ _ _ _ Hx). auto. }
  destruct CX as (xo & CX).
  rewrite (proj2 (mfold_collect _ _ _ _ _ _ (x2_step_ok c) (rc_x2 c) [] ([] ++ xo)) (conj XF (ex_intro _ xo (conj eq_refl CX)))). cbn [pbind].
  assert (TOP : exists m, largest (gs_buses gs) = Ok m).
  { apply largest_ok. apply (collects_nonempty _ _ _ _ _ _ (gi_buses _ _ _ GI)). eauto. }
  destruct TOP as (m & TOP). rewrite TOP. cbn [pbind]. rewrite (proj2 (x3_loop _ _ _) (conj X3 eq_refl)). simpl. eauto.
Qed.

(** the description determines the network *)
Lemma bus_el_fun : forall b o o', bus_el c b o -> bus_el c b o' -> o = o'.
Proof.
  intros b [n ty vm va] [n' ty' vm' va'] (A1 & A2 & A3 & A4 & A5) (B1 & B2 & B3 & B4 & B5). cbn in *. subst.
  f_equal.
  assert (D : (exists g, In g (rc_gens c) /\ slack_on c g /\ g_bus g = b_num b) \/ ~ (exists g, In g (rc_gens c) /\ slack_on c g /\ g_bus g = b_num b)).
  { clear. induction (rc_gens c) as [|g l IH]; [right; intros (g & [] & _)|].
    assert (D : slack_on c g \/ ~ slack_on c g) by (apply andb_dec; [apply has_type_dec|apply Z_dec]).
    destruct IH as [(h & Hh & X)|N]; [left; exists h; simpl; tauto|]. destruct D as [D|D].
    - destruct (Z_dec (g_bus g) (b_num b)) as [E|E]; [left; exists g; simpl; auto|]. right. intros (h & [<-|Hh] & X); [tauto|apply N; eauto].
    - right. intros (h & [<-|Hh] & X); [tauto|apply N; eauto]. }
  destruct D as [D|D]; [rewrite A4, B4|rewrite A5, B5]; auto.
Qed.
Lemma gen_el_fun : forall g o o', gen_el g o -> gen_el g o' -> o = o'.
Proof.
  intros g o o' (a & b & q & L & O & ->) (a' & b' & q' & L' & O' & ->). destruct (limits_fun g _ _ _ _ L L') as (<- & <-).
  rewrite (output_fun g _ _ _ _ O O'). auto.
Qed.
Lemma svc_el_fun : forall g o o', svc_el g o -> svc_el g o' -> o = o'.
Proof.
  intros s o o' (lo & hi & q & B & A1 & A2 & ->) (lo' & hi' & q' & B' & A1' & A2' & ->).
  destruct (blocks_fun _ _ _ B _ _ B') as (<- & <-). f_equal.
  assert (D : narrow (hi * (ss_vhi s * ss_vhi s)) (lo * (ss_vhi s * ss_vhi s)) \/ ~ narrow (hi * (ss_vhi s * ss_vhi s)) (lo * (ss_vhi s * ss_vhi s))).
  { unfold narrow. destruct (Rlt_dec (Rabs (hi * (ss_vhi s * ss_vhi s) - lo * (ss_vhi s * ss_vhi s))) (1 / 1000000)); auto. }
  destruct D as [D|D]; [rewrite A1, A1'|rewrite A2, A2']; auto.
Qed.
Lemma slack_el_fun : forall on s s', sl_bus s = sl_bus s' -> slack_el c on s -> slack_el c on s' -> s = s'.
Proof.
  intros on [n v a p q] [n' v' a' p' q'] E (l1 & g & l2 & b & E1 & E2 & E3 & E4 & E5 & E6 & E7 & E8) (m1 & h & m2 & d & F1 & F2 & F3 & F4 & F5 & F6 & F7 & F8).
  cbn in *. subst n'.
  assert (X : g = h /\ l2 = m2).
  { subst on. clear -F1 E2 E3 F2 F3. revert m1 F1 F3. induction l1 as [|x l1 IH]; intros [|y m1] F1 F3; simpl in F1; injection F1 as F1 F1'.
    - auto.
    - exfalso. apply (F3 y); [simpl; auto|congruence].
    - exfalso. apply (E3 x); [simpl; auto|congruence].
    - apply (IH (fun h Hh => E3 h (or_intror Hh)) m1); auto. intros h' Hh'. apply F3. simpl. auto. }
  destruct X as (<- & <-). rewrite (bus_unique c UNI _ _ _ E4 F4) in *. subst. auto.
Qed.
Lemma slacks_fun : forall S S', slacks_of c S -> slacks_of c S' -> S = S'.
Proof.
  intros S S' (on & C & M & F) (on' & C' & M' & F').
  assert (on = on') by (eapply collects_fun; [|exact C|exact C']; intros; congruence). subst on'.
  rewrite <- M' in M. clear M'. revert S' M F'. induction S as [|s S IH]; intros [|s' S'] M F'; simpl in M; try discriminate; auto.
  injection M as M1 M2. inversion F; subst. inversion F'; subst. f_equal; [eapply slack_el_fun; eauto|apply IH; auto].
Qed.

Lemma raw_net_fun : forall n n', raw_net c n -> raw_net c n' -> n = n'.
Proof.
  intros [a1 a2 a3 a4 a5 a6 a7] [b1 b2 b3 b4 b5 b6 b7] [A1 A2 (G & S & E1 & C1 & C2) (GL & L & E2 & C3 & C4) (SS & SF & E3 & C5 & C6) A6 A7]
    [B1 B2 (G' & S' & E1' & C1' & C2') (GL' & L' & E2' & C3' & C4') (SS' & SF' & E3' & C5' & C6') B6 B7]. cbn in *.
  f_equal.
  - eapply collects_fun; [|exact A1|exact B1]. intros ? ? ? _. apply bus_el_fun.
  - apply slacks_fun; auto.
  - subst. f_equal.
    + eapply collects_fun; [|exact C1|exact C1']. intros ? ? ? _. apply gen_el_fun.
    + eapply collects_fun; [|exact C2|exact C2']. intros ? ? ? _. apply svc_el_fun.
  - subst. f_equal.
    + eapply collects_fun; [|exact C3|exact C3']. intros g x y _ (q & q' & L1 & ->) (r & r' & L2 & ->). destruct (limits_fun g _ _ _ _ L1 L2) as (<- & <-). auto.
    + eapply collects_fun; [|exact C4|exact C4']. unfold load_el. intros; congruence.
  - subst. f_equal.
    + eapply collects_fun; [|exact C5|exact C5']. unfold stepped_el. intros; congruence.
    + eapply collects_fun; [|exact C6|exact C6']. unfold fs_el. intros; congruence.
  - eapply collects_fun; [|exact A6|exact B6]. unfold branch_el. intros; congruence.
  - eapply collects_fun; [|exact A7|exact B7]. unfold x2_el. intros; congruence.
Qed.

Theorem raw_exact : forall net, parse_raw c = Ok net <-> raw_ok c /\ raw_net c net.
Proof.
  intros net. split; [apply raw_forward|]. intros (OK & N). destruct (raw_total OK) as (n & H).
  destruct (raw_forward _ H) as (_ & N'). rewrite (raw_net_fun _ _ N N'). auto.
Qed.
End Case.
