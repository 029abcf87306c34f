(** Consequences of the exact description of the parser. *)
From Coq Require Import Reals ZArith List Bool Lra Lia Psatz.
From Verif Require Import Components RawTransformers RawParser SpecRaw RawBaseProofs RawTableProofs RawGenProofs RawProofs.
Import ListNotations.
Local Open Scope R_scope.

Lemma collects_remove : forall A B (P : A -> Prop) (R : A -> B -> Prop) l1 a l2 out, ~ P a ->
  collects P R (l1 ++ a :: l2) out -> collects P R (l1 ++ l2) out.
Proof.
  intros A B P R l1 a l2. induction l1 as [|x l1 IH]; simpl; intros out N H.
  - inversion H as [|? b ? out' HP HR HC|? ? ? HP HC]; subst; [contradiction|auto].
  - inversion H as [|? b ? out' HP HR HC|? ? ? HP HC]; subst; [apply col_take|apply col_skip]; auto.
Qed.
Lemma Forall_remove : forall A (P : A -> Prop) l1 a l2, Forall P (l1 ++ a :: l2) -> Forall P (l1 ++ l2).
Proof. intros A P l1 a l2 H. apply Forall_app in H as (H1 & H2). inversion H2; subst. apply Forall_app. auto. Qed.

Lemma sum_at_app : forall A (bus : A -> Z) val n l l', sum_at bus val n (l ++ l') = sum_at bus val n l + sum_at bus val n l'.
Proof. induction l as [|a l IH]; simpl; intros; [ring|]. rewrite IH. ring. Qed.
Lemma sum_at_collects : forall A B (P : A -> Prop) (R : A -> B -> Prop) busA valA busB valB k n l out on,
  (forall a b, R a b -> busB b = busA a /\ valB b = k * valA a) -> collects P R l out -> chosen P l on ->
  sum_at busB valB n out = k * sum_at busA valA n on.
Proof.
  intros A B P R busA valA busB valB k n l out on H C. revert on. induction C; intros on D; inversion D as [|? b' ? out' HP HR HC|? ? ? HP HC]; subst; try contradiction; simpl.
  - ring.
  - destruct (H _ _ H1) as (-> & ->). rewrite (IHC _ HC). destruct (Z.eq_dec (busA b') n); ring.
  - apply IHC. auto.
Qed.
Lemma sum_at_zero : forall A B (P : A -> Prop) (R : A -> B -> Prop) busB valB n l out,
  (forall a b, R a b -> valB b = 0) -> collects P R l out -> sum_at busB valB n out = 0.
Proof. intros A B P R busB valB n l out H C. induction C; simpl; auto. rewrite IHC, (H _ _ H1). destruct (Z.eq_dec (busB b) n); ring. Qed.

(** *** step blocks *)
Lemma blocks_empty : forall l1 n b l2, IZR n * b = 0 -> compute_bmin_bmax (l1 ++ (n, b) :: l2) = compute_bmin_bmax l1.
Proof.
  intros l1 n b l2 E.
  pose proof (blocks_compute (l1 ++ (n, b) :: l2)) as H1. pose proof (blocks_compute l1) as H2.
  assert (X : forall l lo hi, blocks l lo hi -> blocks (l ++ (n, b) :: l2) lo hi).
  { induction 1; simpl; [apply bl_zero; auto|apply bl_zero; auto|apply bl_pos; auto|apply bl_neg; auto]. }
  destruct (blocks_fun _ _ _ H1 _ _ (X _ _ _ H2)) as (E1 & E2).
  rewrite (surjective_pairing (compute_bmin_bmax (l1 ++ (n, b) :: l2))), E1, E2. symmetry. apply surjective_pairing.
Qed.
Lemma blocks_bound : forall l, Forall (fun s : Z * R => (0 <= fst s)%Z) l -> Forall (fun s : Z * R => IZR (fst s) * snd s <> 0) l ->
  forall lo hi, blocks l lo hi -> (forall t, reach l t -> lo <= t <= hi) /\ reach l lo /\ reach l hi.
Proof.
  induction l as [|[n b] l IH]; intros F1 F2 lo hi H; inversion H; subst.
  - split; [|split; constructor]. intros t T. inversion T; subst. lra.
  - inversion F2; subst. exfalso. cbn in *. auto.
  - inversion F1; inversion F2; subst. cbn in *. destruct (IH ltac:(auto) ltac:(auto) _ _ H6) as (B & L & U). split; [|split].
    + intros t T. inversion T as [|? ? k ? t' K T']; subst. specialize (B _ T').
      assert (KN : 0 <= IZR k <= IZR n) by (split; apply IZR_le; lia). assert (0 < b) by nra. nra.
    + replace lo with (IZR 0 * b + lo) by ring. constructor; [lia|auto].
    + constructor; [lia|auto].
  - inversion F1; inversion F2; subst. cbn in *. destruct (IH ltac:(auto) ltac:(auto) _ _ H6) as (B & L & U). split; [|split].
    + intros t T. inversion T as [|? ? k ? t' K T']; subst. specialize (B _ T').
      assert (KN : 0 <= IZR k <= IZR n) by (split; apply IZR_le; lia). assert (b < 0) by nra. nra.
    + constructor; [lia|auto].
    + replace hi with (IZR 0 * b + hi) by ring. constructor; [lia|auto].
Qed.
Lemma bmin_bmax_bound : forall l1 l2 lo hi, Forall (fun s : Z * R => (0 <= fst s)%Z) l1 -> Forall (fun s : Z * R => IZR (fst s) * snd s <> 0) l1 ->
  (l2 = [] \/ exists n b l3, l2 = (n, b) :: l3 /\ IZR n * b = 0) ->
  compute_bmin_bmax (l1 ++ l2) = (lo, hi) -> (forall t, reach l1 t -> lo <= t <= hi) /\ reach l1 lo /\ reach l1 hi.
Proof.
  intros l1 l2 lo hi F1 F2 E H. assert (C : compute_bmin_bmax l1 = (lo, hi)).
  { destruct E as [->|(n & b & l3 & -> & E)]; [rewrite app_nil_r in H; auto|rewrite blocks_empty in H; auto]. }
  apply blocks_bound; auto. pose proof (blocks_compute l1) as B. rewrite C in B. auto.
Qed.

Section Case.
Variable c : raw_case.
Notation bs := (rc_buses c).
Hypothesis UNI : NoDup (map b_num bs).
Hypothesis NOM : ~ exists_online c (-1).

(** *** generators *)
Lemma silent_machine : forall l1 g l2 net, rc_gens c = l1 ++ g :: l2 -> ~ slack_on c g -> ~ pv_on c g ->
  parse_raw c = Ok net -> parse_raw (case_with_gens c (l1 ++ l2)) = Ok net.
Proof.
  intros l1 g l2 net E NS NP H. apply (raw_exact c UNI NOM) in H as (OK & N).
  assert (NR : ~ regulates c g) by (intros (X & _); auto). assert (NF : ~ fixed_q c g) by (intros (X & _); auto).
  apply (raw_exact (case_with_gens c (l1 ++ l2)) UNI NOM).
  destruct OK as (K1 & K2 & K3 & K4 & (Rg & S & K5 & K6 & K7) & K8). rewrite E in K3, K5.
  destruct N as [N1 (on & N2 & N3 & N4) (G & SV & N5 & N6 & N7) (GL & L & N8 & N9 & N10) N11 N12 N13]. rewrite E in N2, N6, N9.
  split.
  - split; [auto|split; [auto|]]. split; [apply Forall_remove in K3; exact K3|]. split.
    + intros m1 h m2 k Em Hk Sh Sk Eb. simpl in Em.
      (* the pair h ... k also occurs, in this order, in the longer table *)
      assert (P : exists p1 p2, l1 ++ g :: l2 = p1 ++ h :: p2 /\ In k p2).
      { clear -Em Hk. revert m1 Em. induction l1 as [|x l1 IH]; intros m1 Em; simpl in *.
        - exists (g :: m1), m2. rewrite Em. auto.
        - destruct m1 as [|y m1]; simpl in Em; injection Em as -> Em.
          + exists [], (l1 ++ g :: l2). split; [auto|]. rewrite <- Em in Hk. apply in_app_or in Hk as [Hk|Hk]; apply in_or_app; simpl; auto.
          + destruct (IH _ Em) as (p1 & p2 & E' & I). exists (y :: p1), p2. rewrite E'. auto. }
      destruct P as (p1 & p2 & EP & IP). rewrite <- E in EP. exact (K4 p1 h p2 k EP IP Sh Sk Eb).
    + split; [|exact K8]. exists Rg, S. split; [eapply collects_remove; [|exact K5]; exact NR|auto].
  - constructor.
    + eapply collects_R; [|exact N1]. intros b o Hb Ho (B1 & B2 & B3 & B4 & B5). split; [auto|split; [auto|split; [auto|split]]].
      * intros (h & Hh & Sh & Eb). apply B4. exists h. rewrite E. simpl in Hh. split; [|auto]. apply in_app_or in Hh as [?|?]; apply in_or_app; simpl; auto.
      * intros X. apply B5. intros (h & Hh & Sh & Eb). rewrite E in Hh. apply X. exists h. simpl. split; [|auto].
        apply in_app_or in Hh as [?|[<-|?]]; [apply in_or_app; auto|contradiction|apply in_or_app; auto].
    + exists on. split; [eapply collects_remove; [|exact N2]; exact NS|auto].
    + exists G, SV. split; [auto|split; [|auto]]. eapply collects_remove; [|exact N6]. exact NR.
    + exists GL, L. split; [auto|split; [|auto]]. eapply collects_remove; [|exact N9]. exact NF.
    + exact N11.
    + exact N12.
    + exact N13.
Qed.

Lemma regulated_once : forall net, parse_raw c = Ok net -> NoDup (map og_bus (n_gens net)).
Proof.
  intros net H. apply (raw_exact c UNI NOM) in H as (OK & N).
  destruct OK as (_ & _ & _ & _ & (Rg & S & K5 & K6 & K7) & _). destruct N as [_ _ (G & SV & -> & N6 & N7) _ _ _ _].
  rewrite map_app.
  assert (E1 : map og_bus G = Rg).
  { eapply collects_fun; [|eapply (collects_map_inv _ _ _ _ _ g_bus og_bus); [|exact N6]|exact K5]; [intros; congruence|].
    intros a b (qt & qb & qg & _ & _ & ->). auto. }
  assert (E2 : map og_bus SV = S).
  { eapply collects_fun; [|eapply (collects_map_inv _ _ _ _ _ ss_bus og_bus); [|exact N7]|exact K6]; [intros; congruence|].
    intros a b (lo & hi & q & _ & _ & _ & ->). auto. }
  rewrite E1, E2. auto.
Qed.
Lemma two_regulating : forall l1 g l2 h l3, rc_gens c = l1 ++ g :: l2 ++ h :: l3 -> regulates c g -> regulates c h -> g_bus g = g_bus h ->
  forall net, parse_raw c <> Ok net.
Proof.
  intros l1 g l2 h l3 E Rg Rh Eb net H. apply (raw_exact c UNI NOM) in H as ((_ & _ & _ & _ & (Rs & S & K5 & _ & K7) & _) & _).
  rewrite E in K5. apply collects_app_inv in K5 as (o1 & o2 & -> & C1 & C2).
  inversion C2 as [|? b ? out' HP HR HC|? ? ? HP HC]; subst; [|contradiction].
  apply collects_app_inv in HC as (o3 & o4 & -> & C3 & C4). inversion C4 as [|? b ? out'' HP' HR' HC'|? ? ? HP' HC']; subst; [|contradiction].
  rewrite Eb in K7. rewrite <- app_assoc in K7. simpl in K7. apply NoDup_remove_2 in K7. apply K7.
  apply in_or_app. right. rewrite <- app_assoc. apply in_or_app. right. simpl. auto.
Qed.
Lemma machine_and_shunt : forall g s, In g (rc_gens c) -> regulates c g -> In s (rc_ss c) -> continuous c s -> ss_bus s = g_bus g ->
  forall net, parse_raw c <> Ok net.
Proof.
  intros g s Hg Rg Hs Cs Eb net H. apply (raw_exact c UNI NOM) in H as ((_ & _ & _ & _ & (Rs & S & K5 & K6 & K7) & _) & _).
  destruct (collects_all _ _ _ _ _ K5 Hg Rg) as (x & Hx & ->). destruct (collects_all _ _ _ _ _ K6 Hs Cs) as (y & Hy & ->).
  rewrite Eb in Hy. apply in_split in Hx as (x1 & x2 & ->). rewrite <- app_assoc in K7. simpl in K7. apply NoDup_remove_2 in K7. apply K7.
  apply in_or_app. right. apply in_or_app. auto.
Qed.

(** the exception of the second regulating machine *)
Lemma second_machine_raises : forall l1 g l2 h l3,
  In (rc_rev c) [30; 32; 33; 34]%Z -> rc_gens c = l1 ++ g :: l2 ++ h :: l3 -> regulates c g -> regulates c h -> g_bus g = g_bus h ->
  Forall (wind_ok c) (l1 ++ g :: l2 ++ [h]) -> slack_base_ok (case_with_gens c (l1 ++ g :: l2)) ->
  (exists Rs, collects (regulates c) (fun g n => n = g_bus g) (l1 ++ g :: l2) Rs /\ NoDup Rs) ->
  parse_raw c = Err AttributeError.
Proof.
  intros l1 g l2 h l3 REV E Rg Rh Eb W SB (Rs & CR & ND).
  replace (l1 ++ g :: l2 ++ [h]) with ((l1 ++ g :: l2) ++ [h]) in W by (rewrite <- app_assoc; auto). apply Forall_app in W as (W & Wh). inversion Wh as [|? ? Wh' _]; subst.
  destruct (collects_total _ _ (fun b => b_ide b <> 4%Z) (fun b o => o = new_bus b) bs) as (b0 & C0); [intros; apply not_dec, Z_dec|eauto|].
  assert (PB : parse_buses (rc_rev c) bs = Ok b0) by (apply parse_buses_ok; split; [apply Forall_forall; auto|auto]).
  unfold parse_raw. rewrite PB. cbn [pbind].
  destruct (gen_loop_total c UNI (l1 ++ g :: l2) [] {| gs_buses := b0; gs_slack := []; gs_sdic := []; gs_gens := []; gs_ctrl := []; gs_loads := [] |} Rs) as (gs & HG); auto.
  { apply ginv0. auto. } { apply (slack_base_iff (case_with_gens c (l1 ++ g :: l2))). auto. }
  destruct (gen_loop_inv c UNI _ [] _ _ (ginv0 c _ C0) HG) as (GI & _ & _). simpl in GI.
  replace (rc_gens c) with ((l1 ++ g :: l2) ++ h :: l3) by (rewrite E, <- app_assoc; auto).
  rewrite mfold_app, HG. cbn [pbind mfold].
  assert (X : gen_step bs (rc_sbase c) gs h = Err AttributeError).
  { destruct Rh as ((N3 & T2 & ST) & NF & NZ). unfold gen_step.
    destruct (slack_bus bs (g_bus h)) eqn:SLB; [apply (slack_bus_iff c) in SLB; contradiction|].
    unfold conv_gen_step. destruct (gen_data_total h) as (q & Hq); [apply (wind_ok_iff c); auto|]. rewrite Hq. cbn [pbind].
    destruct (gen_data_ok h q Hq) as (_ & L & _).
    rewrite (proj2 (pv_bus_iff c _) T2), ST. cbn [andb Z.eqb Pos.eqb].
    destruct (almost_equal (q_qt q) (q_qb q) && negb (Z.eqb (g_wmod h) 2))%bool eqn:AE.
    - exfalso. apply NF. apply andb_prop in AE as (A1 & A2). apply almost_iff in A1. apply negb_true_iff, Z.eqb_neq in A2.
      split; [split; auto|split; [auto|eauto]].
    - destruct (reqb (g_pg h) 0 && reqb (q_qt q) 0 && reqb (q_qb q) 0)%bool eqn:ZE.
      + exfalso. apply NZ. apply andb_prop in ZE as (ZE & Z3). apply andb_prop in ZE as (Z1 & Z2). apply reqb_iff in Z1, Z2, Z3. eauto 6.
      + assert (M : memz (g_bus h) (gs_ctrl gs) = true).
        { apply memz_iff. destruct (collects_all _ _ _ _ g (gi_ctrl _ _ _ GI)) as (n & Hn & ->); [apply in_or_app; simpl; auto|auto|]. rewrite <- Eb. auto. }
        rewrite M. auto. }
  rewrite X. auto.
Qed.

(** *** loads *)
Lemma load_power : forall net ls gs n, parse_raw c = Ok net -> chosen (load_on c) (rc_loads c) ls -> chosen (fixed_q c) (rc_gens c) gs ->
  sum_at fst (fun l => ld_P (snd l)) n (n_loads net) = (sum_at rl_bus rl_pl n ls - sum_at g_bus g_pg n gs) / 100.
Proof.
  intros net ls gs n H CL CG. apply (raw_exact c UNI NOM) in H as (_ & [_ _ _ (G & L & -> & N9 & N10) _ _ _]).
  rewrite sum_at_app.
  rewrite (sum_at_collects _ _ _ neg_load_el g_bus g_pg fst (fun l : Z * load => ld_P (snd l)) (- (1 / 100)) n _ _ _ ltac:(intros a b (qt & qb & _ & ->); cbn; split; [auto|field]) N9 CG).
  rewrite (sum_at_collects _ _ _ load_el rl_bus rl_pl fst (fun l : Z * load => ld_P (snd l)) (1 / 100) n _ _ _ ltac:(intros a b ->; cbn; split; [auto|field]) N10 CL).
  field.
Qed.
Lemma load_current : forall net ls n, parse_raw c = Ok net -> chosen (load_on c) (rc_loads c) ls ->
  sum_at fst (fun l => ld_IP (snd l)) n (n_loads net) = sum_at rl_bus rl_ip n ls /\
  sum_at fst (fun l => ld_IQ (snd l)) n (n_loads net) = sum_at rl_bus rl_iq n ls.
Proof.
  intros net ls n H CL. apply (raw_exact c UNI NOM) in H as (_ & [_ _ _ (G & L & -> & N9 & N10) _ _ _]).
  rewrite !sum_at_app. split.
  - rewrite (sum_at_zero _ _ _ neg_load_el fst (fun l : Z * load => ld_IP (snd l)) n _ _ ltac:(intros a b (qt & qb & _ & ->); auto) N9).
    rewrite (sum_at_collects _ _ _ load_el rl_bus rl_ip fst (fun l : Z * load => ld_IP (snd l)) 1 n _ _ _ ltac:(intros a b ->; cbn; split; [auto|ring]) N10 CL). ring.
  - rewrite (sum_at_zero _ _ _ neg_load_el fst (fun l : Z * load => ld_IQ (snd l)) n _ _ ltac:(intros a b (qt & qb & _ & ->); auto) N9).
    rewrite (sum_at_collects _ _ _ load_el rl_bus rl_iq fst (fun l : Z * load => ld_IQ (snd l)) 1 n _ _ _ ltac:(intros a b ->; cbn; split; [auto|ring]) N10 CL). ring.
Qed.

(** *** shunts *)
Lemma shunt_total : forall net ss fs n, parse_raw c = Ok net -> chosen (stepped c) (rc_ss c) ss -> chosen (fs_on c) (rc_fs c) fs ->
  sum_at os_bus os_B n (n_shunts net) = (sum_at ss_bus ss_binit n ss + sum_at fs_bus fs_bl n fs) / 100 /\
  sum_at os_bus os_G n (n_shunts net) = sum_at fs_bus fs_gl n fs / 100.
Proof.
  intros net ss fs n H CS CF. apply (raw_exact c UNI NOM) in H as (_ & [_ _ _ _ (S & F & -> & N9 & N10) _ _]).
  rewrite !sum_at_app. split.
  - rewrite (sum_at_collects _ _ _ stepped_el ss_bus ss_binit os_bus os_B (1 / 100) n _ _ _ ltac:(intros a b ->; cbn; split; [auto|field]) N9 CS).
    rewrite (sum_at_collects _ _ _ fs_el fs_bus fs_bl os_bus os_B (1 / 100) n _ _ _ ltac:(intros a b ->; cbn; split; [auto|field]) N10 CF). field.
  - rewrite (sum_at_zero _ _ _ stepped_el os_bus os_G n _ _ ltac:(intros a b ->; auto) N9).
    rewrite (sum_at_collects _ _ _ fs_el fs_bus fs_gl os_bus os_G (1 / 100) n _ _ _ ltac:(intros a b ->; cbn; split; [auto|field]) N10 CF). field.
Qed.

(** *** slack *)
Lemma sum_pg_app : forall n l l', sum_pg n (l ++ l') = sum_pg n l + sum_pg n l'.
Proof. induction l as [|a l IH]; simpl; intros; [ring|]. rewrite IH. ring. Qed.
Lemma sum_pg_none : forall n l, (forall h, In h l -> g_bus h <> n) -> sum_pg n l = 0.
Proof.
  induction l as [|a l IH]; simpl; intros H; [auto|]. rewrite IH by (intros; apply H; auto).
  destruct (Z.eq_dec (g_bus a) n) as [E|E]; [exfalso; apply (H a); auto|ring].
Qed.
Lemma slack_power : forall net on s, parse_raw c = Ok net -> chosen (slack_on c) (rc_gens c) on -> In s (n_slack net) ->
  rc_sbase c = 100 -> sl_pinit s = sum_pg (sl_bus s) on / 100.
Proof.
  intros net on s H CO Hs SB. apply (raw_exact c UNI NOM) in H as (_ & [_ (on' & N1 & N2 & N3) _ _ _ _ _]).
  assert (on = on') by (eapply collects_fun; [|exact CO|exact N1]; intros; congruence). subst on'.
  rewrite Forall_forall in N3. destruct (N3 s Hs) as (l1 & g & l2 & b & -> & E1 & E2 & _ & _ & _ & _ & ->).
  rewrite sum_pg_app. cbn [sum_pg]. rewrite (sum_pg_none _ l1) by auto. destruct (Z.eq_dec (g_bus g) (sl_bus s)); [|contradiction]. rewrite SB. field.
Qed.
Lemma slack_once : forall net, parse_raw c = Ok net -> NoDup (map sl_bus (n_slack net)).
Proof.
  intros net H. apply (raw_exact c UNI NOM) in H as (_ & [_ (on' & N1 & N2 & N3) _ _ _ _ _]). rewrite N2. apply firsts_nodup.
Qed.

(** *** lines *)
Lemma line_admittance : forall net f t ln, parse_raw c = Ok net -> In (f, t, ln) (n_lines net) ->
  exists b, In b (rc_branches c) /\ branch_on c b /\ br_i b = f /\ br_j b = t /\
    ln_G ln * br_r b - ln_B ln * br_x b = 1 /\ ln_G ln * br_x b + ln_B ln * br_r b = 0 /\ ln_Bsh ln = br_b b / 2.
Proof.
  intros net f t ln H I. apply (raw_exact c UNI NOM) in H as ((_ & _ & _ & _ & _ & _ & _ & _ & BF & _) & [_ _ _ _ _ N _]).
  destruct (collects_in _ _ _ _ _ N I) as (b & Hb & On & E). injection E as -> -> ->. exists b.
  rewrite Forall_forall in BF. destruct (BF b Hb On) as (_ & _ & Z & _).
  assert (NZ : br_r b * br_r b + br_x b * br_x b <> 0) by (destruct Z; nra).
  split; [auto|split; [auto|split; [auto|split; [auto|]]]]. cbn. split; [field; auto|split; [field; auto|auto]].
Qed.
Lemma line_shunt_refused : forall b net, In b (rc_branches c) -> branch_on c b ->
  br_gi b <> 0 \/ br_bi b <> 0 \/ br_gj b <> 0 \/ br_bj b <> 0 -> parse_raw c <> Ok net.
Proof.
  intros b net Hb On N H. apply (raw_exact c UNI NOM) in H as ((_ & _ & _ & _ & _ & _ & _ & _ & BF & _) & _).
  rewrite Forall_forall in BF. destruct (BF b Hb On) as (_ & _ & _ & A & B & C & D). tauto.
Qed.
Lemma zero_impedance_refused : forall b net, In b (rc_branches c) -> branch_on c b -> br_r b = 0 -> br_x b = 0 -> parse_raw c <> Ok net.
Proof.
  intros b net Hb On E1 E2 H. apply (raw_exact c UNI NOM) in H as ((_ & _ & _ & _ & _ & _ & _ & _ & BF & _) & _).
  rewrite Forall_forall in BF. destruct (BF b Hb On) as (_ & _ & Z & _). tauto.
Qed.

(** *** three-winding transformers *)
Lemma three_winding_refused : forall t net, In t (rc_x3 c) -> h_stat t <> 0%Z -> live1 c t \/ live2 c t \/ live3 c t -> parse_raw c <> Ok net.
Proof.
  intros t net Ht S L H. apply (raw_exact c UNI NOM) in H as ((_ & _ & _ & _ & _ & _ & _ & _ & _ & _ & X) & _).
  rewrite Forall_forall in X. destruct (X t Ht S) as (_ & A & B & C). tauto.
Qed.

(** *** attachment *)
Lemma well_attached_raw : forall net, parse_raw c = Ok net -> well_attached net.
Proof.
  intros net H. apply (raw_exact c UNI NOM) in H as ((_ & _ & _ & _ & _ & KS & KF & KL & KB & KX & _) & [N1 (on & N2 & N3 & N4) (G & SV & E1 & N5 & N6) (GL & L & E2 & N7 & N8) (S & F & E3 & N9 & N10) N11 N12]).
  assert (AT : forall n, exists_online c n -> attached net n).
  { intros n (b & (Hb & <-) & Ob). destruct (collects_all _ _ _ _ _ N1 Hb Ob) as (o & Ho & (<- & _)). apply in_map. auto. }
  assert (PV : forall g, pv_on c g -> exists_online c (g_bus g)) by (intros g (_ & T & _); eapply has_type_online; eauto; discriminate).
  rewrite !Forall_forall in *.
  split; [|split; [|split; [|split; [|split]]]]; rewrite ?Forall_forall; intros x Hx.
  - rewrite N3 in Hx. apply firsts_in in Hx as (Hx & _). apply in_map_iff in Hx as (g & <- & Hg).
    destruct (collects_in _ _ _ _ _ N2 Hg) as (g' & _ & (T & _) & ->). apply AT. eapply has_type_online; eauto. discriminate.
  - apply in_map_iff in Hx as (o & <- & Ho). rewrite E1 in Ho. apply in_app_or in Ho as [Ho|Ho].
    + destruct (collects_in _ _ _ _ _ N5 Ho) as (g & _ & (P & _) & (? & ? & ? & _ & _ & ->)). apply AT, PV. auto.
    + destruct (collects_in _ _ _ _ _ N6 Ho) as (s & Hs & (P & _) & (? & ? & ? & _ & _ & _ & ->)). apply AT, KS; auto.
  - apply in_map_iff in Hx as (o & <- & Ho). rewrite E2 in Ho. apply in_app_or in Ho as [Ho|Ho].
    + destruct (collects_in _ _ _ _ _ N7 Ho) as (g & _ & (P & _) & (? & ? & _ & ->)). apply AT, PV. auto.
    + destruct (collects_in _ _ _ _ _ N8 Ho) as (l & Hl & P & ->). apply AT, KL; auto.
  - apply in_map_iff in Hx as (o & <- & Ho). rewrite E3 in Ho. apply in_app_or in Ho as [Ho|Ho].
    + destruct (collects_in _ _ _ _ _ N9 Ho) as (s & Hs & (P & _) & ->). apply AT, KS; auto.
    + destruct (collects_in _ _ _ _ _ N10 Ho) as (f & Hf & P & ->). apply AT, KF; auto.
  - destruct (collects_in _ _ _ _ _ N11 Hx) as (b & Hb & P & ->). destruct (KB b Hb P) as (A & B & _). cbn. auto.
  - destruct (collects_in _ _ _ _ _ N12 Hx) as (t & Ht & P & E). unfold x2_el, two_winding in E.
    apply pbind_ok in E as (d & _ & E). destruct (Z.eqb (t_stat t) 0); [discriminate|]. apply pbind_ok in E as (y & E & E'). injection E' as ->.
    unfold make_xfmr in E. apply pbind_ok in E as (f & Ef & E). apply pbind_ok in E as (k & Ek & E).
    apply (bus_key_ok c) in Ef as (Ef & ->). apply (bus_key_ok c) in Ek as (Ek & ->).
    destruct (new_transformer _ _ _ _); [|discriminate]. injection E as <-. cbn. auto.
Qed.
End Case.

(** the constant-admittance part of a load is never read *)
Lemma admittance_ignored : forall c ls, Forall2 same_but_admittance (rc_loads c) ls -> parse_raw (case_with_loads c ls) = parse_raw c.
Proof.
  intros c ls F.
  assert (X : forall acc, mfold (load_step (rc_buses c)) ls acc = mfold (load_step (rc_buses c)) (rc_loads c) acc).
  { induction F as [|a b l l' (E1 & E2 & E3 & E4 & E5 & E6) F IH]; intros acc; simpl; [auto|].
    assert (S : load_step (rc_buses c) acc b = load_step (rc_buses c) acc a) by (unfold load_step; rewrite E1, E2, E3, E4, E5, E6; auto).
    rewrite S. destruct (load_step (rc_buses c) acc a); simpl; auto. }
  unfold parse_raw, case_with_loads. cbn [rc_rev rc_sbase rc_buses rc_gens rc_ss rc_fs rc_loads rc_branches rc_x2 rc_x3].
  destruct (parse_buses _ _); cbn [pbind]; [|auto]. destruct (mfold (gen_step _ _) _ _); cbn [pbind]; [|auto].
  destruct (mfold (ss_step _) _ _); cbn [pbind]; [|auto]. destruct (mfold (fs_step _) _ _); cbn [pbind]; [|auto]. rewrite X. auto.
Qed.
