(** C157: a reported success in the terms of the file. *)
From Coq Require Import String Reals ZArith List Bool Arith Lia Lra.
From Verif Require Import PyExc Components SpecComponents SpecSystem Devices Network SpecNetwork NetworkAssign Solver SpecKirchhoff KirchhoffNet NetStamper SpecNetStamper PowerFlow SpecPowerFlow PowerFlowProofs
  ThreePhase SpecThreePhase RawTransformers RawParser SpecRaw Loader SolverNet SpecSolverNet SolverNetProofs SolverRawProofs SolverNetFinal Command SpecCommand CommandProofs CommandFinal SpecNewton SpecParts PartsProofs PartsFinal PartsFile SpecRun.
From Verif Require TimeSeries ThreePhaseBase.
Import ListNotations.
Local Open Scope R_scope.

(** *** the networks after scaling and switching *)
Lemma loads_back f : forall ls es, Forall2 (scaled_load f) (map dx_load ls) es -> exists ls', es = map dx_load ls' /\ Forall2 (load_times f) ls ls'.
Proof.
  induction ls as [|l ls IH]; intros es F; inversion F as [|? e ? es' S F']; subst; [exists []; split; [reflexivity|constructor]|].
  destruct (IH es' F') as (ls' & -> & G). unfold dx_load in S. inversion S as [x l' b t Q1 Q2 Q3 Q4 Q5]. subst. cbn in *.
  exists ({| tl_from := tl_from l; tl_to := tl_to l; tl_p := ld_P l'; tl_q := ld_Q l'; tl_z := tl_z l; tl_ip := tl_ip l; tl_iq := tl_iq l; tl_name := tl_name l; tl_phase := tl_phase l; tl_triplex := tl_triplex l |} :: ls').
  split.
  - cbn [map]. f_equal. unfold dx_load. cbn. f_equal. destruct l'. cbn in *. now subst.
  - constructor; [|exact G]. unfold load_times. cbn. repeat split. exact Q1.
Qed.
Lemma pairs_back f o : forall ls es, Forall2 (scaled_load f) (map (fun x => ELoad (snd x) (sx_ref o (fst x)) None) ls) es ->
  exists ls', es = map (fun x => ELoad (snd x) (sx_ref o (fst x)) None) ls' /\
    Forall2 (fun x y : Z * load => fst y = fst x /\ (ld_P (snd y), ld_Q (snd y)) = Cscale f (ld_P (snd x), ld_Q (snd x)) /\ ld_Zr (snd y) = ld_Zr (snd x) /\ ld_Zi (snd y) = ld_Zi (snd x) /\
                      ld_IP (snd y) = ld_IP (snd x) /\ ld_IQ (snd y) = ld_IQ (snd x)) ls ls'.
Proof.
  induction ls as [|l ls IH]; intros es F; inversion F as [|? e ? es' S F']; subst; [exists []; split; [reflexivity|constructor]|].
  destruct (IH es' F') as (ls' & -> & G). inversion S as [x l' b t Q1 Q2 Q3 Q4 Q5]. subst. cbn in *.
  exists ((fst l, l') :: ls'). split; [reflexivity|]. constructor; [cbn; auto 7|exact G].
Qed.
(** the switch of a capacitor as a device has it *)
Definition turned (d : device) (c : tcap) : tcap :=
  match d with
  | DCap x => {| tc_bus := tc_bus c; tc_B := tc_B c; tc_mode := tc_mode c; tc_high := tc_high c; tc_low := tc_low c; tc_switch := c_switch x |}
  | _ => c
  end.
Fixpoint turn_all (ds : list device) (cs : list tcap) : list tcap := match ds, cs with d :: ds, c :: cs => turned d c :: turn_all ds cs | _, _ => cs end.
Lemma turn_same : forall ds cs, switch_all ds (map dx_cap cs) = map dx_cap (turn_all ds cs).
Proof. induction ds as [|d ds IH]; intros [|c cs]; cbn; try reflexivity. rewrite IH. f_equal. destruct d; try reflexivity. Qed.
Lemma turn_again : forall ds cs, Forall2 cap_again cs (turn_all ds cs).
Proof.
  assert (forall cs, Forall2 cap_again cs cs) as R by (induction cs; constructor; [repeat split|assumption]).
  induction ds as [|d ds IH]; intros [|c cs]; cbn; try apply R; constructor; [destruct d; repeat split|apply IH].
Qed.
Lemma net_back opt f n nw nw' ds : dx_network opt n = Ok nw -> scaled f nw nw' -> exists n', net_again f n n' /\ dx_network opt n' = Ok (with_devices nw' ds).
Proof.
  intros E SC. unfold dx_network in E. apply ThreePhaseBase.bind_ok in E as (lines & E1 & E). injection E as <-. destruct nw'. unfold scaled in SC. cbn in SC.
  destruct SC as (L & -> & -> & -> & -> & -> & -> & -> & -> & -> & -> & -> & -> & -> & ->).
  destruct (loads_back _ _ _ L) as (ls' & -> & G).
  set (cs := turn_all (skipn (length (nt_fuses n)) ds) (nt_caps n)).
  exists {| nt_next := nt_next n; nt_buses := nt_buses n; nt_map := nt_map n; nt_slack := nt_slack n; nt_loads := ls'; nt_xfmrs := nt_xfmrs n; nt_caps := cs; nt_regs := nt_regs n;
            nt_fuses := nt_fuses n; nt_switches := nt_switches n; nt_lines := nt_lines n |}.
  split.
  - unfold net_again. cbn. split; [exact G|]. split; [apply turn_again|]. repeat split.
  - unfold dx_network. cbn [nt_lines nt_buses nt_xfmrs nt_slack nt_switches nt_loads nt_regs nt_fuses nt_caps].
    match goal with |- context [pmap (dx_line ?m) _] => change (dx_line m) with (dx_line n) end. rewrite E1. cbn [pbind]. unfold with_devices, with_capacitors. cbn. rewrite map_length, turn_same. reflexivity.
Qed.
Lemma onet_back opt f o nw' ds : scaled f (sx_network opt o) nw' -> exists o', onet_again f o o' /\ sx_network opt o' = with_devices nw' ds.
Proof.
  intros SC. destruct nw'. unfold scaled in SC. cbn in SC. destruct SC as (L & -> & -> & -> & -> & -> & -> & -> & -> & -> & -> & -> & -> & -> & ->).
  destruct (pairs_back _ _ _ _ L) as (ls' & -> & G).
  exists {| n_buses := n_buses o; n_slack := n_slack o; n_gens := n_gens o; n_loads := ls'; n_shunts := n_shunts o; n_lines := n_lines o; n_xfmrs := n_xfmrs o |}.
  split; [unfold onet_again; cbn; split; [exact G|repeat split]|]. unfold with_devices, with_capacitors. cbn. destruct ds; reflexivity.
Qed.
Lemma again_attached f o o' : onet_again f o o' -> well_attached o -> well_attached o'.
Proof.
  intros (L & B & S & G & H & LI & X) (A1 & A2 & A3 & A4 & A5 & A6). unfold well_attached, attached in *. rewrite B, S, G, H, LI, X.
  assert (map fst (n_loads o') = map fst (n_loads o)) as -> by (clear - L; induction L as [|x y l m [E _] L IH]; cbn; [reflexivity|now rewrite E, IH]). auto 8.
Qed.

(** *** voltages *)
Lemma voltage_at old nw v k b : network_ok nw -> nw_optimization nw = None -> nth_error (nw_buses nw) k = Some b ->
  voltages (assign_matrix old nw) v (Some (bus_id b)) = (v (2 * k), v (2 * k + 1))%nat.
Proof. intros OK NO H. unfold voltages. cbn [at_ref]. rewrite (table_at old nw OK NO k b H). reflexivity. Qed.
Lemma raw_bus l : forall m k b, nth_error l k = Some b -> nth_error (sx_buses m l) k = Some {| bus_id := m + k; bus_Vm := ob_vm b; bus_Va := ob_va b |}.
Proof.
  induction l as [|c l IH]; intros m [|k] b H; try discriminate; cbn in *; [injection H as ->; now rewrite Nat.add_0_r|]. rewrite (IH (S m) k b H). do 2 f_equal. lia.
Qed.
Lemma lit_energised opt n nw V : dx_network opt n = Ok nw -> lit n V -> energised nw V.
Proof.
  intros E L. split.
  - intros l f t H N. destruct (dx_elements _ _ _ _ E H) as [(x & Hx & Q)|[(x & Hx & Q)|[(x & Hx & Q)|[(x & Hx & Q)|[(x & Hx & Q)|[(x & Hx & Q)|[(x & Hx & Q)|(x & Hx & Q)]]]]]]].
    1: unfold dx_line in Q; apply ThreePhaseBase.bind_ok in Q as (ph & _ & Q); discriminate.
    1: destruct x; discriminate.
    3: { unfold dx_load in Q. injection Q as -> -> ->. exact (L x Hx N). }
    all: discriminate.
  - intros g H. destruct (dx_elements _ _ _ _ E H) as [(x & Hx & Q)|[(x & Hx & Q)|[(x & Hx & Q)|[(x & Hx & Q)|[(x & Hx & Q)|[(x & Hx & Q)|[(x & Hx & Q)|(x & Hx & Q)]]]]]]].
    1: unfold dx_line in Q; apply ThreePhaseBase.bind_ok in Q as (ph & _ & Q); discriminate.
    1: destruct x; discriminate.
    all: discriminate.
Qed.
Lemma caps_left opt n0 n nw V f : net_again f n0 n -> dx_network opt n = Ok nw -> capacitors_rest (dx_details n0) V nw -> Forall (cap_left V) (nt_caps n).
Proof.
  intros (_ & CA & _) E H. apply dx_fields in E as (_ & _ & _ & _ & _ & _ & _ & _ & _ & _ & _ & _ & _ & CP & _).
  apply Forall_forall. intros c Hc. apply In_nth_error in Hc as [k Hk].
  assert (exists c0, nth_error (nt_caps n0) k = Some c0 /\ cap_again c0 c) as (c0 & H0 & AG).
  { clear - CA Hk. revert k Hk. induction CA as [|x y l m A CA IH]; intros [|k] Hk; try discriminate; [injection Hk as <-; exists x; split; [reflexivity|exact A]|exact (IH k Hk)]. }
  assert (nth_error (nw_capacitors nw) k = Some (dx_cap c)) as HK by (rewrite CP; now apply map_nth_error).
  unfold dx_cap in HK. specialize (H k _ _ _ _ HK). cbn in H. rewrite H0 in H. destruct AG as (_ & _ & AM & AH & AL). unfold cap_left. rewrite AM. destruct (tc_mode c0); auto.
  intros hi lo Hh Hl. rewrite AH in Hh. rewrite AL in Hl. rewrite Hh, Hl in H. cbn in H. destruct H as (_ & H1 & H2).
  split; intros Q; [specialize (H1 Q)|specialize (H2 Q)]; destruct (tc_switch c); cbn in *; congruence.
Qed.

(** *** fuses *)
Lemma fuse_place n k f : nth_error (parts n) k = Some (PFuse f) ->
  exists j, k = (length (nt_lines n) + length (nt_xfmrs n) + length (nt_slack n) + length (nt_switches n) + length (nt_loads n) + length (nt_regs n) + j)%nat /\ nth_error (nt_fuses n) j = Some f.
Proof.
  unfold parts. intros H.
  assert (SK : forall X (g : X -> part) (l : list X) r k, (forall x, g x <> PFuse f) -> nth_error (map g l ++ r) k = Some (PFuse f) -> exists j, k = (length l + j)%nat /\ nth_error r j = Some (PFuse f)).
  { intros X g l r k0 NE. revert k0. induction l as [|x l IH]; intros k0 Q; [exists k0; split; [reflexivity|exact Q]|]. destruct k0 as [|k0]; [cbn in Q; injection Q as Q; destruct (NE x Q)|].
    destruct (IH k0 Q) as (j & -> & Hj). exists j. split; [reflexivity|exact Hj]. }
  apply SK in H as (j1 & -> & H); [|discriminate]. apply SK in H as (j2 & -> & H); [|discriminate]. apply SK in H as (j3 & -> & H); [|discriminate].
  apply SK in H as (j4 & -> & H); [|discriminate]. apply SK in H as (j5 & -> & H); [|discriminate]. apply SK in H as (j6 & -> & H); [|discriminate].
  exists j6. split; [lia|]. clear SK. revert j6 H. induction (nt_fuses n) as [|x l IH]; intros j H; cbn [map app] in H.
  - exfalso. apply nth_error_In in H. apply in_map_iff in H as (c & Q & _). discriminate.
  - destruct j as [|j]; [injection H as ->; reflexivity|exact (IH j H)].
Qed.
Lemma fuses_held opt n0 n nw V f ac : net_again f n0 n -> dx_network opt n = Ok nw -> accounts_for V nw ac -> fuses_rest (dx_details n0) nw ac -> held n V.
Proof.
  intros AG E [A1 A2] FR. pose proof (elems_parts _ _ _ E) as EP.
  destruct (account_along (fun e p => elem_of n p e) (behaves V) (lawful n V) (fun i j : currents => i = j)) with (la := elements nw) (lb := parts n) (ac := ac) as (bc & B1 & B2 & _ & B4).
  - intros e p i m R B. exists i. split; [now apply (proj1 (part_same n V p e i m R))|reflexivity].
  - now apply flip.
  - exact A1.
  - exact A2.
  - exists bc. split; [exact B1|]. split; [exact B2|]. intros g I m H. apply In_nth_error in H as [k Hk].
    pose proof (map_nth_error (fun x : part * currents * list R => fst (fst x)) _ _ Hk) as Q. rewrite B1 in Q. cbn in Q. apply fuse_place in Q as (j & K & Hj).
    assert (exists e y, nth_error ac k = Some (e, I, y)) as (e & y & HA).
    { clear - B4 Hk. revert k Hk. induction B4 as [|x z l m' Q B4 IH]; intros [|k] Hk; try discriminate; [injection Hk as ->; destruct x as [[e i] y]; cbn in Q; subst; exists e, y; reflexivity|exact (IH k Hk)]. }
    pose proof (map_nth_error (fun x : elem * currents * list R => fst (fst x)) _ _ HA) as Q. cbn in Q.
    apply dx_fields in E as (LN & T & _ & X & SL & SW & GE & LO & MI & _ & _ & RE & FU & CA & _).
    assert (nth_error (nw_fuses nw) j = Some (dx_fuse g)) as HF by (rewrite FU; now apply map_nth_error).
    assert (before_fuses nw + j = k)%nat as BF.
    { unfold before_fuses. rewrite ?app_length, X, SL, SW, GE, LO, MI, RE, ?map_length. assert (length (nw_lines nw) = length (nt_lines n)) as LL by (clear - LN; induction LN; cbn; congruence). rewrite LL. cbn [length map]. lia. }
    assert (e = dx_fuse g) as ->.
    { rewrite A1 in Q. unfold elements in Q. rewrite T in Q. rewrite <- BF in Q. unfold before_fuses in Q. rewrite !app_assoc in Q. rewrite <- (app_assoc _ (nw_fuses nw)) in Q.
      rewrite nth_error_app2 in Q by (rewrite !app_length; lia). match type of Q with nth_error _ ?i = _ => replace i with j in Q by (rewrite !app_length; lia) end.
      rewrite nth_error_app1 in Q by (apply nth_error_Some; congruence). congruence. }
    unfold dx_fuse in HF, HA. destruct (FR j _ _ _ I y HF) as (i & I1 & I2); [rewrite BF; exact HA|]. exists i. split; [exact I1|].
    cbn in I2. destruct AG as (_ & _ & _ & _ & _ & _ & _ & FE & _). rewrite FE in Hj. rewrite Hj in I2. exact I2.
Qed.

(** *** the command *)
Section Command.
Variables (So : Type) (T : tools) (W : world) (nm : Z -> nat) (spsolve : So -> list (nat * nat * R) -> list R -> So * option (list R))
  (nan : R) (old : Network.table) (visit : list nat -> list nat)
  (later : nat -> list TimeSeries.tload -> option (@pf_result So)) (outputs : @pf_result So -> list TimeSeries.gout) (fuel : nat) (o : options) (so : So) (f : R).
Hypothesis AF : asks_factor o f.
Hypothesis SZ : sized spsolve.
Hypothesis NI : op_infeasibility o = false.
Variables (v : list R) (it : nat) (tx : R) (rd : Residual.residual_details) (ds : list device) (so' : So).
Hypothesis RP : reports (command So T W nm spsolve nan old visit later outputs fuel o so) (PFDone true v it tx rd ds so').
Lemma asks_none : asks_analysis o None.
Proof. right. split; [exact NI|reflexivity]. Qed.
Lemma has_network r : from_file T W (op_case o) = Ok r -> exists nw, solver_network None r = Ok nw.
Proof.
  intros E. destruct RP as [st Q]. unfold command in Q. rewrite E in Q. cbn [pbind] in Q. unfold analysis in Q. rewrite NI in Q. apply ThreePhaseBase.bind_ok in Q as (nw & Q & _). eauto.
Qed.
Lemma run_three n : from_file T W (op_case o) = Ok (Three n) -> no_series o (Three n) -> exists n', net_again f n n' /\
  (exists u V so0 es J, spsolve so0 es J = (so', Some v) /\ reads n u V /\ (lit n' V -> circuit n' V (fun x => Rabs x < 1 / 100000))) /\
  exists V, reads n (vec v) V /\ Forall (cap_left V) (nt_caps n') /\ (lit n' V -> held n' V).
Proof.
  intros FI NS. destruct (has_network _ FI) as [nw NW].
  destruct (command_success _ _ _ _ _ _ _ _ _ _ _ _ _ _ _ _ _ FI asks_none NW AF _ _ _ _ _ _ NS SZ NI RP) as (nw' & SC & _ & (u & so0 & es & J & S & H) & D).
  cbn [solver_network] in NW. destruct (net_back None f n nw nw' ds NW SC) as (n' & AG & E'). exists n'. split; [exact AG|].
  destruct (loaded_network _ _ _ _ _ _ FI (NW : solver_network None (Three n) = Ok nw)) as (OK & _ & _ & OP & T3).
  pose proof (scaled_ok _ _ _ SC OK) as OK1. set (nwd := with_devices nw' ds) in *.
  assert (RD : forall w, reads n w (voltages (assign_matrix old nwd) w)).
  { intros w. split; [reflexivity|]. intros k b Hk. assert (nth_error (nw_buses nwd) k = Some (dx_bus b)) as HB.
    { destruct AG as (_ & _ & BU & _). apply dx_fields in E' as (_ & _ & BB & _). rewrite BB, BU. now apply map_nth_error. }
    pose proof (rewired_ok _ _ (with_devices_re nw' ds) OK1 : network_ok nwd) as OKD.
    apply (voltage_at old nwd w k (dx_bus b) OKD); [|exact HB]. apply dx_fields in E' as (_ & _ & _ & _ & _ & _ & _ & _ & _ & _ & _ & _ & _ & _ & O). exact O. }
  split.
  - exists u, (voltages (assign_matrix old nwd) u), so0, es, J. split; [exact S|]. split; [apply RD|]. intros L. apply (proj2 (three_laws _ _ _ _ E')). apply H. exact (lit_energised _ _ _ _ E' L).
  - exists (voltages (assign_matrix old nwd) (vec v)). split; [apply RD|]. destruct D as [D1 D2]; [apply T3; eauto|]. split; [exact (caps_left _ _ _ _ _ _ AG E' D1)|].
    intros L. destruct (D2 (lit_energised _ _ _ _ E' L)) as (ac & A1 & _ & A3). exact (fuses_held _ _ _ _ _ _ _ AG E' A1 A3).
Qed.
Lemma run_raw q : from_file T W (op_case o) = Ok (Single q) -> exists q', onet_again f q q' /\
  exists u U so0 es J, spsolve so0 es J = (so', Some v) /\ reads_raw q u U /\ (powered q' U -> sequence q' U (fun x => Rabs x < 1 / 100000)).
Proof.
  intros FI. destruct (has_network _ FI) as [nw NW].
  destruct (command_success _ _ _ _ _ _ _ _ _ _ _ _ _ _ _ _ _ FI asks_none NW AF _ _ _ _ _ _ (or_intror (or_intror (ex_intro _ q eq_refl))) SZ NI RP) as (nw' & SC & _ & (u & so0 & es & J & S & H) & _).
  cbn [solver_network] in NW. injection NW as <-. destruct (onet_back None f q nw' ds SC) as (q' & AG & E'). exists q'. split; [exact AG|].
  destruct (loaded_raw _ _ _ _ FI) as (WA & ND & _). pose proof (again_attached _ _ _ AG WA) as WA'. rewrite <- E' in H.
  pose (V := voltages (assign_matrix old (sx_network None q')) u). change (voltages _ u) with V in H.
  assert (BQ : n_buses q' = n_buses q) by (destruct AG as (_ & B & _); exact B).
  exists u, (fun z => V (sx_ref q' z)), so0, es, J. split; [exact S|].
  assert (BN : by_number q' V (fun z => V (sx_ref q' z))).
  { intros k b Hk. destruct (ref_of q' (RawParser.ob_num b)) as (j & -> & HJ); [apply in_map, (nth_error_In _ _ Hk)|]. f_equal. f_equal. rewrite <- BQ in ND. apply (is_bus_once q' _ _ _ ND) with (1 := ex_intro _ b (conj Hk eq_refl)) (2 := HJ). }
  split.
  - intros k b Hk. rewrite <- BQ in Hk. rewrite <- (BN k b Hk). unfold V. exact (voltage_at old _ u k _ (sx_ok None q') eq_refl (raw_bus _ 0 k b Hk)).
  - intros P. rewrite <- BQ in ND. apply (proj2 (single_laws q' None V _ WA' ND eq_refl BN)). apply H. exact (powered_energised q' None V _ WA' ND eq_refl BN P).
Qed.
End Command.

(** *** exact solutions *)
Lemma linear_three So T W nm (spsolve : So -> list (nat * nat * R) -> list R -> So * option (list R)) nan old visit later outputs fuel o so f n nw :
  asks_factor o f -> op_infeasibility o = false -> from_file T W (op_case o) = Ok (Three n) -> dx_network None n = Ok nw -> no_series o (Three n) ->
  solves_regular spsolve -> op_debug o = false -> linear_file f (Three n) -> no_devices (Three n) -> nt_buses n <> [] ->
  (forall nw', scaled f nw nw' -> one_solution (equations (assign_matrix old nw')) (as_size (assign_matrix old nw'))) ->
  forall s, reports (command So T W nm spsolve nan old visit later outputs fuel o so) s ->
  exists v it rd so' n' V, s = PFDone true v it 0 rd [] so' /\ net_again f n n' /\ reads n (vec v) V /\ circuit n' V (fun x => x = 0) /\
    forall V', circuit n' V' (fun x => x = 0) -> forall b, In b (nt_buses n) -> V' (Some (tb_id b)) = V (Some (tb_id b)).
Proof.
  intros AF NI FI NW NS SV DB LF ND NB U s R.
  assert (NB' : nw_buses nw <> []) by (pose proof (dx_fields _ _ _ NW) as (_ & _ & -> & _); destruct (nt_buses n); [contradiction|discriminate]).
  assert (AN : asks_analysis o None) by (right; split; [exact NI|reflexivity]).
  destruct (command_linear So T W nm spsolve nan old visit later outputs fuel o so (Three n) nw None f FI AN NW AF NS SV DB LF ND NB') as (nw' & SC & H). cbv zeta in H.
  destruct (H (U nw' SC)) as [H1 _]. destruct (H1 s R) as (v & it & rd & so' & -> & _ & _ & _ & P & _). destruct (P NI) as [P1 P2]. clear H H1.
  destruct (net_back None f n nw nw' [] NW SC) as (n' & AG & E').
  assert (with_devices nw' [] = nw') as D by (unfold with_devices, with_capacitors; rewrite skipn_nil; cbn; destruct nw'; reflexivity). rewrite D in E'.
  destruct (loaded_network _ _ _ _ _ _ FI (NW : solver_network None (Three n) = Ok nw)) as (OK & _ & _ & OP & _). pose proof (scaled_ok _ _ _ SC OK) as OK1.
  exists v, it, rd, so', n', (voltages (assign_matrix old nw') (vec v)). split; [reflexivity|]. split; [exact AG|]. split; [|split].
  - split; [reflexivity|]. intros k b Hk. assert (nth_error (nw_buses nw') k = Some (dx_bus b)) as HB.
    { destruct AG as (_ & _ & BU & _). apply dx_fields in E' as (_ & _ & BB & _). rewrite BB, BU. now apply map_nth_error. }
    apply (voltage_at old nw' (vec v) k (dx_bus b) OK1); [|exact HB]. apply dx_fields in E' as (_ & _ & _ & _ & _ & _ & _ & _ & _ & _ & _ & _ & _ & _ & O). exact O.
  - exact (proj1 (proj1 (three_laws _ _ _ _ E')) P1).
  - intros V' C' b Hb. pose proof (P2 V' (proj2 (proj1 (three_laws _ _ _ _ E')) C') (dx_bus b)) as Q. apply Q. pose proof (dx_fields _ _ _ NW) as (_ & _ & -> & _). now apply in_map.
Qed.
