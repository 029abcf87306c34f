(** C56-C58, C69-C76: reading positive sequence cases from RAW tables *)
From Coq Require Import Reals ZArith List Bool Lra.
From Verif Require Import Components RawTransformers RawParser SpecRaw SpecRawXfmr RawBaseProofs RawTableProofs RawGenProofs RawProofs RawXfmrProofs RawConsProofs RawWitness.
Import ListNotations.
Local Open Scope R_scope.

(** ** C74: which cases are accepted, and as what *)
Theorem C74_accepted_exactly : forall c, NoDup (map b_num (rc_buses c)) -> ~ exists_online c (-1) ->
  forall net, parse_raw c = Ok net <-> raw_ok c /\ raw_net c net.
Proof. exact raw_exact. Qed.
Print Assumptions C74_accepted_exactly.
Theorem C74_every_acceptable_case : forall c, NoDup (map b_num (rc_buses c)) -> ~ exists_online c (-1) -> raw_ok c -> exists net, parse_raw c = Ok net.
Proof. exact raw_total. Qed.
Print Assumptions C74_every_acceptable_case.
Theorem C74_one_network : forall c, NoDup (map b_num (rc_buses c)) -> forall n n', raw_net c n -> raw_net c n' -> n = n'.
Proof. exact raw_net_fun. Qed.
Print Assumptions C74_one_network.
Example C74_example : NoDup (map b_num (rc_buses wcase)) /\ ~ exists_online wcase (-1) /\ raw_ok wcase /\ exists net, parse_raw wcase = Ok net.
Proof. exact (conj (wuni _ _ _) (conj (wnom _ _ _) (conj wcase_ok wcase_parses))). Qed.

(** ** C56 *)
(** The star impedances reproduce the three pairwise impedances, whatever units the record uses: ohms
    seen at any common voltage, divided by the base impedance at that voltage. *)
Theorem C56_star_sums : forall c sb t d U, 0 < sb -> U <> 0 -> three_winding_data (rc_buses c) sb t = Ok d ->
  forall cz r12 x12 r23 x23 r31 x31, cz = h_cz t ->
  ohms cz (h_z12 t) U sb r12 x12 -> ohms cz (h_z23 t) U sb r23 x23 -> ohms cz (h_z31 t) U sb r31 x31 ->
  let pu v := v / (U * U / sb) in
  (fst (s_z1 d) + fst (s_z2 d) = pu r12 /\ snd (s_z1 d) + snd (s_z2 d) = pu x12) /\
  (fst (s_z2 d) + fst (s_z3 d) = pu r23 /\ snd (s_z2 d) + snd (s_z3 d) = pu x23) /\
  (fst (s_z3 d) + fst (s_z1 d) = pu r31 /\ snd (s_z3 d) + snd (s_z1 d) = pu x31).
Proof. exact star_sums. Qed.
Print Assumptions C56_star_sums.
(** The ratio of each winding is the stated one, limited to the range of the tap changer. *)
Theorem C56_star_ratios : forall c, NoDup (map b_num (rc_buses c)) -> forall sb t d bi bj bk, three_winding_data (rc_buses c) sb t = Ok d ->
  bus_at c (h_i t) bi -> bus_at c (h_j t) bj -> bus_at c (h_k t) bk -> b_baskv bi <> 0 -> b_baskv bj <> 0 -> b_baskv bk <> 0 ->
  star_ratio (h_cw t) (h_w1 t) (b_baskv bi) (s_tr1 d) /\ star_ratio (h_cw t) (h_w2 t) (b_baskv bj) (s_tr2 d) /\
  star_ratio (h_cw t) (h_w3 t) (b_baskv bk) (s_tr3 d).
Proof. exact star_ratios. Qed.
Print Assumptions C56_star_ratios.
(** No case with a three-winding transformer that has a winding in service is accepted. *)
Theorem C56_never_accepted : forall c, NoDup (map b_num (rc_buses c)) -> ~ exists_online c (-1) ->
  forall t net, In t (rc_x3 c) -> h_stat t <> 0%Z -> live1 c t \/ live2 c t \/ live3 c t -> parse_raw c <> Ok net.
Proof. exact three_winding_refused. Qed.
Print Assumptions C56_never_accepted.
Example C56_example : forall net, parse_raw (wcase_of wgens [] [wx3 1]) <> Ok net.
Proof.
  intros net. apply (three_winding_refused _ (wuni _ _ _) (wnom _ _ _) (wx3 1)); [cbn; auto|discriminate|].
  left. split; [cbn; discriminate|split; [nobus|left; nobus]].
Qed.
Example C56_star_example : exists d, three_winding_data wbuses 100 (wx3 1) = Ok d.
Proof.
  unfold three_winding_data. cbn [wx3 h_i h_j h_k bus_data find wbuses wbus b_num Z.eqb Pos.eqb pbind].
  unfold ratings3. rewrite !pdiv_total by lra. cbn [pbind]. eexists. reflexivity.
Qed.

(** ** C57 *)
(** Deleting a machine that is out of service or sits on a bus that is neither slack nor PV changes nothing. *)
Theorem C57_silent_machines : forall c, NoDup (map b_num (rc_buses c)) -> ~ exists_online c (-1) ->
  forall l1 g l2 net, rc_gens c = l1 ++ g :: l2 -> ~ slack_on c g -> ~ pv_on c g ->
  parse_raw c = Ok net -> parse_raw (case_with_gens c (l1 ++ l2)) = Ok net.
Proof. exact silent_machine. Qed.
Print Assumptions C57_silent_machines.
Example C57_silent_example : exists net, parse_raw wcase = Ok net /\ parse_raw (case_with_gens wcase [wg1; wg2; wg3; wg4]) = Ok net.
Proof.
  destruct wcase_parses as (net & H). exists net. split; [exact H|].
  apply (silent_machine wcase (wuni _ _ _) (wnom _ _ _) [wg1; wg2; wg3; wg4] wg5 [] net eq_refl); [apply w_silent5|apply w_silent5|exact H].
Qed.
(** Two regulating machines on a bus: the case is refused, with an AttributeError at the second. *)
Theorem C57_second_machine_refused : forall c, NoDup (map b_num (rc_buses c)) -> ~ exists_online c (-1) ->
  forall l1 g l2 h l3, rc_gens c = l1 ++ g :: l2 ++ h :: l3 -> regulates c g -> regulates c h -> g_bus g = g_bus h ->
  forall net, parse_raw c <> Ok net.
Proof. exact two_regulating. Qed.
Print Assumptions C57_second_machine_refused.
Theorem C57_second_machine_raises : forall c, NoDup (map b_num (rc_buses c)) ->
  forall l1 g l2 h l3, In (rc_rev c) [30; 32; 33; 34]%Z -> rc_gens c = l1 ++ g :: l2 ++ h :: l3 ->
  regulates c g -> regulates c h -> g_bus g = g_bus h ->
  Forall (wind_ok c) (l1 ++ g :: l2 ++ [h]) -> slack_base_ok (case_with_gens c (l1 ++ g :: l2)) ->
  (exists Rs, collects (regulates c) (fun g n => n = g_bus g) (l1 ++ g :: l2) Rs /\ NoDup Rs) ->
  parse_raw c = Err AttributeError.
Proof. exact second_machine_raises. Qed.
Print Assumptions C57_second_machine_raises.
Example C57_example : parse_raw (wcase_of [wg1; wg3; wgen 2 7 0 20 (-20) 1] [] []) = Err AttributeError.
Proof.
  apply (second_machine_raises _ (wuni _ _ _) [wg1] wg3 [] (wgen 2 7 0 20 (-20) 1) []).
  - cbn; auto.
  - reflexivity.
  - apply w_regulates; lra.
  - apply w_regulates; lra.
  - reflexivity.
  - each ltac:(apply w_wind).
  - intros l1 g l2 h _ _ _ _ _. cbn. lra.
  - exists [2%Z]. split; [|repeat constructor; intros []].
    apply col_skip; [intros (P & _); revert P; apply w_not_pv1; auto|]. apply col_take; [apply w_regulates; lra|auto|constructor].
Qed.
(** So does a continuous switched shunt on the bus of a regulating machine. *)
Theorem C57_machine_and_shunt_refused : forall c, NoDup (map b_num (rc_buses c)) -> ~ exists_online c (-1) ->
  forall g s, In g (rc_gens c) -> regulates c g -> In s (rc_ss c) -> continuous c s -> ss_bus s = g_bus g ->
  forall net, parse_raw c <> Ok net.
Proof. exact machine_and_shunt. Qed.
Print Assumptions C57_machine_and_shunt_refused.

(** ** C58 *)
(** The limits are the extreme totals over the blocks before the first empty one. *)
Theorem C58_bounds : forall l1 l2 lo hi, Forall (fun s : Z * R => (0 <= fst s)%Z) l1 -> Forall (fun s : Z * R => IZR (fst s) * snd s <> 0) l1 ->
  (l2 = [] \/ exists n b l3, l2 = (n, b) :: l3 /\ IZR n * b = 0) ->
  compute_bmin_bmax (l1 ++ l2) = (lo, hi) -> (forall t, reach l1 t -> lo <= t <= hi) /\ reach l1 lo /\ reach l1 hi.
Proof. exact bmin_bmax_bound. Qed.
Print Assumptions C58_bounds.
Theorem C58_later_blocks_ignored : forall l1 n b l2, IZR n * b = 0 -> compute_bmin_bmax (l1 ++ (n, b) :: l2) = compute_bmin_bmax l1.
Proof. exact blocks_empty. Qed.
Print Assumptions C58_later_blocks_ignored.
(** the shunt of the example case reaches 38 with its fourth block although its limits are -3 and 10 *)
Example C58_example : compute_bmin_bmax (ss_steps wsvc) = (-3, 10) /\ reach (ss_steps wsvc) 38.
Proof.
  split.
  - change (ss_steps wsvc) with ([(2%Z, 5); (1%Z, -3)] ++ (0%Z, 0) :: [(4%Z, 7)]). rewrite C58_later_blocks_ignored by (cbn; ring).
    unfold compute_bmin_bmax. cbn [map bmin_bmax_loop fst snd]. rewrite (rltb_t 0 (2 * 5)) by lra. cbn [bmin_bmax_loop].
    rewrite (rltb_f 0 (1 * -3)), (rltb_t (1 * -3) 0) by lra. f_equal; ring.
  - replace 38 with (IZR 2 * 5 + (IZR 0 * -3 + (IZR 0 * 0 + (IZR 4 * 7 + 0)))) by ring.
    repeat (constructor; [split; discriminate|]). constructor.
Qed.

(** ** C69: unit conventions of transformer records *)
(** A record gives the ratio and the impedance of the transformer it describes, in whichever units. *)
Theorem C69_units : forall c, NoDup (map b_num (rc_buses c)) -> forall t bi bj p, bus_at c (t_i t) bi -> bus_at c (t_j t) bj -> 0 < rc_sbase c ->
  b_ide bi <> 4%Z -> b_ide bj <> 4%Z -> t_stat t <> 0%Z ->
  b_baskv bi <> 0 -> b_baskv bj <> 0 -> p_uj p <> 0 -> t_cm t <> 2%Z -> taps_usable t -> describes (rc_sbase c) bi bj t p ->
  p_R p <> 0 \/ p_X p <> 0 ->
  exists x, two_winding (rc_buses c) (rc_sbase c) t = Ok (Some x) /\ x_from x = t_i t /\ x_to x = t_j t /\
    xf_tr (x_dev x) = (p_ui p / b_baskv bi) / (p_uj p / b_baskv bj) /\ xf_ang (x_dev x) = w_ang (t_w1 t) * PI / 180 /\
    (let r := p_R p / (b_baskv bj * b_baskv bj / rc_sbase c) in
     let z := p_X p / (b_baskv bj * b_baskv bj / rc_sbase c) in
     xf_G (x_dev x) * r - xf_B (x_dev x) * z = 1 /\ xf_G (x_dev x) * z + xf_B (x_dev x) * r = 0).
Proof. exact units_element. Qed.
Print Assumptions C69_units.
(** one transformer, two records *)
Example C69_example : describes 100 (wbus 2 2 110) (wbus 3 1 20) wx2 wphys /\ describes 100 (wbus 2 2 110) (wbus 3 1 20) wx2' wphys /\ taps_usable wx2.
Proof. exact (conj w_describes (conj w_describes' w_taps)). Qed.
Theorem C69_magnetising : forall c t d, rc_sbase c <> 0 -> two_winding_data (rc_buses c) (rc_sbase c) t = Ok d ->
  exciting t (rc_sbase c) (d_g d) (d_b d).
Proof. exact excitation. Qed.
Print Assumptions C69_magnetising.

(** ** C70: loads *)
(** Active power of the loads at a bus: in-service loads minus the machines that cannot regulate. *)
Theorem C70_power : forall c, NoDup (map b_num (rc_buses c)) -> ~ exists_online c (-1) ->
  forall net ls gs n, parse_raw c = Ok net -> chosen (load_on c) (rc_loads c) ls -> chosen (fixed_q c) (rc_gens c) gs ->
  sum_at fst (fun l => ld_P (snd l)) n (n_loads net) = (sum_at rl_bus rl_pl n ls - sum_at g_bus g_pg n gs) / 100.
Proof. exact load_power. Qed.
Print Assumptions C70_power.
(** Constant current parts are passed on without conversion to per unit; constant admittance parts are never read. *)
Theorem C70_current_not_scaled : forall c, NoDup (map b_num (rc_buses c)) -> ~ exists_online c (-1) ->
  forall net ls n, parse_raw c = Ok net -> chosen (load_on c) (rc_loads c) ls ->
  sum_at fst (fun l => ld_IP (snd l)) n (n_loads net) = sum_at rl_bus rl_ip n ls /\
  sum_at fst (fun l => ld_IQ (snd l)) n (n_loads net) = sum_at rl_bus rl_iq n ls.
Proof. exact load_current. Qed.
Print Assumptions C70_current_not_scaled.
Theorem C70_admittance_ignored : forall c ls, Forall2 same_but_admittance (rc_loads c) ls -> parse_raw (case_with_loads c ls) = parse_raw c.
Proof. exact admittance_ignored. Qed.
Print Assumptions C70_admittance_ignored.
Example C70_example : forall net, parse_raw wcase = Ok net ->
  sum_at fst (fun l => ld_P (snd l)) 3 (n_loads net) = 35 / 100 /\ sum_at fst (fun l => ld_P (snd l)) 2 (n_loads net) = - (10 / 100) /\
  sum_at fst (fun l => ld_IP (snd l)) 3 (n_loads net) = 6.
Proof.
  intros net H. rewrite !(C70_power _ (wuni _ _ _) (wnom _ _ _) net _ _ _ H w_on w_fixed_only).
  rewrite (proj1 (C70_current_not_scaled _ (wuni _ _ _) (wnom _ _ _) net _ 3 H w_on)). cbn. repeat split; lra.
Qed.

(** ** C71: shunts *)
Theorem C71_shunts : forall c, NoDup (map b_num (rc_buses c)) -> ~ exists_online c (-1) ->
  forall net ss fs n, parse_raw c = Ok net -> chosen (stepped c) (rc_ss c) ss -> chosen (fs_on c) (rc_fs c) fs ->
  sum_at os_bus os_B n (n_shunts net) = (sum_at ss_bus ss_binit n ss + sum_at fs_bus fs_bl n fs) / 100 /\
  sum_at os_bus os_G n (n_shunts net) = sum_at fs_bus fs_gl n fs / 100.
Proof. exact shunt_total. Qed.
Print Assumptions C71_shunts.
Example C71_example : forall net, parse_raw wcase = Ok net ->
  sum_at os_bus os_B 3 (n_shunts net) = 10 / 100 /\ sum_at os_bus os_B 2 (n_shunts net) = -2 / 100 /\ sum_at os_bus os_G 2 (n_shunts net) = 1 / 100.
Proof.
  intros net H. destruct (C71_shunts _ (wuni _ _ _) (wnom _ _ _) net _ _ 3 H w_steps w_fixed_shunts) as (-> & _).
  destruct (C71_shunts _ (wuni _ _ _) (wnom _ _ _) net _ _ 2 H w_steps w_fixed_shunts) as (-> & ->). cbn. repeat split; lra.
Qed.

(** ** C72: slack machines *)
(** One slack element per slack bus, with the total power of its machines if the system base is 100 MVA ... *)
Theorem C72_one_per_bus : forall c, NoDup (map b_num (rc_buses c)) -> ~ exists_online c (-1) ->
  forall net, parse_raw c = Ok net -> NoDup (map sl_bus (n_slack net)).
Proof. exact slack_once. Qed.
Print Assumptions C72_one_per_bus.
Theorem C72_power_base_100 : forall c, NoDup (map b_num (rc_buses c)) -> ~ exists_online c (-1) ->
  forall net on s, parse_raw c = Ok net -> chosen (slack_on c) (rc_gens c) on -> In s (n_slack net) ->
  rc_sbase c = 100 -> sl_pinit s = sum_pg (sl_bus s) on / 100.
Proof. exact slack_power. Qed.
Print Assumptions C72_power_base_100.
(** ... and not otherwise: only the machines after the first are put on the system base. *)
Theorem C72_mixed_bases : forall sb, sb <> 0 -> exists net s, parse_raw (tcase sb) = Ok net /\ In s (n_slack net) /\
  sl_pinit s = 50 / 100 + 20 / sb.
Proof. exact t_mixed. Qed.
Print Assumptions C72_mixed_bases.
Example C72_example : chosen (slack_on (tcase 100)) (rc_gens (tcase 100)) [wg1; wg2] /\ sum_pg 1 [wg1; wg2] = 70.
Proof. split; [apply t_slacks|cbn; ring]. Qed.

(** ** C73: lines *)
Theorem C73_admittance : forall c, NoDup (map b_num (rc_buses c)) -> ~ exists_online c (-1) ->
  forall net f t ln, parse_raw c = Ok net -> In (f, t, ln) (n_lines net) ->
  exists b, In b (rc_branches c) /\ branch_on c b /\ br_i b = f /\ br_j b = t /\
    ln_G ln * br_r b - ln_B ln * br_x b = 1 /\ ln_G ln * br_x b + ln_B ln * br_r b = 0 /\ ln_Bsh ln = br_b b / 2.
Proof. exact line_admittance. Qed.
Print Assumptions C73_admittance.
Theorem C73_line_shunt_refused : forall c, NoDup (map b_num (rc_buses c)) -> ~ exists_online c (-1) ->
  forall b net, In b (rc_branches c) -> branch_on c b -> br_gi b <> 0 \/ br_bi b <> 0 \/ br_gj b <> 0 \/ br_bj b <> 0 -> parse_raw c <> Ok net.
Proof. exact line_shunt_refused. Qed.
Print Assumptions C73_line_shunt_refused.
Theorem C73_zero_impedance_refused : forall c, NoDup (map b_num (rc_buses c)) -> ~ exists_online c (-1) ->
  forall b net, In b (rc_branches c) -> branch_on c b -> br_r b = 0 -> br_x b = 0 -> parse_raw c <> Ok net.
Proof. exact zero_impedance_refused. Qed.
Print Assumptions C73_zero_impedance_refused.
Example C73_example : branch_on wcase (wbranch 1 2) /\ ~ branch_on wcase (wbranch 2 4).
Proof.
  split; [split; [nobus|split; [nobus|auto]]|]. intros (_ & N & _). apply N. apply (w_type _ _ _ _ _ (wbus 4 4 20)); cbn; auto 6.
Qed.

(** ** C75: elements and buses *)
Theorem C75_attached : forall c, NoDup (map b_num (rc_buses c)) -> ~ exists_online c (-1) -> forall net, parse_raw c = Ok net -> well_attached net.
Proof. exact well_attached_raw. Qed.
Print Assumptions C75_attached.
Example C75_example : exists net, parse_raw wcase = Ok net /\ well_attached net /\ attached net 3 /\ ~ attached net 4.
Proof.
  destruct wcase_parses as (net & H). exists net. split; [auto|]. split; [apply (C75_attached _ (wuni _ _ _) (wnom _ _ _) _ H)|].
  apply (raw_exact _ (wuni _ _ _) (wnom _ _ _)) in H as (_ & [N1 _ _ _ _ _ _]). split.
  - destruct (collects_all _ _ _ _ (wbus 3 1 20) N1) as (o & Ho & (E & _)); [cbn; auto|discriminate|]. unfold attached. change 3%Z with (b_num (wbus 3 1 20)). rewrite <- E. apply in_map. auto.
  - intros A. apply in_map_iff in A as (o & E & Ho). destruct (collects_in _ _ _ _ _ N1 Ho) as (b & Hb & N & (E' & _)).
    cbn in Hb. destruct Hb as [<-|[<-|[<-|[<-|[]]]]]; cbn in E', N; congruence.
Qed.

(** ** C76: voltage sources of a bus *)
Theorem C76_one_regulator_per_bus : forall c, NoDup (map b_num (rc_buses c)) -> ~ exists_online c (-1) ->
  forall net, parse_raw c = Ok net -> NoDup (map og_bus (n_gens net)).
Proof. exact regulated_once. Qed.
Print Assumptions C76_one_regulator_per_bus.
(** but a slack bus can get a second one *)
Theorem C76_two_sources_on_slack : exists net s g, parse_raw scase = Ok net /\ In s (n_slack net) /\ In g (n_gens net) /\ sl_bus s = og_bus g /\ sl_vset s <> og_vset g.
Proof. exact s_two_sources. Qed.
Print Assumptions C76_two_sources_on_slack.
