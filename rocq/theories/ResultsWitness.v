(** Concrete operating points for C49-C51, C54, C66. *)
From Coq Require Import List Bool Arith Reals Lra Lia.
From Verif Require Import Components SpecComponents SpecUnbalanced Results SpecResults ResultsProofs RatingProofs.
Import ListNotations.
Local Open Scope R_scope.

Lemma Cmod_real a : Cmod (a, 0) = Rabs a.
Proof. unfold Cmod, Cnorm2; cbn [fst snd]. rewrite Rmult_0_l, Rplus_0_r. exact (sqrt_Rsqr_abs a). Qed.
Lemma Cmod_imag a : Cmod (0, a) = Rabs a.
Proof. unfold Cmod, Cnorm2; cbn [fst snd]. rewrite Rmult_0_l, Rplus_0_l. exact (sqrt_Rsqr_abs a). Qed.

(** a constant current load does not follow the load factor *)
Definition current_load : load := {| ld_P := 0; ld_Q := 0; ld_Zr := 0; ld_Zi := 0; ld_IP := 1; ld_IQ := 0 |}.
Lemma current_load_draws f : draws (scale_load f f current_load) (2, 0) (2, 0).
Proof.
  exists C0, C0. unfold scale_load, current_load; cbn [ld_P ld_Q ld_Zr ld_Zi ld_IP ld_IQ]. split; [apply C_ext; cx; ring|]. split; [intros H; exfalso; apply H; reflexivity|]. split; [auto|]. apply C_ext; cx; ring.
Qed.

(** 1 at 0, -(M+1) at 2, 0 elsewhere *)
Definition big (M : R) (n : nat) : R := match n with 0%nat => 1 | 2%nat => - (Rabs M + 1) | _ => 0 end.
Definition inf_net : rnetwork := {| rn_gens := []; rn_slacks := []; rn_inf := Some [RL2 (0, 1)%nat (2, 3)%nat] |}.
Lemma big_infeasible M : exists v n i, rn_inf n = Some [i] /\ M < Cmod (inf_current v i) /\ M < Cmod (power (inf_voltage v i) (inf_current v i)) /\
  infeasibility_totals v n = Some (0, 0) /\ report_infeasible v n = [].
Proof.
  exists (big M), inf_net, (RL2 (0, 1)%nat (2, 3)%nat). assert (forall i, In i [RL2 (0, 1)%nat (2, 3)%nat] -> unseen (big M) i) as U.
  { intros i [<-|[]]. unfold unseen; cbn. pose proof (Rabs_pos M). lra. }
  split; [reflexivity|]. split; [|split; [|split]].
  - unfold inf_current, at2; cbn [fst snd big]. rewrite Cmod_real, Rabs_Ropp. pose proof (Rle_abs M). pose proof (Rabs_pos M). rewrite Rabs_right; lra.
  - unfold inf_current, inf_voltage, at2; cbn [fst snd big]. unfold power, Cmul, Cconj; cbn [fst snd].
    replace (1 * - (Rabs M + 1) - 0 * - 0) with (- (Rabs M + 1)) by ring. replace (1 * - 0 + 0 * - (Rabs M + 1)) with 0 by ring. rewrite Cmod_real, Rabs_Ropp. pose proof (Rle_abs M). pose proof (Rabs_pos M). rewrite Rabs_right; lra.
  - apply (totals_zero _ inf_net _ eq_refl). exact U.
  - apply (report_empty _ inf_net _ eq_refl). exact U.
Qed.
Lemma visible_infeasible : infeasibility_totals (fun n => if Nat.eqb n 3 then 0 else 1) inf_net = Some (1, 0).
Proof.
  unfold infeasibility_totals, inf_net; cbn [rn_inf fold_left fst snd inf_res gr_P gr_Q Nat.eqb]. unfold clamp.
  destruct (Rlt_dec (1 * 1) (1 / 100000)) as [L|L]; [exfalso; lra|]. destruct (Rlt_dec (1 * 0) (1 / 100000)) as [K|K]; [|exfalso; lra]. repeat f_equal; ring.
Qed.

(** slack at angle 0 with reactive current *)
Lemma slack_q_lost : exists v s, gr_Q (slack_res v s) = 0 /\ snd (power (at2 v (rs_bus s)) (at2 v (rs_I s))) = 5.
Proof.
  exists (fun n => match n with 0%nat => 1 | 3%nat => -5 | _ => 0 end), {| rs_bus := (0, 1)%nat; rs_I := (2, 3)%nat |}. unfold slack_res, at2; cbn. split; ring.
Qed.
Definition xf0 : rxf := {| rx_pp := (Some 0, Some 1)%nat; rx_pn := (None, None); rx_I := (Some 2, Some 3)%nat |}.
Definition reactive (M : R) (n : nat) : R := match n with 0%nat => 1 | 3%nat => - (Rabs M + 1) | _ => 0 end.
Definition xf_equip : requip := {| rq_lines := []; rq_xfmrs := [(TXf xf0, Some 1)]; rq_buses := [((0, 1)%nat, 1)] |}.
Lemma bus_fine v vn i : Cmod (at2 v i) = vn -> vn <> 0 -> bus_over v (i, vn) = Some false.
Proof.
  intros E H. cbn [bus_over]. destruct (Req_EM_T vn 0); [contradiction|]. change (modulus (v (fst i), v (snd i))) with (Cmod (at2 v i)). rewrite E.
  rewrite Rminus_diag_eq, Rabs_R0 by reflexivity. replace (0 / vn) with 0 by (field; auto). destruct (Rle_dec (5 / 100) 0); [exfalso; lra|auto].
Qed.
Lemma overload_unseen M : exists v q x, In (TXf x, Some 1) (rq_xfmrs q) /\ violates v q = Some false /\ M < Cmod (xf_true v x).
Proof.
  exists (reactive M), xf_equip, xf0. split; [left; reflexivity|]. split.
  - unfold violates, xf_equip; cbn [rq_lines rq_xfmrs rq_buses any fold_right existsb fst snd]. rewrite bus_fine; [|unfold at2; cbn [fst snd reactive]; rewrite Cmod_real, Rabs_R1; auto|lra].
    rewrite quadrature_unseen; [reflexivity| |reflexivity|lra]. unfold real, Csub, val2; cbn. ring.
  - unfold xf_true, val2, Csub, power, Cmul, Cconj; cbn [rx_pp rx_pn rx_I xf0 val fst snd reactive].
    replace ((1 - 0) * 0 - (0 - 0) * - - (Rabs M + 1)) with 0 by ring. replace ((1 - 0) * - - (Rabs M + 1) + (0 - 0) * 0) with (Rabs M + 1) by ring. rewrite Cmod_imag. pose proof (Rle_abs M). pose proof (Rabs_pos M). rewrite Rabs_right; lra.
Qed.
(** a real current is seen *)
Lemma overload_seen : exists v, violates v xf_equip = Some true.
Proof.
  exists (fun n => match n with 0%nat => 1 | 2%nat => 2 | _ => 0 end). unfold violates, xf_equip; cbn [rq_lines rq_xfmrs rq_buses any fold_right existsb fst snd].
  rewrite bus_fine; [|unfold at2; cbn [fst snd]; rewrite Cmod_real, Rabs_R1; auto|lra]. cbn [orb]. f_equal. rewrite orb_false_r, orb_false_r. apply above_iff. exists 1. split; auto.
  rewrite modulus_Cmod. unfold xf_power, xf_P, xf_Q; cbn [val rx_pp rx_pn rx_I xf0 fst snd]. replace ((1 - 0) * 2) with 2 by ring. replace ((0 - 0) * 0) with 0 by ring. rewrite Cmod_real, Rabs_right; lra.
Qed.

(** two coupled phases, no voltage drop along the first *)
Definition coupled : rline := {| rl_ends := [((0, 1), (2, 3)); ((4, 5), (6, 7))]%nat; rl_Y := fun i j => if Nat.eqb i j then (2, 0) else (-1, 0); rl_amp := [Some 1; None] |}.
Definition drop (M : R) (n : nat) : R := match n with 4%nat => Rabs M + 1 | _ => 0 end.
Lemma coupled_unseen M : exists v l q, In l (rq_lines q) /\ nth_error (rl_amp l) 0 = Some (Some 1) /\ violates v q = Some false /\
  M < Cmod (I_series (length (rl_ends l)) (rl_Y l) (end_volt v fst l) (end_volt v snd l) 0 0).
Proof.
  exists (drop M), coupled, {| rq_lines := [coupled]; rq_xfmrs := []; rq_buses := [] |}. split; [left; reflexivity|]. split; [reflexivity|]. split.
  - unfold violates; cbn [rq_lines rq_xfmrs rq_buses any fold_right existsb coupled rl_ends line_over nth_error rl_amp option_map above orb].
    assert (modulus (line_I (drop M) (0, 1)%nat (2, 3)%nat (fst (rl_Y coupled 0 0)) (snd (rl_Y coupled 0 0))) = 0) as ->.
    { rewrite line_I_mul, modulus_Cmod. unfold at2, rl_Y, coupled; cbn [fst snd drop Nat.eqb]. unfold Csub, Cmul; cbn [fst snd].
      replace (2 * (0 - 0) - 0 * (0 - 0)) with 0 by ring. replace (2 * (0 - 0) + 0 * (0 - 0)) with 0 by ring. rewrite Cmod_real, Rabs_R0. reflexivity. }
    destruct (Rlt_dec 1 0) as [L|L]; [exfalso; lra|]. reflexivity.
  - rewrite series_split by (cbn; lia). cbn [length coupled rl_ends rl_Y Nat.eqb]. unfold Csum, end_volt, at2. cbn [seq fold_right Nat.eqb nth rl_ends fst snd drop].
    match goal with |- M < Cmod ?z => replace z with (- (Rabs M + 1), 0) by (apply C_ext; cx; cbn [nth coupled rl_ends fst snd drop]; ring) end.
    rewrite Cmod_real, Rabs_Ropp. pose proof (Rle_abs M). pose proof (Rabs_pos M). rewrite Rabs_right; lra.
Qed.
