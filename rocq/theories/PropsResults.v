(** C49-C51, C54, C66: load factor, reported powers, infeasibility totals and the rating check. *)
From Coq Require Import List Bool Arith Reals.
From Verif Require Import Collect SpecSystem Components SpecComponents SpecUnbalanced Results SpecResults ResultsProofs RatingProofs ResultsWitness.
Import ListNotations.
Local Open Scope R_scope.

(** C49 *)
Theorem C49_compose f1 g1 f2 g2 ls : modify_load_factor f1 g1 (modify_load_factor f2 g2 ls) = modify_load_factor (f1 * f2) (g1 * g2) ls.
Proof. exact (factor_compose f1 g1 f2 g2 ls). Qed.
Print Assumptions C49_compose.
Theorem C49_totals f g ls : total ld_P (modify_load_factor f g ls) = f * total ld_P ls /\ total ld_Q (modify_load_factor f g ls) = g * total ld_Q ls.
Proof. exact (factor_totals f g ls). Qed.
Print Assumptions C49_totals.
(** the drawn power changes by the constant power part only *)
Theorem C49_demand f l V S S' : draws l V S -> draws (scale_load f f l) V S' -> S' = Cadd S (Cscale (f - 1) (ld_P l, ld_Q l)).
Proof. exact (scaled_demand f l V S S'). Qed.
Print Assumptions C49_demand.
Theorem C49_scales_iff f l V S S' : V <> C0 -> draws l V S -> draws (scale_load f f l) V S' -> (S' = Cscale f S <-> f = 1 \/ draws (rest_of l) V C0).
Proof. exact (scales_iff f l V S S'). Qed.
Print Assumptions C49_scales_iff.
Example C49_example : draws current_load (2, 0) (2, 0) /\ draws (scale_load 3 3 current_load) (2, 0) (2, 0) /\ (2, 0) <> Cscale 3 (2, 0).
Proof.
  split; [|split; [exact (current_load_draws 3)|]].
  - assert (scale_load 1 1 current_load = current_load) as <- by (unfold scale_load, current_load; cbn; f_equal; ring). exact (current_load_draws 1).
  - unfold Cscale; cbn. intros E. injection E as E. apply (Rlt_irrefl 2). rewrite E at 2. rewrite <- (Rmult_1_l 2) at 1. apply Rmult_lt_compat_r; [exact Rlt_0_2|]. replace 3 with (1 + 2) by ring. rewrite <- (Rplus_0_r 1) at 1. apply Rplus_lt_compat_l. exact Rlt_0_2.
Qed.
(** without --load_factor the command line tool turns every constant power load into a generator of the same size *)
Theorem C49_default_negates ls : cli_loads None (cli_loads None ls) = ls /\
  total ld_P (cli_loads None ls) = - total ld_P ls /\ total ld_Q (cli_loads None ls) = - total ld_Q ls.
Proof. exact (default_negates ls). Qed.
Print Assumptions C49_default_negates.
Theorem C49_default_generates l V S : V <> C0 -> draws (rest_of l) V C0 -> draws l V S -> draws (scale_load (-1) (-1) l) V (Copp S).
Proof. exact (default_generates l V S). Qed.
Print Assumptions C49_default_generates.

(** C50 *)
Theorem C50_slack_iff v s : (gr_P (slack_res v s), gr_Q (slack_res v s)) = power (at2 v (rs_bus s)) (at2 v (rs_I s)) <->
  at2 v (rs_bus s) = C0 \/ at2 v (rs_I s) = C0 \/ (real (at2 v (rs_bus s)) /\ real (at2 v (rs_I s))).
Proof. exact (slack_iff v s). Qed.
Print Assumptions C50_slack_iff.
Theorem C50_slack_angle_zero v s : real (at2 v (rs_bus s)) ->
  gr_Q (slack_res v s) = 0 /\ gr_P (slack_res v s) = fst (power (at2 v (rs_bus s)) (at2 v (rs_I s))).
Proof. exact (slack_zero_q v s). Qed.
Print Assumptions C50_slack_angle_zero.
Example C50_slack_example : exists v s, gr_Q (slack_res v s) = 0 /\ snd (power (at2 v (rs_bus s)) (at2 v (rs_I s))) = 5.
Proof. exact slack_q_lost. Qed.
(** the numbers of a generator are exactly the power it takes from its bus, i.e. minus what it delivers *)
Theorem C50_generator_drawn : forall P Vset b n opt v tx, exists I,
  (volt v b <> C0 -> let r := gen_res v {| rg_P := - P; rg_Q := n |} in (gr_P r, gr_Q r) = power (volt v b) I) /\
  forall r, free_row opt (bus_unknowns b ++ [Some n]) r -> r <> (if opt then n + 1 else n)%nat ->
    F (present (fst (gen_stampers P Vset b n opt))) v tx r = balance opt b I r.
Proof. exact gen_reported. Qed.
Print Assumptions C50_generator_drawn.
Example C50_generator_example : let r := gen_res (fun _ => 3) {| rg_P := - 2; rg_Q := 4 |} in gr_P r = -2 /\ gr_Q r = 3.
Proof. split; reflexivity. Qed.
Theorem C50_transformer_iff v x : (xf_P v x, xf_Q v x) = xf_true v x <->
  let V := Csub (val2 v (rx_pp x)) (val2 v (rx_pn x)) in let I := val2 v (rx_I x) in V = C0 \/ I = C0 \/ (real V /\ real I).
Proof. exact (xf_iff v x). Qed.
Print Assumptions C50_transformer_iff.
(** the power drawn by the two secondaries, which is the power through the primary where the winding equations hold *)
Theorem C50_center_tap v c : (rct_P v c, rct_Q v c) = Cadd (power (at2 v (rc_V1 c)) (at2 v (rc_I1 c))) (power (at2 v (rc_V2 c)) (at2 v (rc_I2 c))).
Proof. exact (ct_exact v c). Qed.
Print Assumptions C50_center_tap.
Theorem C50_center_tap_primary v c k Vp : at2 v (rc_V1 c) = Cscale k Vp -> at2 v (rc_V2 c) = Copp (Cscale k Vp) ->
  power Vp (Cscale k (Csub (at2 v (rc_I1 c)) (at2 v (rc_I2 c)))) = (rct_P v c, rct_Q v c).
Proof. exact (ct_primary v c k Vp). Qed.
Print Assumptions C50_center_tap_primary.

(** C51 *)
Theorem C51_nonnegative v n P Q : infeasibility_totals v n = Some (P, Q) -> 0 <= P /\ 0 <= Q.
Proof. exact (totals_nonneg v n P Q). Qed.
Print Assumptions C51_nonnegative.
Example C51_example : infeasibility_totals (fun n => if Nat.eqb n 3 then 0 else 1) inf_net = Some (1, 0).
Proof. exact visible_infeasible. Qed.
Theorem C51_zero_iff v n l : rn_inf n = Some l -> (infeasibility_totals v n = Some (0, 0) <-> forall i, In i l -> unseen v i).
Proof. exact (totals_zero v n l). Qed.
Print Assumptions C51_zero_iff.
Theorem C51_report_empty_iff v n l : rn_inf n = Some l -> (report_infeasible v n = [] <-> forall i, In i l -> unseen v i).
Proof. exact (report_empty v n l). Qed.
Print Assumptions C51_report_empty_iff.
(** the two totals the program shows agree *)
Theorem C51_displayed v n l : rn_inf n = Some l -> infeasibility_totals v n = Some (displayed_totals v n).
Proof. exact (display_total v n l). Qed.
Print Assumptions C51_displayed.
Theorem C51_hides_any_size M : exists v n i, rn_inf n = Some [i] /\ M < Cmod (inf_current v i) /\ M < Cmod (power (inf_voltage v i) (inf_current v i)) /\
  infeasibility_totals v n = Some (0, 0) /\ report_infeasible v n = [].
Proof. exact (big_infeasible M). Qed.
Print Assumptions C51_hides_any_size.

(** C54 *)
Theorem C54_flag_iff v q b : violates v q = Some b -> (b = true <-> line_bad v q \/ xf_bad v q \/ bus_bad v q).
Proof. exact (violates_some v q b). Qed.
Print Assumptions C54_flag_iff.
Theorem C54_raises_iff v q : violates v q = None <->
  (exists l, In l (rq_lines q) /\ (length (rl_amp l) < length (rl_ends l))%nat) \/ (exists b, In b (rq_buses q) /\ snd b = 0).
Proof. exact (violates_none v q). Qed.
Print Assumptions C54_raises_iff.
Theorem C54_voltage_band v q i vn : violates v q = Some false -> In (i, vn) (rq_buses q) -> 0 < vn -> 95 / 100 * vn < Cmod (at2 v i) < 105 / 100 * vn.
Proof. exact (voltage_band v q i vn). Qed.
Print Assumptions C54_voltage_band.
Theorem C54_center_tap_rated v q c r : violates v q = Some false -> In (TCt c, Some r) (rq_xfmrs q) ->
  Cmod (Cadd (power (at2 v (rc_V1 c)) (at2 v (rc_I1 c))) (power (at2 v (rc_V2 c)) (at2 v (rc_I2 c)))) <= r.
Proof. exact (center_tap_rated v q c r). Qed.
Print Assumptions C54_center_tap_rated.
Theorem C54_quadrature_unseen v x r : real (Csub (val2 v (rx_pp x)) (val2 v (rx_pn x))) -> fst (val2 v (rx_I x)) = 0 -> 0 <= r ->
  above (modulus (xf_power v (TXf x))) (Some r) = false.
Proof. exact (quadrature_unseen v x r). Qed.
Print Assumptions C54_quadrature_unseen.
Theorem C54_any_overload_unseen M : exists v q x, In (TXf x, Some 1) (rq_xfmrs q) /\ violates v q = Some false /\ M < Cmod (xf_true v x).
Proof. exact (overload_unseen M). Qed.
Print Assumptions C54_any_overload_unseen.
Example C54_example : exists v, violates v xf_equip = Some true.
Proof. exact overload_seen. Qed.

(** C66 *)
Theorem C66_line_current_iff v l i f t : nth_error (rl_ends l) i = Some (f, t) ->
  let n := length (rl_ends l) in let Vf := end_volt v fst l in let Vt := end_volt v snd l in
  line_I v f t (fst (rl_Y l i i)) (snd (rl_Y l i i)) = I_series n (rl_Y l) Vf Vt 0 i <->
  Csum (fun j => if Nat.eqb j i then C0 else Cmul (rl_Y l i j) (Csub (Vf j) (Vt j))) n = C0.
Proof. exact (line_shown_iff v l i f t). Qed.
Print Assumptions C66_line_current_iff.
Theorem C66_any_overload_unseen M : exists v l q, In l (rq_lines q) /\ nth_error (rl_amp l) 0 = Some (Some 1) /\ violates v q = Some false /\
  M < Cmod (I_series (length (rl_ends l)) (rl_Y l) (end_volt v fst l) (end_volt v snd l) 0 0).
Proof. exact (coupled_unseen M). Qed.
Print Assumptions C66_any_overload_unseen.
