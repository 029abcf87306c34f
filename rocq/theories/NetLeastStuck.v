(** C148: a feeder with enough supply whose equations with infeasibility currents have a solution with a nonzero current. *)
From Coq Require Import String List Bool Arith ZArith Reals Lra Lia.
From Verif Require Import Expr Segment Collect SpecSystem Components SpecComponents ComponentsProofs ElementProofs SpecUnbalanced Network SpecNetwork SpecKirchhoff
  SpecNetInfeas NetInfeasProofs NetInfeasFinal KirchhoffWitness NetInfeasWitness SpecNetLeast NetLeastWitness.
Import ListNotations.
Local Open Scope R_scope.

Lemma open_F b v r : F [(line_details b GROUND true true, [0; 0; 0])] v 0 r = 0.
Proof. rewrite F_cons, F_nil. cbn [fst]. expand_rows. ring. Qed.
Definition power_elements (l1 : bool) : list element :=
  [(line_details n4 n8 true false, [1; 0; 0])] ++ [(line_details n4 GROUND true true, [0; 0; 0])] ++ [(line_details n8 GROUND true true, [0; 0; 0])] ++
  [(fst (two_terminal_details slack_lh n4 GROUND 8 true), [1; 0])] ++ [(fst (two_terminal_details lh_pq n8 GROUND 12 true), [4 / 25; 0])] ++
  present (fst (inf_stampers l1 n4 12)) ++ present (fst (inf_stampers l1 n8 (12 + width l1))).
Lemma power_assigned l1 old : let a := assign_matrix old (feeder_of l1 power_load) in
  equations a = power_elements l1 /\ as_size a = (12 + 2 * width l1)%nat /\ as_table a 4%nat = n4 /\ as_table a 8%nat = n8 /\
  as_infeasibility a = [fst (inf_stampers l1 n4 12); fst (inf_stampers l1 n8 (12 + width l1))].
Proof.
  assert (Z : both0 0 0 = true) by (apply both0_true; auto).
  assert (O : both0 (4 / 25) 0 = false) by (destruct (both0 (4 / 25) 0) eqn:E; [apply both0_true in E as [E _]; lra|reflexivity]).
  assert (C : 1 * cos 0 = 1) by (rewrite cos_0; ring). assert (S : 1 * sin 0 = 0) by (rewrite sin_0; ring).
  cbv zeta. unfold equations, all_stampers, assign_matrix. change (elements (feeder_of l1 power_load)) with [ELine small_line (Some 4%nat) (Some 8%nat); ESlack unit_slack; ELoad power_load (Some 8%nat) None].
  cbn [assign_elems assign_elem]. unfold load_stampers, slack_stampers, line_stampers. change (ld_P power_load) with (4 / 25). change (ld_Q power_load) with 0. change (ld_Zr power_load) with 0. change (ld_Zi power_load) with 0.
  change (ld_IP power_load) with 0. change (ld_IQ power_load) with 0. change (sl_V unit_slack) with 1. change (sl_ang unit_slack) with 0. rewrite Z, O, C, S. destruct l1; repeat split; reflexivity.
Qed.
Definition stuck_point (l1 : bool) (i : nat) : R :=
  if l1 then nth i [1; 0; 0; 0; 2/5; 0; -1/5; 0; -3/5; 0; -1/5; 0; -1/2; -1/2; -1/2; -1/2; -3/5; -1/2; -2/5; -1/2] 0
  else nth i [1; 0; 0; 0; 2/5; 0; -2/5; 0; -3/5; 0; -2/5; 0; 0; 0; 1/5; 0] 0.
Lemma stuck l1 old : let a := assign_matrix old (feeder_of l1 power_load) in
  (forall r, (r < as_size a)%nat -> F (equations a) (stuck_point l1) 0 r = 0) /\ energised (feeder_of l1 power_load) (voltages a (stuck_point l1)) /\
  voltages a (stuck_point l1) (Some 8%nat) = (2 / 5, 0) /\ extra l1 a (stuck_point l1) 0 = C0 /\ extra l1 a (stuck_point l1) 1 = (1 / 5, 0).
Proof.
  cbv zeta. destruct (power_assigned l1 old) as [E [Sz [T4 [T8 I]]]]. assert (V8 : voltages (assign_matrix old (feeder_of l1 power_load)) (stuck_point l1) (Some 8%nat) = (2 / 5, 0)).
  { unfold voltages. cbn [at_ref]. rewrite T8. destruct l1; reflexivity. }
  split; [|split; [|split; [exact V8|]]].
  - rewrite E, Sz. intros r Hr. unfold power_elements. rewrite !F_app, line_F, !open_F, slack_F, pq_F by (destruct l1; reflexivity).
    destruct l1; cbn [inf_stampers width] in *; [rewrite !l1_rows|rewrite !l2_rows]; cbv zeta; unfold at_lambda, mult, n4, n8; cbn.
    + do 20 (destruct r as [|r]; [cbn; lra|]). lia.
    + do 16 (destruct r as [|r]; [cbn; lra|]). lia.
  - split; [intros ld f t H _|intros g H]; cbn in H.
    + destruct H as [H|[H|[H|[]]]]; try discriminate. injection H as <- <- <-. unfold across. rewrite V8. unfold voltages, volt, C0, Csub. cbn. intros Z. injection Z. lra.
    + destruct H as [H|[H|[H|[]]]]; discriminate.
  - unfold extra, infeasibility. rewrite I. destruct l1; cbn; unfold Csub, C0; cbn; split; f_equal; lra.
Qed.
Lemma power_stuck l1 old : let nw := feeder_of l1 power_load in let a := assign_matrix old nw in
  network_ok nw /\ nw_optimization nw = Some l1 /\ physical nw (far (4 / 5)) /\ physical nw (far (1 / 5)) /\
  exists v, energised nw (voltages a v) /\ (forall r, (r < as_size a)%nat -> F (equations a) v 0 r = 0) /\
            voltages a v (Some 8%nat) = (2 / 5, 0) /\ extra l1 a v 1 = (1 / 5, 0).
Proof.
  cbv zeta. split; [apply feeder_of_ok|]. split; [reflexivity|]. split; [apply power_possible; lra|]. split; [apply power_possible; lra|].
  exists (stuck_point l1). destruct (stuck l1 old) as [H1 [H2 [H3 [_ H5]]]]. split; [exact H2|]. split; [exact H1|]. split; [exact H3|exact H5].
Qed.
Lemma current_solved l1 old : let nw := feeder_of l1 current_load in network_ok nw /\ affine_network nw /\ physical nw (far (3 / 4)) /\
  exists v, forall r, (r < as_size (assign_matrix old nw))%nat -> F (equations (assign_matrix old nw)) v 0 r = 0.
Proof.
  cbv zeta. split; [apply feeder_of_ok|]. split; [apply current_affine|]. split; [apply current_possible|].
  destruct (infeasible_complete old (feeder_of l1 current_load) l1 (feeder_of_ok _ _) eq_refl _ (current_possible l1)) as [v [_ [_ H]]]. exists v. exact H.
Qed.
