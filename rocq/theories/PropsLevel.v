(** C159: which nominal voltages and which settings a power flow looks at. *)
From Coq Require Import List Bool Arith ZArith Reals Permutation Lra.
From Verif Require Import Residual SpecSystem Components Network SpecNetwork Solver Devices Graph SpecGraph PowerFlow SpecPowerFlow PowerFlowWitness SpecLevel LevelProofs LevelWitness.
Import ListNotations.
Local Open Scope R_scope.

(** C159: a power flow is started only when nominal voltages agree along every chain of neighbours of one voltage level; transformers,
    center taps and regulators end a level *)
Theorem C159_levels : forall x So (spsolve : So -> list (nat * nat * R) -> list R -> So * option (list R)) nan old visit nw cfg so,
  network_ok nw -> sorted nw -> proper x nw -> (forall l, Permutation (visit l) l) ->
  (forall n, execute x spsolve nan cfg old visit nw so <> PFIslands n) -> execute x spsolve nan cfg old visit nw so <> PFVoltages ->
  forall u v b c, path (level x nw) u v -> first_at x nw u b -> first_at x nw v c -> Rabs (nominal x b - nominal x c) <= 20.
Proof. exact (@levels). Qed.
Print Assumptions C159_levels.
(** 100 and 4000 on the two sides of a voltage source are refused *)
Example C159_levels_example : forall nan cfg old so, execute (pair_details 4000) zeros nan cfg old (fun l => l) (pair_net false) so = PFVoltages.
Proof.
  intros nan cfg old so. assert (~ Rabs (100 - 4000) <= 20) as N by (rewrite Rabs_left by lra; lra).
  pose proof (C159_levels _ _ zeros nan old _ _ cfg so (pair_ok false) (pair_sorted false) (pair_proper false 4000) (fun l => Permutation_refl l) (pair_one 4000 nan cfg old so)) as H.
  destruct (execute (pair_details 4000) zeros nan cfg old (fun l => l) (pair_net false) so); try reflexivity; exfalso; apply N;
    (refine (H _ 1%nat 2%nat _ _ _ (proj1 (pair_first 4000)) (proj2 (pair_first 4000))); [discriminate|]; econstructor; [constructor|exact (pair_level 4000)]).
Qed.

(** C159: it is not refused for its voltages when they agree along the chains of elements that are no transformers or regulators *)
Theorem C159_accepted : forall x So (spsolve : So -> list (nat * nat * R) -> list R -> So * option (list R)) nan old visit nw cfg so,
  network_ok nw -> sorted nw -> proper x nw -> (forall l, Permutation (visit l) l) ->
  (forall u v b c, path (held_by (fun e => ~ steps e) x nw) u v -> first_at x nw u b -> first_at x nw v c -> Rabs (nominal x b - nominal x c) <= 19 / 2) ->
  execute x spsolve nan cfg old visit nw so <> PFVoltages.
Proof. exact (@close_levels). Qed.
Print Assumptions C159_accepted.
(** 100 and 4000 on the two sides of a regulator are no reason *)
Example C159_regulator : forall nan old cfg so, execute (pair_details 4000) zeros nan cfg old (fun l => l) (pair_net true) so <> PFVoltages.
Proof.
  intros. exact (C159_accepted _ _ _ _ _ _ _ _ _ (pair_ok true) (pair_sorted true) (pair_proper true 4000) (fun l => Permutation_refl l) (pair_close 4000)).
Qed.

(** C159: voltage limiting and the flat start are without effect on three-phase networks *)
Theorem C159_three : forall x So (spsolve : So -> list (nat * nat * R) -> list R -> So * option (list R)) nan old visit nw c d so,
  nw_three_phase nw = true -> same_for_three c d -> execute x spsolve nan c old visit nw so = execute x spsolve nan d old visit nw so.
Proof. exact (@three_settings). Qed.
Print Assumptions C159_three.
Example C159_three_example : forall old nan, exists v it tx res so',
  execute quiet_details zeros nan {| pf_nr := pf_nr quiet_settings; pf_limiting := true; pf_flat := true; pf_tx_stepping := false; pf_device_control := true |}
    old (fun l => l) (quiet true) 0%nat = PFDone true v it tx res opened so'.
Proof.
  intros old nan. destruct (quiet_run old nan) as [v [it [tx [res [so' E]]]]]. exists v, it, tx, res, so'. rewrite <- E. apply C159_three; [reflexivity|].
  split; [reflexivity|]. split; reflexivity.
Qed.

(** C159: device control is without effect on networks in single-phase equivalent *)
Theorem C159_one : forall x So (spsolve : So -> list (nat * nat * R) -> list R -> So * option (list R)) nan old visit nw c d so,
  nw_three_phase nw = false -> same_for_one c d -> execute x spsolve nan c old visit nw so = execute x spsolve nan d old visit nw so.
Proof. exact (@one_settings). Qed.
Print Assumptions C159_one.
Example C159_one_example : forall nan old so, execute (pair_details 91) zeros nan quiet_settings old (fun l => l) (pair_net false) so =
  execute (pair_details 91) zeros nan {| pf_nr := pf_nr quiet_settings; pf_limiting := false; pf_flat := false; pf_tx_stepping := false; pf_device_control := false |}
    old (fun l => l) (pair_net false) so.
Proof. intros. apply C159_one; [reflexivity|]. split; [reflexivity|]. split; [reflexivity|]. split; reflexivity. Qed.
