(** C45-C47: the checks made before a power flow. *)
From Coq Require Import List Bool Arith ZArith Reals Permutation.
From Verif Require Import Graph SpecGraph GraphProofs GraphWitness.
Import ListNotations.
Local Open Scope R_scope.

(** C45 *)
Theorem C45_one_island nw : ends_ok nw -> (length (islands (build nw)) = 1%nat <-> connected nw).
Proof. intros H; exact (islands_connected nw H). Qed.
Print Assumptions C45_one_island.
Example one_island_example : connected row.
Proof. apply (C45_one_island row row_ends). rewrite row_islands. reflexivity. Qed.

Theorem C45_members nw u v : ends_ok nw -> place nw u -> ((exists c, In c (islands (build nw)) /\ In u c /\ In v c) <-> path (linked nw) u v).
Proof. intros H H'; exact (island_members nw H u v H'). Qed.
Print Assumptions C45_members.
Example C45_members_example : path (linked row) 0%nat 2%nat.
Proof. apply (C45_members row 0 2 row_ends); [exists (bus 0 0 100); cbn; auto|]. exists [0; 1; 2]%nat. rewrite row_islands. cbn; auto 10. Qed.

Theorem C45_refused visit nw : ends_ok nw -> ~ connected nw -> accepted visit nw = false.
Proof. intros H; exact (refused nw H visit). Qed.
Print Assumptions C45_refused.
Example unconnected_network_example : ~ connected apart.
Proof. intros H. apply (C45_one_island apart apart_ends) in H. rewrite apart_islands in H. discriminate. Qed.

Theorem C45_no_buses visit nw : ends_ok nw -> (forall n, ~ place nw n) -> accepted visit nw = false.
Proof. exact (no_buses visit nw). Qed.
Print Assumptions C45_no_buses.
Example empty_network_example : accepted (fun l => l) {| gn_buses := []; gn_elements := [] |} = false.
Proof. apply C45_no_buses; [intros e f t []|intros n [b [[] _]]]. Qed.

(** C46 *)
Theorem C46_names_only nw mw :
  map seen_bus (gn_buses nw) = map seen_bus (gn_buses mw) -> map seen_elem (gn_elements nw) = map seen_elem (gn_elements mw) ->
  islands (build nw) = islands (build mw).
Proof. exact (same_islands nw mw). Qed.
Print Assumptions C46_names_only.
Example island_check_sees_names_example : islands (build row) =
  islands (build {| gn_buses := [bus 0 5 1; bus 1 6 2; bus 2 7 3]; gn_elements := [line (bus 0 8 4) (bus 1 9 5); line (bus 1 1 6) (bus 2 2 7)] |}).
Proof. apply C46_names_only; reflexivity. Qed.

Theorem C46_phase_unnoticed nw b : ends_ok nw -> place nw (gb_name b) ->
  (length (islands (build (with_bus nw b))) = 1%nat <-> length (islands (build nw)) = 1%nat).
Proof. exact (with_bus_connected nw b). Qed.
Print Assumptions C46_phase_unnoticed.
Example unconnected_phase_accepted : In (bus 1 1 109) (gn_buses lone_phase) /\ unconnected lone_phase (bus 1 1 109) /\ accepted (fun l => l) lone_phase = true.
Proof. split; [cbn; auto|]. split; [exact lone_unconnected|exact lone_accepted]. Qed.
Example equal_names_accepted visit : gn_elements namesakes = [] /\ length (gn_buses namesakes) = 2%nat /\ accepted visit namesakes = true.
Proof. split; [reflexivity|]. split; [reflexivity|]. exact (namesakes_accepted visit). Qed.

(** C47 *)
Theorem C47_region_bound visit nw : ends_ok nw -> (forall l, Permutation (visit l) l) -> accepted visit nw = true ->
  forall u v bu bv, path (plain nw) u v -> first_bus nw u bu -> first_bus nw v bv -> Rabs (gb_vnom bu - gb_vnom bv) <= 20.
Proof. exact (accepted_voltages visit nw). Qed.
Print Assumptions C47_region_bound.
Example accepted_regions_example : Rabs (100 - 91) <= 20.
Proof. exact row_bound. Qed.

Theorem C47_close_pass visit nw : ends_ok nw -> (forall l, Permutation (visit l) l) ->
  (forall u v bu bv, path (linked_by (eq KOther) nw) u v -> first_bus nw u bu -> first_bus nw v bv -> Rabs (gb_vnom bu - gb_vnom bv) <= 19 / 2) ->
  validate visit (build nw) = true.
Proof. exact (close_validate visit nw). Qed.
Print Assumptions C47_close_pass.
Example close_voltages_example : validate (@rev nat) (build namesakes) = true.
Proof. exact (namesakes_close (@rev nat) (fun l => Permutation_sym (Permutation_rev l))). Qed.

Theorem C47_order_dependent : exists nw, ends_ok nw /\ accepted (fun l => l) nw = true /\ accepted (@rev nat) nw = false.
Proof. exact (ex_intro _ row (conj row_ends (conj row_accepted row_refused))). Qed.
Print Assumptions C47_order_dependent.

Theorem C47_other_phases : exists nw e f t, accepted (fun l => l) nw = true /\ In e (gn_elements nw) /\ ge_kind e = KOther /\ In (f, t) (ge_conns e) /\ gb_vnom t - gb_vnom f > 1000.
Proof. exact hidden_gap. Qed.
Print Assumptions C47_other_phases.
