(** C48: selecting an island. *)
From Coq Require Import List Bool Arith.
From Verif Require Import SpecGraph Island SpecIsland IslandProofs IslandWitness.
Import ListNotations.

(** Selecting the island of a place keeps exactly what lies inside it, for every kind of element. *)
Theorem C48_island_selected : forall nw, wf nw -> forall sw, (exists b, proper nw b /\ ib_name b = sw) ->
  exists r, select_island sw nw = Some r /\ is_island nw sw r.
Proof. exact select_spec. Qed.
Print Assumptions C48_island_selected.
(** A swing bus name that names no place ends in an exception. *)
Theorem C48_unknown_name_fails : forall nw sw, wf nw -> (forall b, proper nw b -> ib_name b <> sw) -> select_island sw nw = None.
Proof. exact select_unknown. Qed.
Print Assumptions C48_unknown_name_fails.
(** Nothing connected to ground among the loads and capacitors is left, even inside the island. *)
Theorem C48_grounded_dropped : forall nw sw r, (forall b, In b (in_buses nw) -> ib_ground b = false) -> select_island sw nw = Some r ->
  forall d, In d (in_loads r ++ in_caps r) -> ib_ground (iv_from d) = false /\ ib_ground (iv_to d) = false.
Proof. exact grounded_dropped. Qed.
Print Assumptions C48_grounded_dropped.

(** two islands; that of place 10 keeps buses 0, 1, 2 and the inner buses 6 and 8, loses the grounded load 9 and the grounded
    capacitor 13, and keeps the open switch 5 *)
Example C48_example : exists r, select_island 10 two_islands = Some r /\ map ib_num (in_buses r) = [0; 1; 2; 6; 8] /\ map ie_id (in_lines r) = [1] /\ map ie_id (in_xfs r) = [3] /\
  map ie_id (in_switches r) = [5] /\ map is_id (in_slack r) = [6] /\ map iv_id (in_loads r) = [8] /\ map iv_id (in_fuses r) = [11] /\ in_caps r = [].
Proof. exact two_islands_selected. Qed.
Example C48_wf_example : wf two_islands /\ exists b, proper two_islands b /\ ib_name b = 10.
Proof. split; [exact two_islands_wf|]. exists b0. repeat split. left; reflexivity. Qed.
