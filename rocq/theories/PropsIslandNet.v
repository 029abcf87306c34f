(** C161: the option --select_island on a network from a file. *)
From Coq Require Import String List Bool Arith Reals.
From Verif Require Import PyExc Components UnbalancedLine Network Devices Graph SpecGraph PowerFlow SpecPowerFlow ThreePhase SpecThreePhase SpecThreeElems SolverNet SpecSolverNet
  IslandNet SpecIslandNet IslandNetProofs IslandNetWitness.
From Verif Require Island UnbalancedWitness.
Import ListNotations.

(** C161: selecting the island of a bus of a parsed file succeeds.  Of the buses outside elements, those stay that can be reached; sources stay with
    their bus; loads and fuses stay when both their ends are reached, so loads to ground go; lines stay unless they lead outside; no capacitor stays *)
Theorem C161_selected : forall inv cap ms n, known_elements ms -> parse_three inv cap ms = Ok n -> Forall plain_ends ms -> Forall plain_loads ms ->
  forall opt nw, dx_network opt n = Ok nw -> forall s, outer n s ->
  exists r, Island.select_island (gb_name (dx_place n s)) (island_net (dx_details n) nw) = Some r /\
  (forall k, outer n k -> (bus_left r k <-> reached n nw s k)) /\
  (forall k sl, nth_error (nt_slack n) k = Some sl -> (source_left r k <-> reached n nw s (sk_bus sl))) /\
  (forall k l, nth_error (nt_loads n) k = Some l -> (load_left r k <-> exists i j, tl_from l = Some i /\ tl_to l = Some j /\ reached n nw s i /\ reached n nw s j)) /\
  (forall k f, nth_error (nt_fuses n) k = Some f -> (fuse_left r k <-> reached n nw s (tf_from f) /\ reached n nw s (tf_to f))) /\
  (forall k e, nth_error (nw_lines nw) k = Some e -> (line_left r k <->
     forall i j, joins e (Some i) (Some j) -> gb_name (dx_place n i) <> gb_name (dx_place n j) -> reached n nw s i /\ reached n nw s j)) /\
  Island.in_caps r = [].
Proof. exact selected. Qed.
Print Assumptions C161_selected.
(** nodes a and b joined by a switch, and node c: of the loads only the one between two phases of b is left, and its capacitor is gone *)
Example C161_example : known_elements (two_file ["A"; "AB"]%string) /\ Forall plain_ends (two_file ["A"; "AB"]%string) /\ Forall plain_loads (two_file ["A"; "AB"]%string) /\
  exists n nw r, parse_three UnbalancedWitness.half_inv false (two_file ["A"; "AB"]%string) = Ok n /\ dx_network None n = Ok nw /\ outer n 0 /\
  length (nt_buses n) = 6%nat /\ length (nt_loads n) = 4%nat /\ length (nt_caps n) = 1%nat /\
  Island.select_island (gb_name (dx_place n 0)) (island_net (dx_details n) nw) = Some r /\
  map Island.ib_num (Island.in_buses r) = [0; 1; 2; 3]%nat /\ map Island.iv_id (Island.in_loads r) = [1]%nat /\ Island.in_caps r = [] /\ map Island.is_id (Island.in_slack r) = [0; 1]%nat.
Proof. exact (conj (two_known _) (conj (proj1 (two_plain _)) (conj (proj2 (two_plain _)) two_selected))). Qed.

(** C161: a place that is none of a bus outside elements ends in an exception *)
Theorem C161_unknown : forall inv cap ms n, known_elements ms -> parse_three inv cap ms = Ok n -> Forall plain_ends ms -> Forall plain_loads ms ->
  forall opt nw, dx_network opt n = Ok nw -> forall u, (forall k, outer n k -> gb_name (dx_place n k) <> u) -> Island.select_island u (island_net (dx_details n) nw) = None.
Proof. exact unknown_place. Qed.
Print Assumptions C161_unknown.

(** C161: when every load of the file is on a single phase, no load is left, whatever the island *)
Theorem C161_no_loads : forall inv cap ms n, known_elements ms -> parse_three inv cap ms = Ok n -> Forall plain_ends ms -> Forall plain_loads ms ->
  forall opt nw, dx_network opt n = Ok nw -> forall s r, outer n s ->
  (forall l pl, In (MLoad l) ms -> In pl (do_loads l) -> exists a, dp_phase pl = Some (String a EmptyString)) ->
  Island.select_island (gb_name (dx_place n s)) (island_net (dx_details n) nw) = Some r -> Island.in_loads r = [].
Proof. exact no_loads. Qed.
Print Assumptions C161_no_loads.
Example C161_no_loads_example : exists n nw r, parse_three UnbalancedWitness.half_inv false tiny_file = Ok n /\ dx_network None n = Ok nw /\
  length (nt_loads n) = 1%nat /\ Island.select_island (gb_name (dx_place n 0)) (island_net (dx_details n) nw) = Some r /\ length (Island.in_buses r) = 1%nat /\ Island.in_loads r = [].
Proof.
  destruct tiny_selected as (n & nw & r & P & N & O & L & S & B). destruct tiny_hyps as (K & E & D). exists n, nw, r. repeat (split; [assumption|]).
  refine (C161_no_loads _ _ _ _ K P E D _ _ N _ _ O _ S). intros l pl [H|[H|[]]]; [discriminate|]. injection H as <-. intros [<-|[]]. eexists. reflexivity.
Qed.
