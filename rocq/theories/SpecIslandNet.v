(** Specification side of C161. *)
From Coq Require Import String List Bool Arith Reals.
From Verif Require Import Network Devices Graph SpecGraph PowerFlow SpecPowerFlow ThreePhase SpecThreePhase SpecThreeElems SpecSolverNet SolverNet.
From Verif Require Island.
Import ListNotations.

(** loads, too, refer to no inner bus by its name *)
Definition plain_loads (m : dmodel) : Prop := match m with MLoad l => outside (do_conn l) | _ => True end.
(** a bus of the network that is not inside an element *)
Definition outer (n : net) (k : nat) : Prop := exists b, nth_error (nt_buses n) k = Some b /\ tb_virtual b = false.
(** the bus k is at a place that can be reached from the place of bus s over the elements of the network *)
Definition reached (n : net) (nw : network) (s k : nat) : Prop := path (beside (dx_details n) nw) (gb_name (dx_place n s)) (gb_name (dx_place n k)).
(** what is left of the network: numbers of buses, and places of the elements in their lists *)
Definition bus_left (r : Island.inet) (k : nat) : Prop := In k (map Island.ib_num (Island.in_buses r)).
Definition load_left (r : Island.inet) (k : nat) : Prop := In k (map Island.iv_id (Island.in_loads r)).
Definition source_left (r : Island.inet) (k : nat) : Prop := In k (map Island.is_id (Island.in_slack r)).
Definition fuse_left (r : Island.inet) (k : nat) : Prop := In k (map Island.iv_id (Island.in_fuses r)).
Definition line_left (r : Island.inet) (k : nat) : Prop := In k (map Island.ie_id (Island.in_lines r)).
