(** The network select_island works on, src/logic/network/timeseriesprocessor.py:28-123, for a three-phase network of the solver: the
    elements of Network.v as Island.v sees them.

    Simplifications: as in Island.v; elements are told apart by their places in the lists of the network. *)
From Coq Require Import List Bool Arith.
From Verif Require Import Network Devices Graph PowerFlow.
From Verif Require Island.
Import ListNotations.

Section Island.
Variable x : details_of.
(** a bus, bus.py:14-40, or GROUND, bus.py:90 *)
Definition ibus_of (b : bref) : Island.ibus :=
  match b with
  | Some k => {| Island.ib_ground := false; Island.ib_num := k; Island.ib_name := gb_name (of_bus x k); Island.ib_virtual := gb_virtual (of_bus x k) |}
  | None => {| Island.ib_ground := true; Island.ib_num := 0; Island.ib_name := 0; Island.ib_virtual := false |}
  end.
Definition ends_of (cs : list (bref * bref)) : list (Island.ibus * Island.ibus) := map (fun c => (ibus_of (fst c), ibus_of (snd c))) cs.
(** a line, transformer or switch; primary_node and both sending_node of a center tap, lines 49-61 *)
Definition ielem_of (y : nat * elem) : Island.ielem :=
  {| Island.ie_id := fst y; Island.ie_conns := ends_of (PowerFlow.connections false (snd y));
     Island.ie_inner := match snd y with ECt _ _ p s1 _ s2 _ => [ibus_of p; ibus_of s1; ibus_of s2] | _ => [] end |}.
(** a load, capacitor, regulator or fuse, lines 88-123 *)
Definition idev_of (y : nat * elem) : Island.idev :=
  match snd y with
  | ELoad _ f t | ECap _ _ f t => {| Island.iv_id := fst y; Island.iv_from := ibus_of f; Island.iv_to := ibus_of t; Island.iv_inner := []; Island.iv_live := true |}
  | EReg _ f t c => {| Island.iv_id := fst y; Island.iv_from := ibus_of f; Island.iv_to := ibus_of t; Island.iv_inner := [ibus_of c]; Island.iv_live := true |}
  | EFuse f t m => {| Island.iv_id := fst y; Island.iv_from := ibus_of f; Island.iv_to := ibus_of t; Island.iv_inner := [ibus_of m];
                      Island.iv_live := negb (is_blown (snd (of_fuse x (fst y)))) |}
  | _ => {| Island.iv_id := fst y; Island.iv_from := ibus_of None; Island.iv_to := ibus_of None; Island.iv_inner := []; Island.iv_live := false |}
  end.
Definition island_net (nw : network) : Island.inet :=
  {| Island.in_buses := map (fun b => ibus_of (Some (bus_id b))) (nw_buses nw);
     Island.in_lines := map ielem_of (number 0 (nw_lines nw)); Island.in_xfs := map ielem_of (number 0 (nw_transformers nw));
     Island.in_switches := map ielem_of (number 0 (nw_switches nw));
     Island.in_slack := map (fun y => {| Island.is_id := fst y; Island.is_bus := ibus_of (sl_bus (snd y)) |}) (number 0 (nw_slack nw));
     Island.in_gens := [];
     Island.in_loads := map idev_of (number 0 (nw_loads nw)); Island.in_fuses := map idev_of (number 0 (nw_fuses nw));
     Island.in_regs := map idev_of (number 0 (nw_regulators nw)); Island.in_caps := map idev_of (number 0 (nw_capacitors nw)) |}.
End Island.
