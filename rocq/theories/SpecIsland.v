(** Specification side of C48. *)
From Coq Require Import List Bool Arith.
From Verif Require Import SpecGraph Island.
Import ListNotations.

(** the elements whose connections count: everything but loads *)
Definition all_conns (nw : inet) : list (ibus * ibus) :=
  flat_map ie_conns (in_lines nw ++ in_xfs nw ++ in_switches nw) ++
  map (fun d => (iv_from d, iv_to d)) (filter iv_live (in_regs nw ++ in_fuses nw ++ in_caps nw)).
(** two places joined by an element *)
Definition joined (nw : inet) (u v : nat) : Prop :=
  exists f t, In (f, t) (all_conns nw) /\ ib_ground f = false /\ ib_ground t = false /\
              (ib_name f = u /\ ib_name t = v \/ ib_name f = v /\ ib_name t = u).
(** a bus of the network that is not internal to an element *)
Definition proper (nw : inet) (b : ibus) : Prop := In b (in_buses nw) /\ ib_virtual b = false.
Definition end_ok (nw : inet) (b : ibus) : Prop := ib_ground b = true \/ proper nw b.
(** as the parser leaves it: bus numbers differ, elements join proper buses or ground, inner buses are virtual *)
Record wf (nw : inet) : Prop := {
  wf_nums : NoDup (map ib_num (in_buses nw));
  wf_ground : forall b, In b (in_buses nw) -> ib_ground b = false;
  wf_conns : forall f t, In (f, t) (all_conns nw) -> end_ok nw f /\ end_ok nw t;
  wf_devs : forall d, In d (in_loads nw ++ in_regs nw ++ in_fuses nw ++ in_caps nw) -> end_ok nw (iv_from d) /\ end_ok nw (iv_to d);
  wf_srcs : forall s, In s (in_slack nw ++ in_gens nw) -> proper nw (is_bus s);
  wf_xf_inner : forall e b, In e (in_xfs nw) -> In b (ie_inner e) -> In b (in_buses nw) /\ ib_virtual b = true;
  wf_dev_inner : forall d b, In d (in_regs nw ++ in_fuses nw) -> In b (iv_inner d) -> In b (in_buses nw) /\ ib_virtual b = true }.

(** in the island of the place [sw] *)
Definition inside (nw : inet) (sw : nat) (b : ibus) : Prop := ib_ground b = false /\ path (joined nw) sw (ib_name b).
Definition dev_inside (nw : inet) (sw : nat) (d : idev) : Prop := inside nw sw (iv_from d) /\ inside nw sw (iv_to d).
(** no connection between different places leads to a bus outside *)
Definition elem_inside (nw : inet) (sw : nat) (e : ielem) : Prop :=
  forall f t, In (f, t) (ie_conns e) -> ib_ground f = false -> ib_ground t = false -> ib_name f <> ib_name t -> inside nw sw f /\ inside nw sw t.
(** what is left of a list: exactly the members with a property *)
Definition leaves {A} (P : A -> Prop) (before after : list A) : Prop := forall x, In x after <-> In x before /\ P x.
(** the network cut down to the island of [sw] *)
Record is_island (nw : inet) (sw : nat) (r : inet) : Prop := {
  isl_sub : incl (in_buses r) (in_buses nw);
  isl_buses : forall b, proper nw b -> (In b (in_buses r) <-> path (joined nw) sw (ib_name b));
  isl_virtual : forall b, In b (in_buses nw) -> ib_virtual b = true ->
    (In b (in_buses r) <-> (forall e, In e (in_xfs nw) -> In b (ie_inner e) -> elem_inside nw sw e) /\
                           (forall d, In d (in_regs nw ++ in_fuses nw) -> In b (iv_inner d) -> dev_inside nw sw d));
  isl_lines : leaves (elem_inside nw sw) (in_lines nw) (in_lines r);
  isl_xfs : leaves (elem_inside nw sw) (in_xfs nw) (in_xfs r);
  isl_switches : leaves (elem_inside nw sw) (in_switches nw) (in_switches r);
  isl_slack : leaves (fun s => inside nw sw (is_bus s)) (in_slack nw) (in_slack r);
  isl_gens : leaves (fun s => inside nw sw (is_bus s)) (in_gens nw) (in_gens r);
  isl_loads : leaves (dev_inside nw sw) (in_loads nw) (in_loads r);
  isl_fuses : leaves (dev_inside nw sw) (in_fuses nw) (in_fuses r);
  isl_regs : leaves (dev_inside nw sw) (in_regs nw) (in_regs r);
  isl_caps : leaves (dev_inside nw sw) (in_caps nw) (in_caps r) }.
