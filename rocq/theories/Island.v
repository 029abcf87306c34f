(** Model of TimeSeriesProcessor.select_island, src/logic/network/timeseriesprocessor.py:28-123, on top of Graph.v.

    Simplifications: of an element only its identity, its connections (get_connections) and the buses the function mentions are
    kept; an element occurs once in its list, so list.remove of it drops it; network.misc is empty, as for every parsed
    distribution network.  The number of a bus (bus.py:29, 44-48) is what == compares; it takes the place of the phase label of
    Graph.gbus, which the graph never looks at.  None stands for an exception. *)
From Coq Require Import List Bool Arith ZArith Reals.
From Verif Require Import Graph.
Import ListNotations.

(** bus.py:14-40; GROUND (bus.py:90) has number None, so it equals no other bus *)
Record ibus := { ib_ground : bool; ib_num : nat; ib_name : nat; ib_virtual : bool }.
(** bus.py:44-48 *)
Definition same_bus (a b : ibus) : bool := if ib_ground a || ib_ground b then ib_ground a && ib_ground b else Nat.eqb (ib_num a) (ib_num b).
(** a line, transformer or switch; [ie_inner]: primary_node and the two sending_nodes of a centre-tap transformer *)
Record ielem := { ie_id : nat; ie_conns : list (ibus * ibus); ie_inner : list ibus }.
(** a load, capacitor, fuse or regulator; [iv_inner]: interior_node or current_node; [iv_live]: false for a blown fuse, fuse.py:38-42 *)
Record idev := { iv_id : nat; iv_from : ibus; iv_to : ibus; iv_inner : list ibus; iv_live : bool }.
(** a slack or generator *)
Record isrc := { is_id : nat; is_bus : ibus }.
Record inet := { in_buses : list ibus; in_lines : list ielem; in_xfs : list ielem; in_switches : list ielem; in_slack : list isrc;
                 in_gens : list isrc; in_loads : list idev; in_fuses : list idev; in_regs : list idev; in_caps : list idev }.

(** *** the graph, graphanalyzer.py:16-57; elements in the order of networkmodel.py:46-54, 177-178 *)
Definition gbus_of (b : ibus) : gbus :=
  {| gb_ground := ib_ground b; gb_name := ib_name b; gb_phase := ib_num b; gb_virtual := ib_virtual b; gb_vnom := 0%R |}.
Definition gconns (cs : list (ibus * ibus)) : list (gbus * gbus) := map (fun c => (gbus_of (fst c), gbus_of (snd c))) cs.
Definition gelem_of (k : gkind) (e : ielem) : gelem := {| ge_kind := k; ge_conns := gconns (ie_conns e) |}.
Definition dev_conns (d : idev) : list (ibus * ibus) := if iv_live d then [(iv_from d, iv_to d)] else [].
Definition gdev_of (k : gkind) (d : idev) : gelem := {| ge_kind := k; ge_conns := gconns (dev_conns d) |}.
Definition graph_of (nw : inet) : gnetwork :=
  {| gn_buses := map gbus_of (in_buses nw);
     gn_elements := map (gelem_of KOther) (in_lines nw) ++ map (gelem_of KTransformer) (in_xfs nw) ++
                    map (gelem_of KOther) (in_switches nw) ++ map (gdev_of KLoad) (in_loads nw) ++
                    map (gdev_of KTransformer) (in_regs nw) ++ map (gdev_of KOther) (in_fuses nw) ++ map (gdev_of KOther) (in_caps nw) |}.

(** *** lines 39-73 *)
(** list.remove by ==: the first equal entry, None when there is none *)
Fixpoint remove_bus (num : nat) (bs : list ibus) : option (list ibus) :=
  match bs with
  | [] => None
  | b :: bs => if negb (ib_ground b) && Nat.eqb (ib_num b) num then Some bs
               else match remove_bus num bs with Some r => Some (b :: r) | None => None end
  end.
(** the same inside try/except *)
Definition try_remove (bs : list ibus) (b : ibus) : list ibus := match remove_bus (ib_num b) bs with Some r => r | None => bs end.
(** the element is in the element_list of an edge at node [n], lines 40-43 and graphanalyzer.py:40-49 *)
Definition touches (n : nat) (e : ielem) : bool :=
  existsb (fun c : ibus * ibus => let (f, t) := c in
    negb (ib_ground f || ib_ground t || Nat.eqb (ib_name f) (ib_name t)) && (Nat.eqb (ib_name f) n || Nat.eqb (ib_name t) n)) (ie_conns e).
Definition with_buses (st : inet) (bs : list ibus) : inet :=
  {| in_buses := bs; in_lines := in_lines st; in_xfs := in_xfs st; in_switches := in_switches st; in_slack := in_slack st;
     in_gens := in_gens st; in_loads := in_loads st; in_fuses := in_fuses st; in_regs := in_regs st; in_caps := in_caps st |}.
(** lines 40-71 *)
Definition clear_elements (nw : inet) (n : nat) (st : inet) : inet :=
  {| in_buses := fold_left try_remove (flat_map ie_inner (filter (touches n) (in_xfs nw))) (in_buses st);
     in_lines := filter (fun e => negb (touches n e)) (in_lines st);
     in_xfs := filter (fun e => negb (touches n e)) (in_xfs st);
     in_switches := filter (fun e => negb (touches n e)) (in_switches st);
     in_slack := in_slack st; in_gens := in_gens st; in_loads := in_loads st; in_fuses := in_fuses st; in_regs := in_regs st; in_caps := in_caps st |}.
(** lines 72-73 *)
Fixpoint remove_all (gs : list gbus) (bs : list ibus) : option (list ibus) :=
  match gs with
  | [] => Some bs
  | g :: gs => match remove_bus (gb_phase g) bs with Some bs => remove_all gs bs | None => None end
  end.
Definition clear_node (nw : inet) (g : graph) (st : option inet) (n : nat) : option inet :=
  match st with
  | None => None
  | Some st => let st := clear_elements nw n st in
               match remove_all (bus_list g n) (in_buses st) with Some bs => Some (with_buses st bs) | None => None end
  end.
Definition same_set (a b : list nat) : bool := forallb (fun x => mem x b) a && forallb (fun x => mem x a) b.
(** lines 32-73 *)
Definition clear_island (nw : inet) (g : graph) (wanted : list nat) (st : option inet) (c : list nat) : option inet :=
  if same_set c wanted then st else fold_left (clear_node nw g) c st.

(** *** lines 74-123 *)
Definition has_bus (bs : list ibus) (b : ibus) : bool := existsb (same_bus b) bs.
Definition attached (bs : list ibus) (d : idev) : bool := has_bus bs (iv_from d) && has_bus bs (iv_to d).
(** the loop over the fuses (95-104) or regulators (106-115): what is dropped takes its inner bus with it *)
Fixpoint prune (bs : list ibus) (ds : list idev) : list ibus * list idev :=
  match ds with
  | [] => (bs, [])
  | d :: ds => if attached bs d then let (bs, ds) := prune bs ds in (bs, d :: ds) else prune (fold_left try_remove (iv_inner d) bs) ds
  end.
Definition drop_detached (st : inet) : inet :=
  let bs := in_buses st in
  let fuses := prune bs (in_fuses st) in
  let regs := prune (fst fuses) (in_regs st) in
  {| in_buses := fst regs; in_lines := in_lines st; in_xfs := in_xfs st; in_switches := in_switches st;
     in_slack := filter (fun s => has_bus bs (is_bus s)) (in_slack st);
     in_gens := filter (fun s => has_bus bs (is_bus s)) (in_gens st);
     in_loads := filter (attached bs) (in_loads st);
     in_fuses := snd fuses; in_regs := snd regs;
     in_caps := filter (attached (fst regs)) (in_caps st) |}.

(** lines 28-123; nx.node_connected_component raises for a name that is no node (32) *)
Definition select_island (swing : nat) (nw : inet) : option inet :=
  let g := build (graph_of nw) in
  if has_node g swing then
    let wanted := component (node_names g) (edge_ends (g_edges g)) swing in
    match fold_left (clear_island nw g wanted) (islands g) (Some nw) with Some st => Some (drop_detached st) | None => None end
  else None.
