(** Model of src/logic/graphanalyzer.py (graph construction and checks, lines 16-84) and of the refusal in
    src/logic/powerflow.py:18-27.

    Simplifications: node names are numbers; colours and labels are left out; of the element list of an edge only the kind of
    the first element is kept (the only entry ever used, line 80); nx.connected_components is written out as a breadth first
    search, its sets are lists without repetitions, and [visit] is the order in which python iterates over such a set. *)
From Coq Require Import List Bool Arith ZArith Reals.
From Verif Require Import Components.
Import ListNotations.
Local Open Scope R_scope.

(** a bus is one phase ([gb_phase]) of the place [gb_name]; bus.py:14-40 *)
Record gbus := { gb_ground : bool; gb_name : nat; gb_phase : nat; gb_virtual : bool; gb_vnom : R }.
Inductive gkind := KLoad | KTransformer (* Transformer, CenterTapTransformer, Regulator *) | KOther.
Record gelem := { ge_kind : gkind; ge_conns : list (gbus * gbus) (* get_connections *) }.
Record gnetwork := { gn_buses : list gbus; gn_elements : list gelem }.

(** a node has the buses of its bus_list attribute; nodes made by add_edge have none *)
Record graph := { g_nodes : list (nat * list gbus); g_edges : list (nat * nat * gkind) }.
Definition has_node (g : graph) (n : nat) : bool := existsb (fun x => Nat.eqb (fst x) n) (g_nodes g).
Definition has_edge (g : graph) (u v : nat) : bool :=
  existsb (fun e => let '(a, b, _) := e in (Nat.eqb a u && Nat.eqb b v) || (Nat.eqb a v && Nat.eqb b u)) (g_edges g).
(** lines 24-34 *)
Definition add_bus (g : graph) (b : gbus) : graph :=
  if gb_virtual b then g
  else if has_node g (gb_name b) then
    {| g_nodes := map (fun x => if Nat.eqb (fst x) (gb_name b) then (fst x, snd x ++ [b]) else x) (g_nodes g); g_edges := g_edges g |}
  else {| g_nodes := g_nodes g ++ [(gb_name b, [b])]; g_edges := g_edges g |}.
Definition need_node (g : graph) (n : nat) : graph :=
  if has_node g n then g else {| g_nodes := g_nodes g ++ [(n, [])]; g_edges := g_edges g |}.
Definition add_edge (g : graph) (u v : nat) (k : gkind) : graph :=
  let g := need_node (need_node g u) v in {| g_nodes := g_nodes g; g_edges := g_edges g ++ [(u, v, k)] |}.
(** lines 37-49 *)
Definition add_conn (k : gkind) (g : graph) (c : gbus * gbus) : graph :=
  let (f, t) := c in
  match k with
  | KLoad => g
  | _ =>
      if gb_ground f || gb_ground t || Nat.eqb (gb_name f) (gb_name t) then g
      else if negb (has_node g (gb_name f) || has_node g (gb_name t)) then g
      else if has_edge g (gb_name f) (gb_name t) then g
      else add_edge g (gb_name f) (gb_name t) k
  end.
Definition add_element (g : graph) (e : gelem) : graph := fold_left (add_conn (ge_kind e)) (ge_conns e) g.
Definition build (nw : gnetwork) : graph :=
  fold_left add_element (gn_elements nw) (fold_left add_bus (gn_buses nw) {| g_nodes := []; g_edges := [] |}).

(** *** nx.connected_components *)
Definition mem (n : nat) (l : list nat) : bool := existsb (Nat.eqb n) l.
Definition neighbours (edges : list (nat * nat)) (n : nat) : list nat :=
  flat_map (fun e => (if Nat.eqb (fst e) n then [snd e] else []) ++ (if Nat.eqb (snd e) n then [fst e] else [])) edges.
Definition fresh (seen l : list nat) : list nat := nodup Nat.eq_dec (filter (fun n => negb (mem n seen)) l).
Fixpoint bfs (edges : list (nat * nat)) (fuel : nat) (seen level : list nat) : list nat :=
  match fuel with
  | O => seen
  | S fuel => let next := fresh seen (flat_map (neighbours edges) level) in
              match next with [] => seen | _ => bfs edges fuel (seen ++ next) next end
  end.
Definition component (nodes : list nat) (edges : list (nat * nat)) (n : nat) : list nat := bfs edges (length nodes) [n] [n].
Fixpoint components_from (nodes : list nat) (edges : list (nat * nat)) (todo seen : list nat) : list (list nat) :=
  match todo with
  | [] => []
  | n :: todo => if mem n seen then components_from nodes edges todo seen
                 else let c := component nodes edges n in c :: components_from nodes edges todo (seen ++ c)
  end.
Definition components (nodes : list nat) (edges : list (nat * nat)) : list (list nat) := components_from nodes edges nodes [].

Definition node_names (g : graph) : list nat := map fst (g_nodes g).
Definition edge_ends (es : list (nat * nat * gkind)) : list (nat * nat) := map fst es.
(** get_islands, 63-64 *)
Definition islands (g : graph) : list (list nat) := components (node_names g) (edge_ends (g_edges g)).
(** get_nominal_voltage_islands, 79-84: edge_subgraph keeps the ends of the chosen edges only *)
Definition region_edges (g : graph) : list (nat * nat) :=
  edge_ends (filter (fun e => match snd e with KTransformer => false | _ => true end) (g_edges g)).
Definition region_nodes (g : graph) : list nat :=
  filter (fun n => existsb (fun e => Nat.eqb (fst e) n || Nat.eqb (snd e) n) (region_edges g)) (node_names g).
Definition regions (g : graph) : list (list nat) := components (region_nodes g) (region_edges g).

(** python's round: to the nearest integer, ties to the even one *)
Definition py_round (x : R) : Z :=
  let z := Int_part x in
  if Rlt_dec (x - IZR z) (1 / 2) then z else if Rlt_dec (1 / 2) (x - IZR z) then (z + 1)%Z else if Z.even z then z else (z + 1)%Z.
Definition bus_list (g : graph) (n : nat) : list gbus := match find (fun x => Nat.eqb (fst x) n) (g_nodes g) with Some x => snd x | None => [] end.
Definition far (v : R) (z : Z) : bool := if Rlt_dec 10 (Rabs (v - IZR z)) then true else false.
(** lines 69-77 for one region; false when an exception is raised *)
Fixpoint region_ok_from (g : graph) (vnom : option Z) (ns : list nat) : bool :=
  match ns with
  | [] => true
  | n :: ns => match bus_list g n with
               | [] => false
               | b :: _ => match vnom with
                           | None => region_ok_from g (Some (py_round (gb_vnom b))) ns
                           | Some z => if far (gb_vnom b) z then false else region_ok_from g (Some z) ns
                           end
               end
  end.
Section Visit.
Variable visit : list nat -> list nat.
(** validate_voltage_islands, 66-77 *)
Definition validate (g : graph) : bool := forallb (fun r => region_ok_from g None (visit r)) (regions g).
(** powerflow.py:21-27: true when the power flow is started *)
Definition accepted (nw : gnetwork) : bool := let g := build nw in Nat.eqb (length (islands g)) 1 && validate g.
End Visit.
