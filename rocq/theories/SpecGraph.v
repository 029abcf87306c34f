(** Specification side of C45-C47. *)
From Coq Require Import List Bool Arith ZArith Reals Permutation.
From Verif Require Import Graph.
Import ListNotations.
Local Open Scope R_scope.

(** names of the buses that are places of the network *)
Definition place (nw : gnetwork) (n : nat) : Prop := exists b, In b (gn_buses nw) /\ gb_virtual b = false /\ gb_name b = n.
(** an element other than a load joins buses of these names *)
Definition linked_by (P : gkind -> Prop) (nw : gnetwork) (u v : nat) : Prop :=
  exists e f t, In e (gn_elements nw) /\ P (ge_kind e) /\ In (f, t) (ge_conns e) /\ gb_ground f = false /\ gb_ground t = false /\
                (gb_name f = u /\ gb_name t = v \/ gb_name f = v /\ gb_name t = u).
Definition linked (nw : gnetwork) : nat -> nat -> Prop := linked_by (fun k => k <> KLoad) nw.
Inductive path {A} (R : A -> A -> Prop) (u : A) : A -> Prop :=
| path_refl : path R u u
| path_step v w : path R u v -> R v w -> path R u w.
(** connections start and end at ground or at a place *)
Definition ends_ok (nw : gnetwork) : Prop :=
  forall e f t, In e (gn_elements nw) -> ge_kind e <> KLoad -> In (f, t) (ge_conns e) ->
    (gb_ground f = true \/ place nw (gb_name f)) /\ (gb_ground t = true \/ place nw (gb_name t)).
Definition connected (nw : gnetwork) : Prop := (exists n, place nw n) /\ forall u v, place nw u -> place nw v -> path (linked nw) u v.
(** what the island check can see of a network *)
Definition seen_bus (b : gbus) : bool * nat * bool := (gb_ground b, gb_name b, gb_virtual b).
Definition seen_elem (e : gelem) : gkind * list (bool * nat * (bool * nat)) :=
  (ge_kind e, map (fun c => ((gb_ground (fst c), gb_name (fst c)), (gb_ground (snd c), gb_name (snd c)))) (ge_conns e)).
(** first bus of a place, in the order of the network *)
Definition first_bus (nw : gnetwork) (n : nat) (b : gbus) : Prop :=
  exists l r, filter (fun b => negb (gb_virtual b)) (gn_buses nw) = l ++ b :: r /\ gb_name b = n /\ forall c, In c l -> gb_name c <> n.
(** joined by something other than a transformer or regulator, and not by one of these *)
Definition plain (nw : gnetwork) (u v : nat) : Prop := linked nw u v /\ ~ linked_by (eq KTransformer) nw u v.

(** one more bus, and nothing connected to it *)
Definition with_bus (nw : gnetwork) (b : gbus) : gnetwork := {| gn_buses := gn_buses nw ++ [b]; gn_elements := gn_elements nw |}.
Definition unconnected (nw : gnetwork) (b : gbus) : Prop := forall e f t, In e (gn_elements nw) -> In (f, t) (ge_conns e) -> f <> b /\ t <> b.
