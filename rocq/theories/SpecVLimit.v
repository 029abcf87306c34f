(** Specification side of C21 and C22. *)
From Coq Require Import List Reals.
Import ListNotations.
Local Open Scope R_scope.

(** index [i] holds a bus voltage component *)
Definition is_bus_index (buses : list (nat * nat)) (i : nat) : Prop :=
  exists b, In b buses /\ (fst b = i \/ snd b = i).

(** [y] is the closest point to [x] within the voltage band and within one unit of [p] *)
Definition closest_allowed (p x y : R) : Prop :=
  -2 <= y <= 2 /\ Rabs (y - p) <= 1 /\
  forall z, -2 <= z <= 2 -> Rabs (z - p) <= 1 -> Rabs (y - x) <= Rabs (z - x).
