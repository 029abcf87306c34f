(** Specification side of C143. *)
From Coq Require Import List Bool Arith Reals.
From Verif Require Import Expr Segment Collect SpecSystem Components SpecComponents Network SpecNetwork SpecKirchhoff.
Import ListNotations.

(** phases of unbalanced lines, and the inner primary node of a center tapped transformer, are not the ground *)
Definition ends_on_buses (nw : network) : Prop :=
  (forall ph g b B, In (EUnb ph g b B) (elements nw) -> forall p, In p ph -> fst p <> None /\ snd p <> None) /\
  (forall c f p s1 t1 s2 t2, In (ECt c f p s1 t1 s2 t2) (elements nw) -> p <> None).

(** nothing divides by zero: see [energised], and no center tapped transformer has ratio 0 *)
Definition live (nw : network) (V : bref -> C) : Prop :=
  energised nw V /\ forall c f p s1 t1 s2 t2, In (ECt c f p s1 t1 s2 t2) (elements nw) -> ct_ratio c <> 0%R.
(** a linear solver answers with a vector of the size of the right hand side *)
Definition sized {So} (spsolve : So -> list (nat * nat * R) -> list R -> So * option (list R)) : Prop :=
  forall so es J so' v, spsolve so es J = (so', Some v) -> length v = length J.
(** [row] holds, at the indexes of the unknowns, the net currents of the buses and then how far the laws of the elements are missed *)
Definition tells (nw : network) (ac : account) (row : nat -> R) : Prop :=
  (forall k b, nth_error (nw_buses nw) k = Some b -> (row (2 * k)%nat, row (2 * k + 1)%nat) = net_current (bus_id b) ac) /\
  (forall j x, nth_error (misses ac) j = Some x -> row (2 * length (nw_buses nw) + j)%nat = x).
(** a linear solver that always answers *)
Definition always_answers {So} (spsolve : So -> list (nat * nat * R) -> list R -> So * option (list R)) : Prop :=
  forall so es J, exists so' v, spsolve so es J = (so', Some v) /\ length v = length J.
