(** Specification side of C23 and C24. *)
From Coq Require Import List Arith ZArith Reals.
From Verif Require Import Homotopy.
Local Open Scope R_scope.

(** [m] consecutive successful runs at factors 1.00, 0.99, ..., each started from the previous answer *)
Definition successful_runs {St V E : Type} (nr : St -> V -> R -> @nrout St V E)
    (m : nat) (s : nat -> St) (v : nat -> V) (k : nat -> nat) : Prop :=
  forall i, (i < m)%nat -> nr (s i) (v i) ((100 - INR i) / 100) = NR true (v (S i)) (k i) (s (S i)).
