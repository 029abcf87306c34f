(** Specification side of C148: networks whose circuit laws are affine. *)
From Coq Require Import List Bool Arith Reals.
From Verif Require Import Components SpecComponents SpecUnbalanced Network SpecNetwork SpecKirchhoff.
Import ListNotations.
Local Open Scope R_scope.

Definition symmetric (n : nat) (A : nat -> nat -> R) : Prop := forall i j, (i < n)%nat -> (j < n)%nat -> A i j = A j i.
(** no generators and no constant power; the matrices of lines are symmetric *)
Definition affine_elem (e : elem) : Prop :=
  match e with
  | EGen _ => False
  | ELoad l _ _ => (ld_P l, ld_Q l) = C0
  | EUnb ph g b B => symmetric (length ph) g /\ symmetric (length ph) b /\ symmetric (length ph) B
  | _ => True
  end.
Definition affine_network (nw : network) : Prop := forall e, In e (elements nw) -> affine_elem e.
(** squared currents at all buses together *)
Definition total_square (nw : network) (E : nat -> C) : R := Rsum (fun k => Cnorm2 (E k)) (length (nw_buses nw)).
