(** Specification side of C30-C41: complex numbers as pairs, and what an element adds to the rows of the system. *)
From Coq Require Import Reals List Bool Arith.
From Verif Require Import Collect Components.
Import ListNotations.
Local Open Scope R_scope.

Definition C : Type := R * R.
Definition C0 : C := (0, 0).
Definition C1 : C := (1, 0).
Definition Cadd (a b : C) : C := (fst a + fst b, snd a + snd b).
Definition Copp (a : C) : C := (- fst a, - snd a).
Definition Csub (a b : C) : C := (fst a - fst b, snd a - snd b).
Definition Cmul (a b : C) : C := (fst a * fst b - snd a * snd b, fst a * snd b + snd a * fst b).
Definition Cconj (a : C) : C := (fst a, - snd a).
Definition Cscale (k : R) (a : C) : C := (k * fst a, k * snd a).
Definition Cnorm2 (a : C) : R := fst a * fst a + snd a * snd a.
Definition Cpolar (m a : R) : C := (m * cos a, m * sin a).
(** complex power delivered by voltage V and current I *)
Definition power (V I : C) : C := Cmul V (Cconj I).

(** 1 if the place is row [r] *)
Definition hit (o : option nat) (r : nat) : R := match o with Some n => if Nat.eqb n r then 1 else 0 | None => 0 end.
(** a complex number in the two rows of a bus (its voltage indexes, or its multiplier indexes) *)
Definition at_bus (b : nodes) (c : C) (r : nat) : R := hit (n_Vr b) r * fst c + hit (n_Vi b) r * snd c.
Definition at_lambda (b : nodes) (c : C) (r : nat) : R := hit (n_Lr b) r * fst c + hit (n_Li b) r * snd c.
(** the rows that hold the current balance of a bus *)
Definition balance (opt : bool) (b : nodes) (c : C) (r : nat) : R := if opt then at_lambda b c r else at_bus b c r.

(** the unknowns of a bus; the ground is at 0 *)
Definition read (v : nat -> R) (o : option nat) : R := match o with Some n => v n | None => 0 end.
Definition volt (v : nat -> R) (b : nodes) : C := (read v (n_Vr b), read v (n_Vi b)).
Definition mult (v : nat -> R) (b : nodes) : C := (read v (n_Lr b), read v (n_Li b)).

(** with optimisation the system also has the rows of the unknowns; this excludes the rows of the given unknowns *)
Definition free_row (opt : bool) (unknowns : list (option nat)) (r : nat) : Prop :=
  opt = true -> ~ In (Some r) unknowns.
Definition bus_unknowns (b : nodes) : list (option nat) := [n_Vr b; n_Vi b].
(** the complex unknown and equation of a pair of consecutive indexes *)
Definition pair_at (n : nat) : nodes := {| n_Vr := Some n; n_Vi := Some (S n); n_Lr := None; n_Li := None |}.
