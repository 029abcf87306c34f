(** Specification side of C36, C37 and C64: a network with a complex admittance matrix. *)
From Coq Require Import Reals List Bool Arith.
From Verif Require Import Collect Components SpecComponents SpecSystem.
Import ListNotations.
Local Open Scope R_scope.

Definition Rsum (g : nat -> R) (n : nat) : R := fold_right (fun i acc => g i + acc) 0 (seq 0 n).
Definition Csum (g : nat -> C) (n : nat) : C := fold_right (fun i acc => Cadd (g i) acc) C0 (seq 0 n).
Definition dot (a b : C) : R := fst a * fst b + snd a * snd b.

(** scaling of an entry of the admittance matrix with the homotopy factor *)
Definition series_scale (tx : R) (i j : nat) : R := if Nat.eqb i j then 1 + 20 * tx else 1 - tx.

Section Line.
Variable n : nat.
Variable Y : nat -> nat -> C.     (* series admittances *)
Variable B : nat -> nat -> R.     (* shunt susceptances *)
Variable Vf Vt : nat -> C.
Variable tx : R.
(** currents entering phase i at the two ends *)
Definition I_series (i : nat) : C := Csum (fun j => Cscale (series_scale tx i j) (Cmul (Y i j) (Csub (Vf j) (Vt j)))) n.
Definition I_shunt (V : nat -> C) (i : nat) : C := Csum (fun j => Cscale (1 - tx) (Cmul (0, B i j / 2) (V j))) n.
Definition I_from (i : nat) : C := Cadd (I_series i) (I_shunt Vf i).
Definition I_to (i : nat) : C := Cadd (Copp (I_series i)) (I_shunt Vt i).
End Line.

(** sum of multiplier times current over all ends of all phases: the Lagrangian of the line *)
Definition line_lagrangian (lines : list (nodes * nodes)) (Y : nat -> nat -> C) (B : nat -> nat -> R) (tx : R) (v : nat -> R) : R :=
  let f i := fst (nth i lines (GROUND, GROUND)) in let t i := snd (nth i lines (GROUND, GROUND)) in
  let n := length lines in
  Rsum (fun i => dot (mult v (f i)) (I_from n Y B (fun j => volt v (f j)) (fun j => volt v (t j)) tx i) +
                 dot (mult v (t i)) (I_to n Y B (fun j => volt v (f j)) (fun j => volt v (t j)) tx i)) n.

(** all indexes of the ends of a line, which must be different numbers *)
Definition bus_indexes (b : nodes) : list (option nat) := [n_Vr b; n_Vi b; n_Lr b; n_Li b].
Definition line_indexes (lines : list (nodes * nodes)) : list (option nat) :=
  flat_map (fun x => bus_indexes (fst x) ++ bus_indexes (snd x)) lines.
Definition well_placed (lines : list (nodes * nodes)) : Prop :=
  NoDup (line_indexes lines) /\ ~ In None (line_indexes lines).
(** the unknown voltages of a line *)
Definition voltage_unknown (lines : list (nodes * nodes)) (c : nat) : Prop :=
  exists x, In x lines /\ In (Some c) (bus_unknowns (fst x) ++ bus_unknowns (snd x)).
