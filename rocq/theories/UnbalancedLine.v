(** Model of src/models/components/unbalanced_line.py.

    Simplifications: exact numbers (a matrix entry is a complex number or [None] for inf/nan); np.linalg.inv is a parameter
    (it may raise, [None], or return any matrix); a phase is represented by the indexes of its two buses, and the dictionary
    of stampers keyed by (sending bus of i, receiving bus of j) is represented by the pair (i, j), i.e. the phases of one line
    are assumed to have different buses. *)
From Coq Require Import String List Bool Arith ZArith Reals.
From Verif Require Import Expr Segment Collect SpecSystem Components.
Import ListNotations.
Local Open Scope R_scope.

(** *** stamps *)
(** the maps built at 98-157: equations of phase i, unknowns of phase j *)
Definition unb_details (s : segment) (fi ti fj tj : nodes) (opt : bool) : details :=
  {| sd_seg := s; sd_var := bus_map fj tj; sd_eqn := Some (bus_map fi ti); sd_opt := opt |}.
Definition phase (lines : list (nodes * nodes)) (i : nat) : nodes * nodes := nth i lines (GROUND, GROUND).
(** assign_nodes 93-177, get_stamps 184-194, __loop_line_stampers 196-223; [B] is the imaginary part of the shunt admittance
    (0 where there is none), the real part is not used *)
Definition unb_pair (lines : list (nodes * nodes)) (g b B : nat -> nat -> R) (opt : bool) (i j : nat) : list stamper :=
  let (fi, ti) := phase lines i in
  let (fj, tj) := phase lines j in
  [ (Some (unb_details (if Nat.eqb i j then line_lh else shunt_lh) fi ti fj tj opt), [g i j; b i j; 0]);
    (Some (unb_details shunt_lh fi GROUND fj GROUND opt), [0; B i j / 2; 0]);
    (Some (unb_details shunt_lh ti GROUND tj GROUND opt), [0; B i j / 2; 0]) ].
Definition unb_stampers (lines : list (nodes * nodes)) (g b B : nat -> nat -> R) (opt : bool) : list stamper :=
  let n := length lines in
  flat_map (fun i => flat_map (fun j => unb_pair lines g b B opt i j) (seq 0 n)) (seq 0 n).

(** *** construction *)
Definition cnum := (R * R)%type.
Definition xnum := option cnum.
Definition cis0 (c : cnum) : bool := both0 (fst c) (snd c).
Definition xis0 (x : xnum) : bool := match x with Some c => cis0 c | None => false end.
Definition xadd (a b : xnum) : xnum :=
  match a, b with Some a, Some b => Some (fst a + fst b, snd a + snd b) | _, _ => None end.
Definition xmul (a b : xnum) : xnum :=
  match a, b with Some a, Some b => Some (fst a * fst b - snd a * snd b, fst a * snd b + snd a * fst b) | _, _ => None end.
Definition matrix := list (list xnum).
Definition entry (m : matrix) (i j : nat) : xnum := nth j (nth i m []) (Some (0, 0)).
Definition square (n : nat) (m : matrix) : bool := Nat.eqb (length m) n && forallb (fun r => Nat.eqb (length r) n) m.

Section New.
Variable inv : matrix -> option matrix.

(** np.count_nonzero, line 13 *)
Definition count_nonzero (m : matrix) : nat := length (filter (fun x => negb (xis0 x)) (concat m)).
(** 1 / z for a finite non-zero z, 1 / inf = 0 *)
Definition xinv (x : xnum) : xnum :=
  match x with
  | Some c => if cis0 c then None else let d := fst c * fst c + snd c * snd c in Some (fst c / d, - snd c / d)
  | None => Some (0, 0)
  end.
(** lines 15-17 *)
Definition put_inf (m : matrix) : matrix := map (map (fun x => if xis0 x then None else x)) m.
Definition zero_row (r : list xnum) : bool := forallb xis0 r.
Definition zero_col (m : matrix) (j : nat) : bool := forallb (fun r => xis0 (nth j r (Some (0, 0)))) m.
Fixpoint index_true (l : list bool) : option nat :=
  match l with [] => None | true :: _ => Some 0%nat | false :: l => match index_true l with Some n => Some (S n) | None => None end end.
Definition insert_at {A} (n : nat) (x : A) (l : list A) : list A := firstn n l ++ x :: skipn n l.
(** lines 18-34; None where an exception is raised *)
Definition calc_inverse_rest (n : nat) (z : matrix) : option matrix :=
  let row0 := map zero_row z in
  let red1 := filter (fun r => negb (zero_row r)) z in
  let keep := filter (fun j => negb (zero_col red1 j)) (seq 0 n) in
  let red := map (fun r => map (fun j => nth j r (Some (0, 0))) keep) red1 in
  match inv red with
  | None => None
  | Some y =>
      if Nat.eqb (length y) 2 then
        match index_true row0, index_true (map (zero_col red1) (seq 0 n)) with
        | Some ri, Some ci =>
            let y1 := insert_at ri (repeat (Some (0, 0)) (length (hd [] y))) y in
            Some (map (insert_at ci (Some (0, 0))) y1)
        | _, _ => None
        end
      else Some y
  end.
(** calcInverse, lines 12-35: the matrix after the call (changed in place at 15) and the result *)
Definition calc_inverse (n : nat) (z : matrix) : matrix * option matrix :=
  if Nat.eqb (count_nonzero z) 1 then let z' := put_inf z in (z', Some (map (map xinv) z'))
  else (z, calc_inverse_rest n z).

(** np.dot of two n x n matrices *)
Definition mdot (n : nat) (a b : matrix) (i j : nat) : xnum :=
  fold_right (fun k acc => xadd (xmul (entry a i k) (entry b k j)) acc) (Some (0, 0)) (seq 0 n).
(** np.allclose against the identity: |x - d| <= 1e-8 + 1e-5 |d|; complex absolute value, squared on both sides *)
Definition close_to (x : xnum) (d : R) : bool :=
  match x with
  | None => false
  | Some c => let tol := 1 / 100000000 + 1 / 100000 * d in
              if Rle_dec ((fst c - d) * (fst c - d) + snd c * snd c) (tol * tol) then true else false
  end.
Definition near_identity (n : nat) (z y : matrix) : bool :=
  forallb (fun i => forallb (fun j => close_to (mdot n z y i j) (if Nat.eqb i j then 1 else 0)) (seq 0 n)) (seq 0 n).

Definition scale (len : R) (m : matrix) : matrix :=
  map (map (fun x => match x with Some c => Some (len * fst c, len * snd c) | None => None end)) m.
(** __init__, lines 60-75: the stored impedances and admittances; [None] when it raises.
    A result that is not n x n makes np.dot or the comparison fail (or compare unequal after broadcasting). *)
Definition new_unbalanced (z0 : matrix) (len : R) (nphases : nat) : option (matrix * matrix) :=
  let n := length z0 in
  if (Nat.leb 1 n && Nat.leb n 3 && square n z0)%bool then
    let z := scale len z0 in
    let (z', y1) := calc_inverse n z in
    match (match y1 with Some y => Some y | None => inv z' end) with
    | None => None
    | Some y => if (square n y && Nat.eqb nphases n && near_identity n z' y)%bool then Some (z', y) else None
    end
  else None.
End New.
