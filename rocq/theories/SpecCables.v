(** What the shunt admittance of a line and the series impedance of a cable line are; written without the reader.
    Numbers of equations refer to Kersting, Distribution System Modeling and Analysis, third edition. *)
From Coq Require Import Reals ZArith String Ascii List Bool.
From Verif Require Import PyExc SpecComponents SpecUnbalanced Components UnbalancedLine LineImpedance SpecLineZ.
Import ListNotations.
Local Open Scope R_scope.
Set Implicit Arguments.

(** *** cables with concentric neutrals *)
Definition right_inverse (b : nat) (y f : nat -> nat -> C) : Prop :=
  forall v i, (i < b)%nat -> times b f (times b y v) i = v i.
(** siemens per mile: rb is the radius of the circle through the neutral strands, rc that of the conductor, rs that of a
    strand, all in the same unit; k is the number of strands (5.31) *)
Definition ring_factor (rb rc rs : R) (k : Z) : R := ln (rb / rc) - / IZR k * ln (IZR k * rs / rb).
Definition ring_shunt (rb rc rs : R) (k : Z) : R := 77.3619 / 1000000 / ring_factor rb rc rs k.
(** outer diameter, strand diameter and conductor diameter in inches, and number of strands *)
Definition drawn (w : wire) (od nd cd : R) (k : Z) : Prop :=
  w_outer w = Some od /\ w_cnd w = Some nd /\ w_cdiam w = Some cd /\ w_k w = Some k.
(** possible measures *)
Definition sound (od nd cd : R) (k : Z) : Prop := 0 < nd < od /\ 0 < cd /\ (0 < k)%Z.
(** y i is half of the shunt susceptance of the i-th wire; strands of no thickness leave none *)
Definition half_shunts (ws : list wire) (y : nat -> R) : Prop :=
  forall i w, nth_error ws i = Some w ->
    ((w_phase w = "N"%string /\ y i = 0) \/
     (w_phase w <> "N"%string /\ (i < 3)%nat /\ y i = 0 /\ exists od cd k, drawn w od 0 cd k /\ 0 < od /\ 0 < cd /\ k <> 0%Z)) \/
    (w_phase w <> "N"%string /\ (i < 3)%nat /\ exists od nd cd k, drawn w od nd cd k /\ sound od nd cd k /\
       ring_factor ((od - nd) / 2) (cd / 2) (nd / 2) k <> 0 /\ y i = ring_shunt ((od - nd) / 2) (cd / 2) (nd / 2) k / 2).

(** Carson's equations for cables, ohms per mile; lengths in feet *)
Definition cable_self (r gmr : R) : C := (r + 0.09327, 0.12134 * (ln (1 / gmr) + 7.95153)).
Definition cable_mutual (d : R) : C := (0.09327, 0.12134 * (ln (1 / d) + 7.95153)).
(** radius of the circle through the strands in feet, number of strands, resistance and GMR of conductor and strand *)
Record cdata := { c_radius : R; c_k : Z; c_r : R; c_g : R; c_sr : R; c_sg : R }.
Definition has_data (w : wire) (c : cdata) : Prop :=
  w_phase w <> "N"%string /\
  (exists od nd, w_outer w = Some od /\ w_cnd w = Some nd /\ c_radius c = (od - nd) / 24) /\
  w_k w = Some (c_k c) /\ w_res w = Some (c_r c) /\ w_gmr w = Some (c_g c) /\ w_cres w = Some (c_sr c) /\ w_cgmr w = Some (c_sg c) /\
  0 < c_radius c /\ (0 < c_k c)%Z /\ 0 < c_g c /\ 0 < c_sg c.
(** x is the positive k-th root of y *)
Definition root (k : Z) (y x : R) : Prop := 0 < x /\ x ^ Z.to_nat k = y.
(** cables cs, and a separate neutral with resistance and GMR if any *)
Definition laid (ws : list wire) (cs : list cdata) (neutral : option (R * R)) : Prop :=
  exists ps ns, ws = (ps ++ ns)%list /\ Forall2 has_data ps cs /\ cs <> [] /\
    match neutral with
    | None => ns = []
    | Some (r, g) => exists w, ns = [w] /\ w_phase w = "N"%string /\ w_res w = Some r /\ w_gmr w = Some g /\ 0 < g
    end.
(** the radius of the neutral of the j-th wire; 0 for the separate neutral *)
Definition ring (cs : list cdata) (j : nat) : R := match nth_error cs j with Some c => c_radius c | None => 0 end.
(** the table gives the distances D of the wires, larger than the radius of any neutral *)
Definition surveyed (b : nat) (cs : list cdata) (d : dmat) (D : nat -> nat -> R) : Prop :=
  forall i j, (i < b)%nat -> (j < b)%nat ->
    (exists row, nth_error d i = Some row /\ nth_error row j = Some (D i j)) /\ (i <> j -> 0 < D i j /\ ring cs j < D i j).
(** the number of strands of the last cable *)
Definition last_k (cs : list cdata) : Z := match rev cs with c :: _ => c_k c | [] => 0%Z end.
(** the primitive impedances: first the conductors, then the neutrals of all wires (4.78 - 4.86) *)
Definition cable_primitive (cs : list cdata) (neutral : option (R * R)) (b : nat) (D : nat -> nat -> R) (z : nat -> nat -> C) : Prop :=
  let n := List.length cs in
  (forall i c, nth_error cs i = Some c ->
     z i i = cable_self (c_r c) (c_g c) /\
     (exists g, root (c_k c) (c_sg c * IZR (c_k c) * c_radius c ^ (Z.to_nat (c_k c) - 1)) g /\
                z (n + i)%nat (n + i)%nat = cable_self (c_sr c / IZR (c_k c)) g) /\
     z i (n + i)%nat = cable_mutual (c_radius c) /\ z (n + i)%nat i = cable_mutual (c_radius c)) /\
  (forall r g, neutral = Some (r, g) -> z (n + n)%nat (n + n)%nat = cable_self r g) /\
  (forall i j, (i < n)%nat -> (j < n)%nat -> i <> j -> z i j = cable_mutual (D i j)) /\
  (forall i j, (i < b)%nat -> (j < b)%nat -> i <> j -> z (n + i)%nat (n + j)%nat = cable_mutual (D i j)) /\
  (forall i j, (i < n)%nat -> (j < b)%nat -> i <> j ->
     exists x, root (last_k cs) (D i j ^ Z.to_nat (last_k cs) - ring cs j ^ Z.to_nat (last_k cs)) x /\
               z i (n + j)%nat = cable_mutual x /\ z (n + j)%nat i = cable_mutual x).
(** matrix inversion finds the inverse of f *)
Definition inverts (E : prims) (b : nat) (f : nat -> nat -> C) : Prop :=
  forall m, holds b b m f -> exists y fy, p_inv E m = Some y /\ holds b b y fy /\ left_inverse b fy f /\ right_inverse b fy f.
(** with currents ia in the conductors and inn in the neutrals, the neutrals being grounded, the voltage drops are fk ia *)
Definition grounded_law (n b : nat) (z fk : nat -> nat -> C) : Prop :=
  forall ia inn,
    (forall a, (a < b)%nat -> Cadd (times n (fun i j => z (n + i)%nat j) ia a) (times b (fun i j => z (n + i)%nat (n + j)%nat) inn a) = C0) ->
    forall i, (i < n)%nat -> Cadd (times n z ia i) (times b (fun i j => z i (n + j)%nat) inn i) = times n fk ia i.

(** *** overhead lines *)
Section Overhead.
Variable X : string -> string -> R.   (* distances between wires *)
Variable h : string -> R.             (* heights above earth *)
Variable rad : string -> R.           (* half diameters *)
(** distance from p to the mirror image of q in the earth *)
Definition mirror (p q : string) : R := if String.eqb p q then 2 * h p else sqrt (X p q * X p q + 4 * h p * h q).
(** the one used: from a phase to the neutral it is the right one *)
Definition used_mirror (p q : string) : R :=
  if String.eqb p q then 2 * h p
  else if String.eqb p "N" then 2 * h p
  else if String.eqb q "N" then sqrt (X p q * X p q + 4 * h p * h q)
  else sqrt (X p q * X p q + 4 * h p * h p).
(** potential coefficients (5.9, 5.10), miles per microfarad *)
Definition coeff (S : string -> string -> R) (p q : string) : R :=
  11.17689 * ln (S p q / (if String.eqb p q then rad p else X p q)).
(** the table has these measures for the wires *)
Definition measured (ws : list wire) (d : dmat) : Prop :=
  NoDup (map w_phase ws) /\ incl (map w_phase ws) line_phases /\
  (forall w, In w ws -> exists dm, w_diam w = Some dm /\ 0 < dm /\ rad (w_phase w) = dm / 2) /\
  (forall w a, In w ws -> nth_error spots a = Some (w_phase w) -> at2 d a a = 0 /\ at2 d a 4 = h (w_phase w) /\ 0 < h (w_phase w)) /\
  (forall v w a b, In v ws -> In w ws -> w_phase v <> w_phase w -> nth_error spots a = Some (w_phase v) ->
     nth_error spots b = Some (w_phase w) -> at2 d a b = X (w_phase v) (w_phase w) /\ 0 < X (w_phase v) (w_phase w)) /\
  (forall w, In w ws -> w_phase w <> "N"%string -> In "N"%string (map w_phase ws) ->
     (h (w_phase w) - h "N"%string) * (h (w_phase w) - h "N"%string) <= X (w_phase w) "N"%string * X (w_phase w) "N"%string).
End Overhead.
(** real numbers as complex ones *)
Definition real (f : nat -> nat -> R) (i j : nat) : C := (f i j, 0).
(** 60 Hz: j omega / 2, per microfarad *)
Definition half_charging (q : C) : C := Cmul (0, 2 * PI * 60 / 1000000 / 2) q.
(** the neutral, wire n, earthed *)
Definition earthed (n : nat) (P : nat -> nat -> R) (i j : nat) : R := P i j - P i n * P n j / P n n.
