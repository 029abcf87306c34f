(** What the series impedance of an overhead line is, and what a spacing object says; written without the reader. *)
From Coq Require Import Reals ZArith String Ascii List Bool.
From Verif Require Import PyExc SpecComponents SpecUnbalanced Components UnbalancedLine GlmText LineImpedance SpecReader.
Import ListNotations.
Local Open Scope R_scope.
Set Implicit Arguments.

(** *** matrices as functions *)
(** the r x c matrix m has the finite entries f *)
Definition holds (r c : nat) (m : matrix) (f : nat -> nat -> C) : Prop :=
  List.length m = r /\ forall i, (i < r)%nat ->
    List.length (nth i m []) = c /\ forall j, (j < c)%nat -> nth_error (nth i m []) j = Some (Some (f i j)).
(** matrix times vector *)
Definition times (c : nat) (f : nat -> nat -> C) (v : nat -> C) (i : nat) : C := Csum (fun j => Cmul (f i j) (v j)) c.
(** y is a left inverse of f *)
Definition left_inverse (b : nat) (y f : nat -> nat -> C) : Prop :=
  forall v i, (i < b)%nat -> times b y (times b f v) i = v i.
(** 1 / z *)
Definition Crecip (z : C) : C := let d := fst z * fst z + snd z * snd z in (fst z / d, - snd z / d).

(** *** Carson's equations, ohms per mile, 60 Hz, earth resistivity 100 ohm metres *)
Definition carson_self (r gmr : R) : C := (r + 0.0953, 0.12134 * (ln (1 / gmr) + 7.93402)).
Definition carson_mutual (d : R) : C := (0.0953, 0.12134 * (ln (1 / d) + 7.93402)).
Definition line_phases : list string := ["A"; "B"; "C"; "N"]%string.
(** own impedance of a wire: 0 without resistance or radius *)
Definition self_of (w : wire) (z : C) : Prop :=
  (exists r g, w_res w = Some r /\ w_gmr w = Some g /\ z = carson_self r g) \/ (w_res w = None \/ w_gmr w = None) /\ z = C0.
(** z gives the primitive impedances, by phase, of wires whose i-th and j-th have distance D i j; a phase without a wire has 0 *)
Definition primitive (ws : list wire) (D : nat -> nat -> R) (z : string -> string -> C) : Prop :=
  (forall i w, nth_error ws i = Some w -> self_of w (z (w_phase w) (w_phase w))) /\
  (forall i j v w, nth_error ws i = Some v -> nth_error ws j = Some w -> i <> j -> z (w_phase v) (w_phase w) = carson_mutual (D i j)) /\
  (forall p q, ~ In p (map w_phase ws) -> z p q = C0 /\ z q p = C0).
(** wires of different phases, their radii positive if they have data, at positive distances given by the table *)
Definition wired (ws : list wire) (d : dmat) (D : nat -> nat -> R) : Prop :=
  NoDup (map w_phase ws) /\ incl (map w_phase ws) line_phases /\
  (forall w r g, In w ws -> w_res w = Some r -> w_gmr w = Some g -> 0 < g) /\
  (forall i j, (i < List.length ws)%nat -> (j < List.length ws)%nat -> i <> j ->
     exists row, nth_error d i = Some row /\ nth_error row j = Some (D i j) /\ 0 < D i j).
(** the current of the neutral eliminated *)
Definition reduced (neutral : bool) (z : string -> string -> C) (p q : string) : C :=
  if neutral then Csub (z p q) (Cmul (z p "N"%string) (Cmul (Crecip (z "N" "N")%string) (z "N"%string q))) else z p q.
(** the matrix inverse of the 1 x 1 matrix z is its reciprocal *)
Definition inverts_neutral (E : prims) (z : C) : Prop := p_inv E [[Some z]] = Some [[Some (Crecip z)]].
(** the phases of the line among A, B and C, in this order *)
Definition abc_of (phases : list string) : list string := filter (fun p => existsb (String.eqb p) phases) ["A"; "B"; "C"]%string.

(** *** spacing *)
Definition spots : list string := ["A"; "B"; "C"; "N"; "E"]%string.
(** p comes before q in A, B, C, N, E *)
Definition before (p q : string) : Prop := exists l m r, spots = (l ++ p :: m ++ q :: r)%list.
(** the object gives the distance between p and q, which is not zero: the number among the characters of the text *)
Definition apart (E : prims) (o : gobj) (p q : string) (x : R) : Prop :=
  before p q /\ exists t t', says o ("distance_" ++ p ++ q) t /\ only_number t t' /\ p_float E t' = Some x /\ x <> 0.
Definition gap (E : prims) (o : gobj) (p q : string) (x : R) : Prop := apart E o p q x \/ apart E o q p x.
(** some distance from p is given *)
Definition placed (E : prims) (o : gobj) (p : string) : Prop := exists q x, gap E o p q x.
(** l lists the places in order *)
Definition places (E : prims) (o : gobj) (l : list string) : Prop :=
  exists f, (forall p, In p spots -> (f p = true <-> placed E o p)) /\ l = filter f spots.
(** the table over the places l *)
Definition tabled (E : prims) (o : gobj) (l : list string) (d : dmat) : Prop :=
  List.length d = List.length l /\
  forall i p, nth_error l i = Some p -> exists row, nth_error d i = Some row /\ List.length row = List.length l /\
    forall j q, nth_error l j = Some q -> exists x, nth_error row j = Some x /\
      (p = q -> x = 0) /\ (forall y, p <> q -> gap E o p q y -> x = y) /\ (p <> q -> (forall y, ~ gap E o p q y) -> x = -1).

(** *** triplex lines *)
Definition triplex_phases : list string := ["1"; "2"; "N"]%string.
(** diameter and insulation of the first wire that has both: distances, in feet, between the hot wires and to the neutral *)
Definition insulated (ws : list wire) (d12 d1n : R) : Prop :=
  exists l w r d t, ws = (l ++ w :: r)%list /\ (forall v, In v l -> w_diam v = None \/ w_ins v = None) /\
    w_diam w = Some d /\ w_ins w = Some t /\ 0 < d /\ 0 <= t /\ d12 = (d + 2 * t) / 12 /\ d1n = (d + t) / 12.
Definition triplex_wired (ws : list wire) : Prop :=
  NoDup (map w_phase ws) /\ incl (map w_phase ws) triplex_phases /\
  (forall w r g, In w ws -> w_res w = Some r -> w_gmr w = Some g -> 0 < g).
Definition triplex_primitive (ws : list wire) (d12 d1n : R) (z : string -> string -> C) : Prop :=
  (forall w, In w ws -> self_of w (z (w_phase w) (w_phase w))) /\
  (forall v w, In v ws -> In w ws -> w_phase v <> w_phase w ->
     (w_phase v = "N"%string \/ w_phase w = "N"%string -> z (w_phase v) (w_phase w) = carson_mutual d1n) /\
     (w_phase v <> "N"%string -> w_phase w <> "N"%string -> z (w_phase v) (w_phase w) = carson_mutual d12)) /\
  (forall p q, ~ In p (map w_phase ws) -> z p q = C0 /\ z q p = C0).
