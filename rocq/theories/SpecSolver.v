(** Specification side of C16-C20 and C25. *)
From Coq Require Import List Bool Arith ZArith Reals.
From Verif Require Import Stamper Builder SpecBuilder Residual Collect SpecSystem Solver.
Import ListNotations.
Local Open Scope R_scope.

(** row [r] of a matrix given by coordinate triples, times a vector *)
Fixpoint mat_row (es : list (nat * nat * R)) (v : nat -> R) (r : nat) : R :=
  match es with
  | [] => 0
  | (i, j, x) :: rest => (if Nat.eqb i r then x * v j else 0) + mat_row rest v r
  end.

(** [lin] and [J] are the linearisation of the network equations at [u]:
    the matrix is the Jacobian, and the right hand side makes the linear model exact at [u]. *)
Definition linearised_at (els : list element) (tx : R) (u : nat -> R) (lin : list (nat * nat * R)) (J : list R) : Prop :=
  (forall r c, derivable_pt_lim (fun t => F els (set_v u c t) tx r) (u c) (mat_at lin r c)) /\
  (forall r, (r < length J)%nat -> nth r J 0 = mat_row lin u r - F els u tx r).

(** a linear solver answer that is an exact solution *)
Definition exact_solution (es : list (nat * nat * R)) (J v : list R) : Prop :=
  length v = length J /\ forall r, (r < length J)%nat -> mat_row es (vec v) r = nth r J 0.

(** [m, b] is a least squares line through the points (0, y0), (1, y1), ... *)
Definition sse (h : list R) (m b : R) : R := sum_from (fun i y => (y - (m * INR i + b)) * (y - (m * INR i + b))) 0 h.
Definition is_least_squares_slope (h : list R) (m : R) : Prop :=
  exists b, forall m' b', sse h m b <= sse h m' b'.

(** the solver working on the stamper of a network *)
Section Net.
Context {K M So : Type}.
Definition network_run (spsolve : So -> list (nat * nat * R) -> list R -> So * option (list R))
    (limiting : option (list R -> list R -> option (list R))) (cfg : settings)
    (st : @mstamper R skey (list Expr.sym) M) (so : So) (v_init : list R) (tx : R)
    : @nresult (@mstamper R skey (list Expr.sym) M) So :=
  nr_run (stamp_linear pkey_eqb) (stamp_nonlinear pkey_eqb) (calc_residuals pkey_eqb) spsolve limiting cfg st so v_init tx.
End Net.
