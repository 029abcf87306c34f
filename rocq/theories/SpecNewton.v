(** Specification side of C150. *)
From Coq Require Import List Bool Arith Reals.
From Verif Require Import SpecSystem Components SpecComponents Network SpecNetwork Solver SpecSolver.
Import ListNotations.
Local Open Scope R_scope.

(** no generators, no constant power and no center tapped transformer with ratio 0 *)
Definition linear_elem (e : elem) : Prop :=
  match e with
  | EGen _ => False
  | ELoad l _ _ => (ld_P l, ld_Q l) = C0
  | ECt c _ _ _ _ _ _ => ct_ratio c <> 0
  | _ => True
  end.
Definition linear_network (nw : network) : Prop := forall e, In e (elements nw) -> linear_elem e.

(** a system of linear equations with exactly one solution *)
Definition regular (es : list (nat * nat * R)) (J : list R) : Prop :=
  exists v, exact_solution es J v /\ forall w, exact_solution es J w -> w = v.
(** a linear solver that solves all of those exactly; of the others nothing is said *)
Definition solves_regular {So} (spsolve : So -> list (nat * nat * R) -> list R -> So * option (list R)) : Prop :=
  forall so es J, regular es J -> exists so' v, spsolve so es J = (so', Some v) /\ exact_solution es J v.
(** [n] equations with exactly one solution in [n] unknowns *)
Definition solution (es : list element) (v : list R) : Prop := forall r, (r < length v)%nat -> F es (vec v) 0 r = 0.
Definition one_solution (es : list element) (n : nat) : Prop :=
  exists v, length v = n /\ solution es v /\ forall w, length w = n -> solution es w -> w = v.
