(** Specification side of C01-C06: what a list of stamp entries means for an equation.
    Nothing here refers to how the entries are produced. *)
From Coq Require Import Reals List String Bool.
From Verif Require Import Expr Segment.
Import ListNotations.
Local Open Scope string_scope.
Local Open Scope R_scope.
Local Open Scope list_scope.

(** [Ysum]: sum over unknowns of coefficient times value; [Jsum]: right hand side;
    [Ycoef]: total coefficient of one unknown. *)
Fixpoint Ysum (evs : list evaluation) (rho : env) : R :=
  match evs with
  | [] => 0
  | ev :: r => match ev_yth ev with Some x => den (ev_expr ev) rho * rho x | None => 0 end + Ysum r rho
  end.
Fixpoint Jsum (evs : list evaluation) (rho : env) : R :=
  match evs with
  | [] => 0
  | ev :: r => match ev_yth ev with Some _ => 0 | None => den (ev_expr ev) rho end + Jsum r rho
  end.
Fixpoint Ycoef (evs : list evaluation) (x : sym) (rho : env) : R :=
  match evs with
  | [] => 0
  | ev :: r => match ev_yth ev with
               | Some y => if String.eqb y x then den (ev_expr ev) rho else 0
               | None => 0 end + Ycoef r x rho
  end.


(** A declared name is one of the constants or variables of the definition. *)
Definition declared (t : two_terminal) (x : sym) : Prop :=
  In x (tt_constants t) \/ In x (tt_variables t).

Definition only_declared (t : two_terminal) (e : expr) : Prop :=
  forall x, In x (fsyms e) -> declared t x.

(** The multipliers the code introduces for the two terminals and for the equalities. *)
Definition multipliers (t : two_terminal) : list sym :=
  [Lr_from; Li_from; Lr_to; Li_to] ++ map fst (tt_equalities t).
