(** Python exceptions as values, used by the models of the two parsers.  No part of the program is
    modelled here: these are the language's own operations. *)
From Coq Require Import Reals List Bool.
Import ListNotations.
Local Open Scope R_scope.
Set Implicit Arguments.

(** the Python exceptions that can occur while parsing *)
Inductive perr := 
  | KeyError | AttributeError | ZeroDivisionError | ValueError | NameError
  | TypeError | IndexError | UnboundLocalError
  | Raised (* an explicit raise Exception *).
Inductive pres (A : Type) := Ok (a : A) | Err (e : perr).
Arguments Ok {A} a.
Arguments Err {A} e.
Definition pbind A B (m : pres A) (f : A -> pres B) : pres B :=
  match m with Ok a => f a | Err e => Err e end.
Definition guard (b : bool) (e : perr) : pres unit := if b then Ok tt else Err e.
Notation "'do' x <- m ; k" := (pbind m (fun x => k)) (at level 200, x name, m at level 100, k at level 200).
Notation "'check' b 'else' e ; k" := (pbind (guard b e) (fun _ => k)) (at level 200, b at level 100, e at level 100, k at level 200).

Definition rltb (x y : R) : bool := if Rlt_dec x y then true else false.
Definition reqb (x y : R) : bool := if Req_EM_T x y then true else false.

(** Python's x / y, x ** 0.5: *)
Definition pdiv (x y : R) : pres R := if reqb y 0 then Err ZeroDivisionError else Ok (x / y).
Definition psqrt (x : R) : pres R := if rltb x 0 then Err ValueError else Ok (sqrt x).


(** a for loop carrying a state; the first exception ends it *)
Fixpoint mfold S X (f : S -> X -> pres S) (l : list X) (s : S) : pres S :=
  match l with [] => Ok s | x :: l => do s' <- f s x; mfold f l s' end.
