(** What the user of a spacing with two places can expect. *)
From Coq Require Import Reals String List.
From Verif Require Import GlmText LineImpedance SpecReader SpecLineZ.
Import ListNotations.
Local Open Scope R_scope.
Set Implicit Arguments.

(** every distance the object gives is a number, apart from other characters in its text *)
Definition numeric (E : prims) (o : gobj) : Prop :=
  forall p q t t', before p q -> says o ("distance_" ++ p ++ q)%string t -> only_number t t' -> exists x, p_float E t' = Some x.
(** the only distance given is that between the conductors p and q *)
Definition just_two (E : prims) (o : gobj) (p q : string) (x : R) : Prop :=
  q <> "E"%string /\ 0 < x /\ apart E o p q x /\ forall a b y, apart E o a b y -> a = p /\ b = q.
(** the heights of the two above the ground are given as well *)
Definition two_high (E : prims) (o : gobj) (p q : string) (x hp hq : R) : Prop :=
  q <> "E"%string /\ 0 < x /\ 0 < hp /\ 0 < hq /\ apart E o p q x /\ apart E o p "E"%string hp /\ apart E o q "E"%string hq /\
  forall a b y, apart E o a b y -> (a = p /\ b = q) \/ (a = p /\ b = "E"%string) \/ (a = q /\ b = "E"%string).
