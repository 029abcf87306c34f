(** Specification side of C12 and C60. *)
From Coq Require Import List Bool Arith Reals.
Import ListNotations.

(** sum of the contributions of one row *)
Fixpoint row_sum {M : Type} (contribs : list (M * nat * R)) (i : nat) : R :=
  match contribs with
  | [] => 0%R
  | (_, j, v) :: r => ((if j =? i then v else 0) + row_sum r i)%R
  end.

Section D.
Context {K V : Type}.
Variable keqb : K -> K -> bool.
Variable zero : V.
Variable add : V -> V -> V.

Definition has_key (d : list (K * V)) (k : K) : bool := existsb (fun kv => keqb k (fst kv)) d.
(** value of a key, zero when missing *)
Fixpoint value_of (d : list (K * V)) (k : K) : V :=
  match d with [] => zero | (k', v) :: r => if keqb k k' then v else value_of r k end.
(** sum of the values of a key over several dictionaries *)
Definition total_of (ds : list (list (K * V))) (k : K) : V :=
  fold_right (fun d acc => add (value_of d k) acc) zero ds.
Definition unique_keys (d : list (K * V)) : Prop := NoDup (map fst d).
End D.
