(** Model of src/logic/residualdetails.py and src/models/helpers.py. *)
From Coq Require Import List Bool Arith Reals.
Import ListNotations.

Section Resid.
Local Open Scope R_scope.
Context {M : Type}.   (* the model object in a contribution, only carried along *)

(** self.residuals[index] += value, residualdetails.py:8-9; None is IndexError.
    (Indices are natural numbers: python's negative indices are not modelled.) *)
Fixpoint add_at (l : list R) (i : nat) (v : R) : option (list R) :=
  match l, i with
  | [], _ => None
  | x :: r, O => Some ((x + v) :: r)
  | x :: r, S i => option_map (cons x) (add_at r i v)
  end.

Definition accumulate (contribs : list (M * nat * R)) (v_len : nat) : option (list R) :=
  fold_left (fun acc c => match acc with
                          | Some l => add_at l (snd (fst c)) (snd c)
                          | None => None
                          end) contribs (Some (repeat 0 v_len)).

(** np.amax / np.argmax of a non-empty list: the first position of the largest element *)
Fixpoint argmax_from (best : R) (besti : nat) (i : nat) (l : list R) : R * nat :=
  match l with
  | [] => (best, besti)
  | x :: r => if Rlt_dec best x then argmax_from x i (S i) r else argmax_from best besti (S i) r
  end.

Definition argmax (l : list R) : option (R * nat) :=
  match l with
  | [] => None                      (* ValueError: zero-size array *)
  | x :: r => Some (argmax_from x 0 1 r)
  end.

Record residual_details := { rd_residuals : list R; rd_max : R; rd_max_idx : nat }.

(** ResidualDetails.__init__, residualdetails.py:4-12 *)
Definition mk_residual_details (contribs : list (M * nat * R)) (v_len : nat) : option residual_details :=
  match accumulate contribs v_len with
  | None => None
  | Some res => match argmax (map Rabs res) with
                | None => None
                | Some (m, k) => Some {| rd_residuals := res; rd_max := m; rd_max_idx := k |}
                end
  end.
End Resid.

Section Merge.
Context {K V : Type}.
Variable keqb : K -> K -> bool.
Variable zero : V.
Variable add : V -> V -> V.

(** target_residual[key] = 0 if missing; += value, helpers.py:6-9 *)
Fixpoint merge_key (d : list (K * V)) (k : K) (v : V) : list (K * V) :=
  match d with
  | [] => [(k, add zero v)]
  | (k', w) :: r => if keqb k k' then (k', add w v) :: r else (k', w) :: merge_key r k v
  end.

(** merge_residuals, helpers.py:3-11 (inputs are different objects from the target) *)
Definition merge_residuals (target : list (K * V)) (inputs : list (list (K * V))) : list (K * V) :=
  fold_left (fun t input => fold_left (fun t kv => merge_key t (fst kv) (snd kv)) input t) inputs target.
End Merge.
