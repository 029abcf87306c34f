(** Model of src/logic/v_limiting.py (PositiveSeqVoltageLimiting). *)
From Coq Require Import List Bool Arith Reals.
Import ListNotations.
Local Open Scope R_scope.

(** V_DIFF_MAX, V_MAX, V_MIN, v_limiting.py:5-7 *)
Definition V_DIFF_MAX : R := 1.
Definition V_MAX : R := 2.
Definition V_MIN : R := -2.

(** np.clip(x, lo, hi) = minimum(hi, maximum(lo, x)) *)
Definition clip (x lo hi : R) : R := Rmin hi (Rmax lo x).

Fixpoint set_true (l : list bool) (i : nat) : option (list bool) :=
  match l, i with
  | [], _ => None                              (* IndexError *)
  | _ :: r, O => Some (true :: r)
  | b :: r, S i => option_map (cons b) (set_true r i)
  end.

(** try_create_mask, v_limiting.py:14-21.  [buses] are the pairs (node_Vr, node_Vi).  self.version is never
    assigned after __init__, so the early return is never taken (matrix_version is not None once a matrix was assigned)
    and the mask is recomputed in every call. *)
Definition create_mask (size_Y : nat) (buses : list (nat * nat)) : option (list bool) :=
  fold_left (fun acc b => match acc with
                          | None => None
                          | Some m => match set_true m (fst b) with
                                      | None => None
                                      | Some m' => set_true m' (snd b)
                                      end
                          end) buses (Some (repeat false size_Y)).

(** apply_limiting, v_limiting.py:23-33; None when the three arrays have different lengths (ValueError / IndexError). *)
Fixpoint limit_vec (mask : list bool) (v_next v_prev : list R) : option (list R) :=
  match mask, v_next, v_prev with
  | [], [], [] => Some []
  | m :: mr, x :: xr, p :: pr =>
      option_map (cons (if m then clip (p + clip (x - p) (- V_DIFF_MAX) V_DIFF_MAX) V_MIN V_MAX else x)) (limit_vec mr xr pr)
  | _, _, _ => None
  end.

Definition apply_limiting (size_Y : nat) (buses : list (nat * nat)) (v_next v_prev : list R) : option (list R) :=
  match create_mask size_Y buses with
  | None => None
  | Some mask => limit_vec mask v_next v_prev
  end.
