(** Specification side of C07/C08/C13/C25: stamping every element on its own. *)
From Coq Require Import List Bool Arith ZArith.
From Verif Require Import Stamper.
Import ListNotations.

Section Spec.
Context {T K P RK M : Type}.
Variable zero nan : T.
Notation stamp := (@stamp T K P).
Notation resid := (@resid T P RK).
Notation coll := (@coll T K P RK M).

(** The operating point an element sees: unknowns, homotopy factor (None before the first pass). *)
Record point := { pt_v : nat -> T; pt_tx : option T }.

(** value of a variable: ground (no index) is zero *)
Definition var_value (pt : point) (i : option nat) : T :=
  match i with None => zero | Some n => pt_v pt n end.
(** a multiplier has a value only when optimising *)
Definition dual_value (opt : bool) (pt : point) (i : option nat) : T :=
  match i with None => zero | Some n => if opt then pt_v pt n else nan end.

(** constants, with the homotopy factor at its place *)
Fixpoint put_tx (l : list T) (n : nat) (x : T) : list T :=
  match l, n with
  | [], _ => []
  | _ :: r, O => x :: r
  | y :: r, S n => y :: put_tx r n x
  end.
Definition const_values (tx : option nat) (pt : point) (cs : list T) : list T :=
  match tx, pt_tx pt with
  | Some n, Some x => put_tx cs n x
  | _, _ => cs
  end.

(** the argument list of one element at one operating point *)
Definition element_args (opt : bool) (tx : option nat) (pt : point) (i : @input T) : list T :=
  const_values tx pt (in_consts i) ++ map (var_value pt) (in_primals i) ++ map (dual_value opt pt) (in_duals i).

Definition stamp_event (opt : bool) (pt : point) (s : stamp) : @event T :=
  let x := x_eval (s_x s) (element_args opt (x_tx (s_x s)) pt (s_in s)) in
  if x_isJ (s_x s) then EvJ (s_row s) x else EvY (s_row s) (s_col s) x.

Definition all_stamps (cs : list coll) : list stamp := flat_map (@c_stamps _ _ _ _ _) cs.

(** the events of all linear (non-linear) stamps of all elements *)
Definition element_events (opt linear : bool) (pt : point) (cs : list coll) : list (@event T) :=
  map (stamp_event opt pt) (filter (fun s => Bool.eqb (x_linear (s_x s)) linear) (all_stamps cs)).

Definition resid_contribution (opt : bool) (pt : point) (m : M) (r : resid) : M * nat * T :=
  (m, r_row r, r_eval r (element_args opt (r_tx r) pt (r_in r))).

Definition element_residuals (opt : bool) (pt : point) (cs : list coll) : list (M * nat * T) :=
  flat_map (fun c => map (resid_contribution opt pt (c_model c)) (c_resids c)) cs.

(** What the caller has to respect: equal keys mean equal expressions (keys are the text of the
    whole segment), the homotopy factor is one of the constants, argument lists have the declared length,
    and an element with residuals has at least one stamp, all over the same parameters. *)
Definition input_ok (n : nat) (tx : option nat) (i : @input T) : Prop :=
  input_len i = n /\ match tx with Some t => t < length (in_consts i) | None => True end.

Record well_formed (cs : list coll) : Prop := {
  wf_key : forall s1 s2, In s1 (all_stamps cs) -> In s2 (all_stamps cs) ->
             x_key (s_x s1) = x_key (s_x s2) -> s_x s1 = s_x s2;
  wf_pkey : forall s1 s2, In s1 (all_stamps cs) -> In s2 (all_stamps cs) ->
             x_pkey (s_x s1) = x_pkey (s_x s2) ->
             x_nparams (s_x s1) = x_nparams (s_x s2) /\ x_tx (s_x s1) = x_tx (s_x s2);
  wf_input : forall s, In s (all_stamps cs) -> input_ok (x_nparams (s_x s)) (x_tx (s_x s)) (s_in s);
  wf_rkey : forall c1 c2 r1 r2, In c1 cs -> In c2 cs -> In r1 (c_resids c1) -> In r2 (c_resids c2) ->
             r_key r1 = r_key r2 -> r_eval r1 = r_eval r2 /\ r_pkey r1 = r_pkey r2;
  wf_resid : forall c r, In c cs -> In r (c_resids c) ->
             c_stamps c <> [] /\ input_ok (r_nparams r) (r_tx r) (r_in r) /\
             forall s, In s (c_stamps c) ->
               x_pkey (s_x s) = r_pkey r /\ x_nparams (s_x s) = r_nparams r /\ x_tx (s_x s) = r_tx r
}.
End Spec.
