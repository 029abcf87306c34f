(** Specification side of C07 (traces), C08, C13, C61: the equations of a network of elements. *)
From Coq Require Import ZArith Reals List String Bool Arith Permutation.
From Verif Require Import Expr Segment Stamper SpecStamper Collect.
Import ListNotations.
Local Open Scope R_scope.

(** *** Traces of stamper operations *)
Section Trace.
Context {T K P RK M : Type}.
Variable zero nan : T.
Variable peqb : P -> P -> bool.

Inductive sop := OLinear (tx : T) | ONonlinear (v : nat -> T) (k : Z) | OResiduals (tx : T) (v : nat -> T) (k : Z).
Inductive sout := OutEvents (l : list (@event T)) | OutResids (l : list (M * nat * T)).

(** running the batched stamper *)
Definition do_op (ms : @mstamper T K P M) (o : sop) : @mstamper T K P M * sout :=
  match o with
  | OLinear tx => let (ms', l) := stamp_linear peqb ms tx in (ms', OutEvents l)
  | ONonlinear v k => let (ms', l) := stamp_nonlinear peqb ms v k in (ms', OutEvents l)
  | OResiduals tx v k => let (ms', l) := calc_residuals peqb ms tx v k in (ms', OutResids l)
  end.
Fixpoint do_ops (ms : @mstamper T K P M) (l : list sop) : @mstamper T K P M * list sout :=
  match l with
  | [] => (ms, [])
  | o :: r => let (ms1, x) := do_op ms o in let (ms2, xs) := do_ops ms1 r in (ms2, x :: xs)
  end.

(** What the user sees: every element evaluated on its own at the current operating point.
    The unknowns are only replaced when the iteration number changes; the homotopy factor always is. *)
Record opoint := { op_v : nat -> T; op_tx : option T; op_iter : Z }.
Definition op_start : opoint := {| op_v := fun _ => zero; op_tx := None; op_iter := (-1)%Z |}.
Definition op_point (s : opoint) : @point T := {| pt_v := op_v s; pt_tx := op_tx s |}.
Definition new_v (s : opoint) (v : nat -> T) (k : Z) : opoint :=
  {| op_v := if Z.eqb k (op_iter s) then op_v s else v; op_tx := op_tx s; op_iter := k |}.
Definition new_tx (s : opoint) (x : T) : opoint := {| op_v := op_v s; op_tx := Some x; op_iter := op_iter s |}.

Definition spec_op (opt : bool) (cs : list (@coll T K P RK M)) (s : opoint) (o : sop) : opoint * sout :=
  match o with
  | OLinear x => let s' := new_tx s x in (s', OutEvents (element_events zero nan opt true (op_point s') cs))
  | ONonlinear v k => let s' := new_v s v k in (s', OutEvents (element_events zero nan opt false (op_point s') cs))
  | OResiduals x v k => let s' := new_tx (new_v s v k) x in (s', OutResids (element_residuals zero nan opt (op_point s') cs))
  end.
Fixpoint spec_ops (opt : bool) (cs : list (@coll T K P RK M)) (s : opoint) (l : list sop) : opoint * list sout :=
  match l with
  | [] => (s, [])
  | o :: r => let (s1, x) := spec_op opt cs s o in let (s2, xs) := spec_ops opt cs s1 r in (s2, x :: xs)
  end.
End Trace.

(** *** Equations *)
Definition element := (details * list R)%type.

(** value of a name inside an element: constants by position (the homotopy factor by its current value),
    unknowns from the solution vector, ground is 0 *)
Definition sym_val (e : element) (v : nat -> R) (tx : R) : env := fun s =>
  match index_of s (sg_constants (sd_seg (fst e))) with
  | Some n => if String.eqb s tx_factor then tx else nth n (snd e) 0
  | None => match lookup (sd_var (fst e)) s with Some (Some n) => v n | _ => 0 end
  end.

(** row [r] of the network equations: the sum of the partial derivatives of all Lagrangians that are
    assigned to that row *)
Definition elem_row (e : element) (v : nat -> R) (tx : R) (r : nat) : R :=
  fold_right (fun x acc =>
     match row_index (fst e) x with
     | Some (Some r') => if Nat.eqb r' r then den (diff (sg_lagrange (sd_seg (fst e))) x) (sym_val e v tx) + acc else acc
     | _ => acc
     end) 0 (first_orders (fst e)).
Definition F (es : list element) (v : nat -> R) (tx : R) (r : nat) : R :=
  fold_right (fun e acc => elem_row e v tx r + acc) 0 es.

(** *** Assembled system, as sums over what was stamped *)
Definition Yentry (l : list (@event R)) (r c : nat) : R :=
  fold_right (fun ev acc => match ev with EvY r' c' x => (if Nat.eqb r' r && Nat.eqb c' c then x else 0) + acc | _ => acc end) 0 l.
Definition Jentry (l : list (@event R)) (r : nat) : R :=
  fold_right (fun ev acc => match ev with EvJ r' x => (if Nat.eqb r' r then x else 0) + acc | _ => acc end) 0 l.
(** row r of Y times v *)
Definition Yrow (l : list (@event R)) (v : nat -> R) (r : nat) : R :=
  fold_right (fun ev acc => match ev with EvY r' c' x => (if Nat.eqb r' r then x * v c' else 0) + acc | _ => acc end) 0 l.
Definition Rrow {M} (l : list (M * nat * R)) (r : nat) : R :=
  fold_right (fun x acc => (if Nat.eqb (snd (fst x)) r then snd x else 0) + acc) 0 l.

(** *** What an element must satisfy *)
Record element_ok (opt : bool) (e : element) : Prop := {
  eo_opt : sd_opt (fst e) = opt;
  eo_params : NoDup (sg_parameters (sd_seg (fst e)));
  eo_tx : ~ In tx_factor (sg_variables (sd_seg (fst e)));
  eo_closed : incl (fsyms (sg_lagrange (sd_seg (fst e)))) (sg_parameters (sd_seg (fst e)));
  eo_consts : List.length (snd e) = List.length (sg_constants (sd_seg (fst e)));
  (** multipliers have no place in the solution vector unless optimising *)
  eo_duals : opt = false -> forall x, In x (sg_duals (sd_seg (fst e))) -> lookup (sd_var (fst e)) x = Some None;
  eo_trig : trig_ok (sg_variables (sd_seg (fst e))) (sg_lagrange (sd_seg (fst e)))
}.

(** no negative power of zero at this operating point *)
Definition defined_at (e : element) (v : nat -> R) (tx : R) : Prop :=
  wd (sg_lagrange (sd_seg (fst e))) (sym_val e v tx).

(** elements of a list of stampers (the ones that are present) *)
Definition elements_of {M} (l : list (M * option details * list R)) : list element :=
  flat_map (fun x => match snd (fst x) with Some d => [(d, snd x)] | None => [] end) l.

(** same outputs up to the order of the contributions *)
Definition same_out {T M} (a b : @sout T M) : Prop :=
  match a, b with
  | OutEvents x, OutEvents y => Permutation x y
  | OutResids x, OutResids y => Permutation x y
  | _, _ => False
  end.

(** every element with an equation in the system also stamps something *)
Definition stamps_present {T K P RK M} (cs : list (@coll T K P RK M)) : Prop :=
  forall c, In c cs -> c_resids c <> [] -> c_stamps c <> [].

(** replacing one unknown *)
Definition set_v (v : nat -> R) (c : nat) (t : R) : nat -> R := fun n => if Nat.eqb n c then t else v n.

(** iteration number most recently given to the stamper (-1 before the first one) *)
Fixpoint last_iter {T} (k : Z) (l : list (@sop T)) : Z :=
  match l with
  | [] => k
  | OLinear _ :: r => last_iter k r
  | ONonlinear _ k' :: r | OResiduals _ _ k' :: r => last_iter k' r
  end.

(** what one element contributes to the system at a point, given the values of its names *)
Definition contributions (d : details) (rho : env) : list (@event R) :=
  flat_map (fun x => flat_map (fun ev =>
     match row_index d x, ev_yth ev with
     | Some (Some r), None => [EvJ r (den (ev_expr ev) rho)]
     | Some (Some r), Some y =>
         match lookup (sd_var d) y with
         | Some (Some c) => [EvY r c (den (ev_expr ev) rho)]
         | _ => []
         end
     | _, _ => []
     end) (dv_evals (gen_derivative (sd_seg d) x))) (first_orders d).
