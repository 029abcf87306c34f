(** Model of src/logic/stamping/lagrangesegment.py. *)
From Coq Require Import ZArith Reals List String Bool.
From Verif Require Import Expr.
Import ListNotations.
Local Open Scope string_scope.
Local Open Scope list_scope.

Definition mem (s : sym) (l : list sym) : bool := existsb (String.eqb s) l.

(** The variables among the free symbols, without repetition (python iterates over a set). *)
Definition vars_of (e : expr) (vars : list sym) : list sym :=
  nodup string_dec (filter (fun s => mem s vars) (fsyms e)).

(** is_constant, lagrangesegment.py:10-14 *)
Definition is_constant (e : expr) (vars : list sym) : bool :=
  forallb (fun s => negb (mem s vars)) (fsyms e).

(** is_linear, lagrangesegment.py:16-28: not constant, exactly one variable, no Pow anywhere. *)
Definition is_linear (e : expr) (vars : list sym) : bool :=
  negb (is_constant e vars) && Nat.eqb (List.length (vars_of e vars)) 1 && negb (has_pow e).

(** get_linear_term, lagrangesegment.py:30-38 (only called on linear terms) *)
Definition get_linear_term (e : expr) (vars : list sym) : option sym :=
  if is_linear e vars then hd_error (vars_of e vars) else None.

(** The dictionary variable_expr_dict: insertion ordered, values are added up. *)
Definition vdict := list (sym * poly).

Fixpoint dict_add (d : vdict) (k : sym) (p : poly) : vdict :=
  match d with
  | [] => [(k, padd [] p)]
  | (k', q) :: r => if String.eqb k k' then (k', padd q p) :: r else (k', q) :: dict_add r k p
  end.

(** linearize_expr, lagrangesegment.py:40-49 *)
Definition linearize_expr (e : expr) (vars : list sym) : poly * vdict :=
  (fold_left (fun acc v => padd acc (expand (Mul (diff e v) (Sym v)))) vars (expand (Neg e)),
   map (fun v => (v, expand (diff e v))) vars).

(** One pass of the loop in split_expr, lagrangesegment.py:62-77 *)
Definition split_term (vars : list sym) (acc : poly * vdict) (m : mono) : poly * vdict :=
  let (c, d) := acc in
  let e := of_mono m in
  if is_constant e vars then (padd c (expand (Neg e)), d)
  else if is_linear e vars then
    match get_linear_term e vars with
    | Some t => (c, dict_add d t (expand (diff e t)))
    | None => (c, d) (* unreachable: a linear term has a variable *)
    end
  else
    let (J, Y) := linearize_expr e vars in
    (padd c J, fold_left (fun d kv => dict_add d (fst kv) (snd kv)) Y d).

(** split_expr, lagrangesegment.py:51-79.  The terms are the arguments of the expanded sum
    (the empty sum is the single term 0, which is constant and adds nothing). *)
Definition split_expr (eqn : expr) (vars : list sym) : poly * vdict :=
  fold_left (split_term vars) (expand eqn) ([], []).

(** EvaluationEntry, lagrangesegment.py:81-87; [ev_yth = None] is the J vector entry. *)
Record evaluation := { ev_yth : option sym; ev_expr : expr; ev_linear : bool }.

(** flag at lagrangesegment.py:115 and 121 *)
Definition no_variable_in (e : expr) (variables : list sym) : bool :=
  negb (existsb (fun x => mem x (fsyms e)) variables).

(** DerivativeEntry, lagrangesegment.py:89-122: entries that are 0 are left out. *)
Definition mk_evals (c : poly) (d : vdict) (variables : list sym) : list evaluation :=
  match c with
  | [] => []
  | _ => [ {| ev_yth := None; ev_expr := of_poly c; ev_linear := no_variable_in (of_poly c) variables |} ]
  end ++
  flat_map (fun kv : sym * poly =>
      match snd kv with
      | [] => []
      | p => [ {| ev_yth := Some (fst kv); ev_expr := of_poly p; ev_linear := no_variable_in (of_poly p) variables |} ]
      end) d.

(** LagrangeSegment, lagrangesegment.py:133-161 *)
Record segment := {
  sg_lagrange : expr;
  sg_constants : list sym;
  sg_primals : list sym;
  sg_duals : list sym
}.

Definition sg_variables (s : segment) : list sym := sg_primals s ++ sg_duals s.
Definition sg_parameters (s : segment) : list sym := sg_constants s ++ sg_variables s.

Fixpoint index_of (x : sym) (l : list sym) : option nat :=
  match l with
  | [] => None
  | y :: r => if String.eqb x y then Some O
              else match index_of x r with Some n => Some (S n) | None => None end
  end.

Definition tx_factor : sym := "tx_factor".

(** lagrangesegment.py:150-153 *)
Definition sg_tx_index (s : segment) : option nat := index_of tx_factor (sg_constants s).

(** get_duals_corresponding_primal, lagrangesegment.py:158-166: by position *)
Definition sg_dual_primal (s : segment) (d : sym) : option sym :=
  match index_of d (sg_duals s) with
  | Some n => nth_error (sg_primals s) n
  | None => None
  end.

(** _generate_derivatives, lagrangesegment.py:182-190 *)
Record derivative := { dv_variable : sym; dv_expr : expr; dv_evals : list evaluation }.

Definition gen_derivative (s : segment) (x : sym) : derivative :=
  let e := diff (sg_lagrange s) x in
  let (c, d) := split_expr e (sg_variables s) in
  {| dv_variable := x; dv_expr := e; dv_evals := mk_evals c d (sg_variables s) |}.

Definition generate_derivatives (s : segment) : list (sym * derivative) :=
  map (fun x => (x, gen_derivative s x)) (sg_variables s).

(** src/models/wellknownvariables.py:3-6 *)
Definition Vr_from : sym := "V_from,r".
Definition Vi_from : sym := "V_from,i".
Definition Vr_to : sym := "V_to,r".
Definition Vi_to : sym := "V_to,i".
Definition Lr_from : sym := "lambda_from,r".
Definition Li_from : sym := "lambda_from,i".
Definition Lr_to : sym := "lambda_to,r".
Definition Li_to : sym := "lambda_to,i".

(** check_missing_symbols, lagrangesegment.py:296-299: false when it raises *)
Definition check_missing_symbols (declared : list sym) (e : expr) : bool :=
  forallb (fun s => mem s declared) (fsyms e).

(** TwoTerminalModelDefinition, lagrangesegment.py:216-273.  The names of the equality multipliers
    come from a global counter (line 214); here they are supplied by the caller. [None] = raises. *)
Record two_terminal := {
  tt_variables : list sym;
  tt_constants : list sym;
  tt_kcl_r_from : expr;
  tt_kcl_i_from : expr;
  tt_kcl_to : option (expr * expr);
  tt_equalities : list (sym * expr);
  tt_objective : option expr
}.

(** effective "to" equations, lines 234-239 *)
Definition tt_to (t : two_terminal) : expr * expr :=
  match tt_kcl_to t with
  | Some p => p
  | None => (tt_kcl_r_from t, tt_kcl_i_from t)
  end.

(** the checks actually made, lines 249-268 (line 256 repeats kcl_r_from) *)
Definition tt_checks (t : two_terminal) : bool :=
  let declared := tt_constants t ++ tt_variables t in
  (match tt_objective t with Some o => check_missing_symbols declared o | None => true end)
  && check_missing_symbols declared (tt_kcl_r_from t)
  && check_missing_symbols declared (tt_kcl_r_from t)
  && check_missing_symbols declared (fst (tt_to t))
  && check_missing_symbols declared (snd (tt_to t))
  && forallb (fun q => check_missing_symbols declared (snd q)) (tt_equalities t).

Definition tt_lagrange (t : two_terminal) : expr :=
  let obj := match tt_objective t with Some o => o | None => Const 0 end in
  let base :=
    Add (Add (Add (Add obj (Mul (Sym Lr_from) (tt_kcl_r_from t)))
                  (Mul (Sym Li_from) (tt_kcl_i_from t)))
             (Mul (Sym Lr_to) (Neg (fst (tt_to t)))))
        (Mul (Sym Li_to) (Neg (snd (tt_to t)))) in
  fold_left (fun acc q => Add acc (Mul (Sym (fst q)) (snd q))) (tt_equalities t) base.

Definition tt_segment (t : two_terminal) : option segment :=
  if tt_checks t then
    Some {| sg_lagrange := tt_lagrange t;
            sg_constants := tt_constants t;
            sg_primals := tt_variables t;
            sg_duals := [Lr_from; Li_from; Lr_to; Li_to] ++ map fst (tt_equalities t) |}
  else None.
