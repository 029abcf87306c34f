(** From segments and index maps to stamp collections:
    src/logic/stamping/lagrangestampdetails.py:7-40 and
    src/logic/stamping/matrixstamper.py:69, 133-243.

    Simplifications: the textual keys of the code are the structured data they print
    (the whole segment for lagrange_key, the parameter tuple for parameters_key), i.e. printing is assumed
    injective; the cache lagrange_cache (line 145) is transparent and left out; numbers are exact reals;
    an unbound name inside a compiled expression reads 0 here (it would raise in python; see C06). *)
From Coq Require Import ZArith Reals List String Bool Arith.
From Verif Require Import Expr Segment Stamper.
Import ListNotations.

(** LagrangeStampDetails, lines 8-20; [None] as index is SKIP *)
Record details := {
  sd_seg : segment;
  sd_var : list (sym * option nat);
  sd_eqn : option (list (sym * option nat));
  sd_opt : bool }.

(** dictionary lookup; the outer [None] is python's KeyError *)
Fixpoint lookup {A} (l : list (sym * A)) (s : sym) : option A :=
  match l with
  | [] => None
  | (k, x) :: r => if String.eqb s k then Some x else lookup r s
  end.

Definition sd_eqn_map (d : details) : list (sym * option nat) :=
  match sd_eqn d with None => sd_var d | Some m => m end.

(** get_eqn_row_index_str, lines 22-26 *)
Definition row_index (d : details) (x : sym) : option (option nat) :=
  if sd_opt d then lookup (sd_eqn_map d) x
  else match sg_dual_primal (sd_seg d) x with
       | None => None
       | Some p => lookup (sd_eqn_map d) p
       end.

(** get_var_col_index_str / get_var_col_index, lines 28-32 *)
Definition col_index (d : details) (x : sym) : option (option nat) := lookup (sd_var d) x.

(** first-order variables, matrixstamper.py:157-160 *)
Definition first_orders (d : details) : list sym :=
  if sd_opt d then sg_variables (sd_seg d) else sg_duals (sd_seg d).

(** positional arguments of a compiled function *)
Definition arg_env (params : list sym) (args : list R) : env :=
  fun s => match index_of s params with Some n => nth n args 0%R | None => 0%R end.

Definition skey := (segment * sym * option sym * bool * option nat)%type.
Definition rkey := (segment * sym)%type.

(** StampExpression, matrixstamper.py:35-70 and 165-178 *)
Definition mk_expression (s : segment) (x : sym) (ev : evaluation) : @expression R skey (list sym) :=
  {| x_key := (s, x, ev_yth ev, ev_linear ev, sg_tx_index s);
     x_pkey := sg_parameters s;
     x_nparams := List.length (sg_parameters s);
     x_tx := sg_tx_index s;
     x_linear := ev_linear ev;
     x_isJ := match ev_yth ev with None => true | Some _ => false end;
     x_eval := fun args => den (ev_expr ev) (arg_env (sg_parameters s) args) |}.

(** get_or_build_stamp_expressions, lines 147-184 *)
Definition stamp_exprs (d : details) : list (sym * evaluation) :=
  flat_map (fun x => map (fun ev => (x, ev)) (dv_evals (gen_derivative (sd_seg d) x))) (first_orders d).

Definition ocons {A} (a : A) (l : option (list A)) : option (list A) :=
  match l with Some l => Some (a :: l) | None => None end.

(** __build_stamps, lines 200-223; [None] = KeyError.  The column of a J entry is not used (0 here). *)
Fixpoint build_stamps (d : details) (i : @input R) (l : list (sym * evaluation))
  : option (list (@stamp R skey (list sym))) :=
  match l with
  | [] => Some []
  | (x, ev) :: l' =>
      match row_index d x with
      | None => None
      | Some None => build_stamps d i l'
      | Some (Some r) =>
          match ev_yth ev with
          | None => ocons {| s_x := mk_expression (sd_seg d) x ev; s_in := i; s_row := r; s_col := 0 |} (build_stamps d i l')
          | Some y =>
              match col_index d y with
              | None => None
              | Some None => build_stamps d i l'
              | Some (Some c) => ocons {| s_x := mk_expression (sd_seg d) x ev; s_in := i; s_row := r; s_col := c |} (build_stamps d i l')
              end
          end
      end
  end.

Definition mk_resid (d : details) (i : @input R) (x : sym) (r : nat) : @resid R (list sym) rkey :=
  let s := sd_seg d in
  {| r_key := (s, x);
     r_eval := fun args => den (dv_expr (gen_derivative s x)) (arg_env (sg_parameters s) args);
     r_row := r; r_in := i;
     r_pkey := sg_parameters s; r_nparams := List.length (sg_parameters s); r_tx := sg_tx_index s |}.

(** __build_residuals, lines 226-243 *)
Fixpoint build_resids (d : details) (i : @input R) (l : list sym) : option (list (@resid R (list sym) rkey)) :=
  match l with
  | [] => Some []
  | x :: l' =>
      match row_index d x with
      | None => None
      | Some None => build_resids d i l'
      | Some (Some r) => ocons (mk_resid d i x r) (build_resids d i l')
      end
  end.

Fixpoint all_some {A} (l : list (option A)) : option (list A) :=
  match l with
  | [] => Some []
  | None :: _ => None
  | Some a :: r => ocons a (all_some r)
  end.

(** __build_stampcollection_from_stamper, lines 186-198 *)
Definition build_coll {M} (m : M) (d : details) (consts : list R) : option (@coll R skey (list sym) rkey M) :=
  match all_some (map (col_index d) (sg_primals (sd_seg d))), all_some (map (col_index d) (sg_duals (sd_seg d))) with
  | Some ps, Some ds =>
      let i := {| in_consts := consts; in_primals := ps; in_duals := ds |} in
      match build_stamps d i (stamp_exprs d), build_resids d i (first_orders d) with
      | Some ss, Some rs => Some {| c_model := m; c_stamps := ss; c_resids := rs |}
      | _, _ => None
      end
  | _, _ => None
  end.

(** build_stamps_from_stampers, lines 133-140, over all elements (lines 123-131);
    [None] as details is skipped (line 136). *)
Fixpoint build_colls {M} (l : list (M * option details * list R)) : option (list (@coll R skey (list sym) rkey M)) :=
  match l with
  | [] => Some []
  | (_, None, _) :: r => build_colls r
  | (m, Some d, cv) :: r =>
      match build_coll m d cv with
      | None => None
      | Some c => ocons c (build_colls r)
      end
  end.

(** equality tests used by the dictionaries *)
Fixpoint list_eqb {A} (eqb : A -> A -> bool) (a b : list A) : bool :=
  match a, b with
  | [], [] => true
  | x :: a, y :: b => eqb x y && list_eqb eqb a b
  | _, _ => false
  end.
Definition opt_eqb {A} (eqb : A -> A -> bool) (a b : option A) : bool :=
  match a, b with None, None => true | Some x, Some y => eqb x y | _, _ => false end.
Definition seg_eqb (a b : segment) : bool :=
  expr_eqb (sg_lagrange a) (sg_lagrange b) && list_eqb String.eqb (sg_constants a) (sg_constants b)
  && list_eqb String.eqb (sg_primals a) (sg_primals b) && list_eqb String.eqb (sg_duals a) (sg_duals b).
Definition skey_eqb (a b : skey) : bool :=
  let '(s1, x1, y1, l1, t1) := a in let '(s2, x2, y2, l2, t2) := b in
  seg_eqb s1 s2 && String.eqb x1 x2 && opt_eqb String.eqb y1 y2 && Bool.eqb l1 l2 && opt_eqb Nat.eqb t1 t2.
Definition rkey_eqb (a b : rkey) : bool := seg_eqb (fst a) (fst b) && String.eqb (snd a) (snd b).
Definition pkey_eqb : list sym -> list sym -> bool := list_eqb String.eqb.

(** StampInput.key, lines 18-25: printed constants and indexes; two inputs are merged when they print alike *)
Definition Reqb (x y : R) : bool := if Req_EM_T x y then true else false.
Definition input_eqb (a b : @input R) : bool :=
  list_eqb Reqb (in_consts a) (in_consts b)
  && list_eqb (opt_eqb Nat.eqb) (in_primals a) (in_primals b)
  && list_eqb (opt_eqb Nat.eqb) (in_duals a) (in_duals b).
