(** Symbolic expressions: the part of sympy the code relies on.
    Used by src/logic/stamping/lagrangesegment.py (imports at line 3:
    Add, diff, expand, Pow, Symbol) and by every component model that writes an equation.

    Simplifications (see DESIGN.md section 1):
    - exponents are integer constants, other numeric constants are integers (this covers every segment
      the program registers; lh_zip in load.py, which uses a 0.5 power, is never stamped);
    - sympy's automatic simplification and [expand] are both modelled by one canonical form,
      a sum of monomials in which equal bases are merged and equal monomials are collected. *)
From Coq Require Import ZArith Reals List String Bool.
Import ListNotations.
Local Open Scope string_scope.

Definition sym := string.

Inductive expr : Type :=
| Const (z : Z)
| Sym (s : sym)
| Add (a b : expr)
| Mul (a b : expr)
| Pow (a : expr) (n : Z)
| Sin (a : expr)
| Cos (a : expr).

(** Structural order on expressions; only [Eq] implying equality matters for correctness. *)
Fixpoint expr_compare (a b : expr) : comparison :=
  match a, b with
  | Const x, Const y => Z.compare x y
  | Const _, _ => Lt
  | _, Const _ => Gt
  | Sym x, Sym y => String.compare x y
  | Sym _, _ => Lt
  | _, Sym _ => Gt
  | Add x1 y1, Add x2 y2 =>
      match expr_compare x1 x2 with Eq => expr_compare y1 y2 | c => c end
  | Add _ _, _ => Lt
  | _, Add _ _ => Gt
  | Mul x1 y1, Mul x2 y2 =>
      match expr_compare x1 x2 with Eq => expr_compare y1 y2 | c => c end
  | Mul _ _, _ => Lt
  | _, Mul _ _ => Gt
  | Pow x1 n1, Pow x2 n2 =>
      match expr_compare x1 x2 with Eq => Z.compare n1 n2 | c => c end
  | Pow _ _, _ => Lt
  | _, Pow _ _ => Gt
  | Sin x, Sin y => expr_compare x y
  | Sin _, _ => Lt
  | _, Sin _ => Gt
  | Cos x, Cos y => expr_compare x y
  end.

Definition expr_eqb (a b : expr) : bool :=
  match expr_compare a b with Eq => true | _ => false end.

(** sympy's [free_symbols] (with repetitions; only membership is used) and [atoms(Pow)]. *)
Fixpoint fsyms (e : expr) : list sym :=
  match e with
  | Const _ => []
  | Sym s => [s]
  | Add a b | Mul a b => fsyms a ++ fsyms b
  | Pow a _ => fsyms a
  | Sin a | Cos a => fsyms a
  end.

Fixpoint has_pow (e : expr) : bool :=
  match e with
  | Const _ | Sym _ => false
  | Add a b | Mul a b => has_pow a || has_pow b
  | Pow _ _ => true
  | Sin a | Cos a => has_pow a
  end.

(** Canonical form: integer coefficient times a product of powers of bases. *)
Definition factor := (expr * Z)%type.
Definition mono := (Z * list factor)%type.
Definition poly := list mono.

Definition of_factor (f : factor) : expr :=
  let (b, k) := f in if Z.eqb k 1 then b else Pow b k.

Fixpoint of_factors (fs : list factor) : expr :=
  match fs with
  | [] => Const 1
  | [f] => of_factor f
  | f :: r => Mul (of_factor f) (of_factors r)
  end.

Definition of_mono (m : mono) : expr :=
  match m with
  | (c, []) => Const c
  | (c, fs) => if Z.eqb c 1 then of_factors fs else Mul (Const c) (of_factors fs)
  end.

Fixpoint of_poly (p : poly) : expr :=
  match p with
  | [] => Const 0
  | [m] => of_mono m
  | m :: r => Add (of_mono m) (of_poly r)
  end.

(** Multiply a factor list by one more factor: merge with an equal base anywhere in the list,
    otherwise insert in order. *)
Fixpoint find_base (b : expr) (fs : list factor) : bool :=
  match fs with
  | [] => false
  | (b', _) :: r => expr_eqb b b' || find_base b r
  end.

Fixpoint bump_factor (b : expr) (k : Z) (fs : list factor) : list factor :=
  match fs with
  | [] => []
  | (b', k') :: r =>
      if expr_eqb b b'
      then (if Z.eqb (k + k') 0 then r else (b', (k + k')%Z) :: r)
      else (b', k') :: bump_factor b k r
  end.

Fixpoint place_factor (b : expr) (k : Z) (fs : list factor) : list factor :=
  match fs with
  | [] => [(b, k)]
  | (b', k') :: r =>
      match expr_compare b b' with
      | Lt => (b, k) :: fs
      | _ => (b', k') :: place_factor b k r
      end
  end.

Definition mul_factor (f : factor) (fs : list factor) : list factor :=
  let (b, k) := f in
  if find_base b fs then bump_factor b k fs else place_factor b k fs.

Definition mono_mul (m1 m2 : mono) : mono :=
  let (c1, f1) := m1 in
  let (c2, f2) := m2 in
  ((c1 * c2)%Z, fold_right mul_factor f2 f1).

(** Sums: collect monomials with the same factors. *)
Fixpoint factors_compare (f1 f2 : list factor) : comparison :=
  match f1, f2 with
  | [], [] => Eq
  | [], _ => Lt
  | _, [] => Gt
  | (b1, k1) :: r1, (b2, k2) :: r2 =>
      match expr_compare b1 b2 with
      | Eq => match Z.compare k1 k2 with Eq => factors_compare r1 r2 | c => c end
      | c => c
      end
  end.

Fixpoint add_mono (m : mono) (p : poly) : poly :=
  match p with
  | [] => if Z.eqb (fst m) 0 then [] else [m]
  | m' :: r =>
      match factors_compare (snd m) (snd m') with
      | Eq => if Z.eqb (fst m + fst m') 0 then r else ((fst m + fst m')%Z, snd m') :: r
      | Lt => if Z.eqb (fst m) 0 then p else m :: p
      | Gt => m' :: add_mono m r
      end
  end.

Definition padd (p q : poly) : poly := fold_right add_mono q p.

Definition pmul_mono (m : mono) (p : poly) : poly :=
  fold_right (fun m' acc => add_mono (mono_mul m m') acc) [] p.

Definition pmul (p q : poly) : poly :=
  fold_right (fun m acc => padd (pmul_mono m q) acc) [] p.

Definition pone : poly := [(1%Z, [])].

Fixpoint ppow_nat (p : poly) (n : nat) : poly :=
  match n with
  | O => pone
  | S n' => pmul p (ppow_nat p n')
  end.

(** A power with a negative exponent is distributed over a product of positive powers (sympy does
    this automatically for integer exponents) and is otherwise kept as a base of its own. *)
Definition ppow (p : poly) (n : Z) : poly :=
  match n with
  | Z0 => pone
  | Zpos k => ppow_nat p (Pos.to_nat k)
  | Zneg k =>
      match p with
      | [(c, fs)] =>
          if Z.eqb c 1 && forallb (fun f => Z.ltb 0 (snd f)) fs
          then [(1%Z, map (fun f => (fst f, (snd f * Zneg k)%Z)) fs)]
          else [(1%Z, [(of_poly p, Zneg k)])]
      | _ => [(1%Z, [(of_poly p, Zneg k)])]
      end
  end.

(** sympy [expand]. *)
Fixpoint expand (e : expr) : poly :=
  match e with
  | Const z => if Z.eqb z 0 then [] else [(z, [])]
  | Sym s => [(1%Z, [(Sym s, 1%Z)])]
  | Add a b => padd (expand a) (expand b)
  | Mul a b => pmul (expand a) (expand b)
  | Pow a n => ppow (expand a) n
  | Sin a => [(1%Z, [(Sin (of_poly (expand a)), 1%Z)])]
  | Cos a => [(1%Z, [(Cos (of_poly (expand a)), 1%Z)])]
  end.

(** sympy [diff]. *)
Fixpoint diff (e : expr) (x : sym) : expr :=
  match e with
  | Const _ => Const 0
  | Sym s => if String.eqb s x then Const 1 else Const 0
  | Add a b => Add (diff a x) (diff b x)
  | Mul a b => Add (Mul (diff a x) b) (Mul a (diff b x))
  | Pow a n => if Z.eqb n 0 then Const 0 else Mul (Mul (Const n) (Pow a (n - 1))) (diff a x)
  | Sin a => Mul (Cos a) (diff a x)
  | Cos a => Mul (Mul (Const (-1)) (Sin a)) (diff a x)
  end.

Definition Neg (e : expr) : expr := Mul (Const (-1)) e.
Definition Sub (a b : expr) : expr := Add a (Neg b).
Definition Div (a b : expr) : expr := Mul a (Pow b (-1)).

(** Value of an expression; this is what the function made by [lambdify] computes
    (lagrangesegment.py:103-108), over exact reals. *)
Local Open Scope R_scope.
Definition env := sym -> R.

Fixpoint den (e : expr) (rho : env) : R :=
  match e with
  | Const z => IZR z
  | Sym s => rho s
  | Add a b => den a rho + den b rho
  | Mul a b => den a rho * den b rho
  | Pow a n => powerRZ (den a rho) n
  | Sin a => sin (den a rho)
  | Cos a => cos (den a rho)
  end.

(** The point is inside the domain: no base of a negative power vanishes. *)
Fixpoint wd (e : expr) (rho : env) : Prop :=
  match e with
  | Const _ | Sym _ => True
  | Add a b | Mul a b => wd a rho /\ wd b rho
  | Pow a n => wd a rho /\ ((n < 0)%Z -> den a rho <> 0)
  | Sin a | Cos a => wd a rho
  end.

Definition upd (rho : env) (x : sym) (t : R) : env :=
  fun s => if String.eqb s x then t else rho s.

(** no unknown inside a sine or cosine *)
Fixpoint trig_ok (vars : list sym) (e : expr) : Prop :=
  match e with
  | Const _ | Sym _ => True
  | Add a b | Mul a b => trig_ok vars a /\ trig_ok vars b
  | Pow a _ => trig_ok vars a
  | Sin a | Cos a => forall s, In s (fsyms a) -> ~ In s vars
  end.
