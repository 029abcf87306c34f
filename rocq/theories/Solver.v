(** Model of src/logic/nrsolver.py (NRSolver.run_powerflow). *)
From Coq Require Import List Bool Arith ZArith Reals.
From Verif Require Import Stamper Builder Residual VLimit.
Import ListNotations.
Local Open Scope R_scope.

(** value == 0 *)
Definition Rzero (x : R) : bool := if Req_EM_T x 0 then true else false.
Definition Rltb (x y : R) : bool := if Rlt_dec x y then true else false.

(** MatrixBuilder.assert_valid(check_zeros=True), matrixbuilder.py:70-88: in debug mode every row and column up to
    the largest index must have an entry, and the largest row and column index must agree. *)
Definition maxl (l : list nat) : nat := fold_right Nat.max 0%nat l.
Definition b_assert_valid {V} (debug : bool) (b : @builder V) : bool :=
  if debug then
    let rows := map (fun e => fst (fst e)) (b_entries b) in
    let cols := map (fun e => snd (fst e)) (b_entries b) in
    match b_entries b with [] => false (* max() of an empty list: ValueError *)
    | _ => (maxl rows =? maxl cols)%nat
           && forallb (fun i => existsb (Nat.eqb i) rows) (seq 0 (S (maxl rows)))
           && forallb (fun i => existsb (Nat.eqb i) cols) (seq 0 (S (maxl cols)))
    end
  else true.

(** a vector as seen by v[index]; indexes are within range for vectors of length size_Y (simplification:
    reading outside gives 0 instead of IndexError) *)
Definition vec (l : list R) : nat -> R := fun n => nth n l 0.

(** Least squares slope of a residual history over 0,1,2,..., nrsolver.py:68-71 (np.linalg.lstsq of the
    two column system).  Closed form of the normal equations; its least squares property is proved in SolverProofs.v *)
Fixpoint sum_from (f : nat -> R -> R) (i : nat) (l : list R) : R :=
  match l with [] => 0 | y :: r => f i y + sum_from f (S i) r end.
Definition lsq_slope (h : list R) : R :=
  let n := INR (length h) in
  let sx := sum_from (fun i _ => INR i) 0 h in
  let sxx := sum_from (fun i _ => INR i * INR i) 0 h in
  let sy := sum_from (fun _ y => y) 0 h in
  let sxy := sum_from (fun i y => INR i * y) 0 h in
  (n * sxy - sx * sy) / (n * sxx - sx * sx).

Record settings := { set_tolerance : R; set_max_iters : nat; set_debug : bool }.

Inductive nerror :=
| NBuilder (e : berror)      (* an exception of the matrix builder *)
| NInvalid                   (* assert_valid *)
| NIndex                     (* IndexError on J or on the residual vector, or an empty residual vector *)
| NSolve                     (* spsolve raised or returned NaN, lines 49-52 *)
| NLimit                     (* voltage limiting raised *)
| NUnbound.                  (* max_iters = 0: v_next referenced before assignment, line 89 *)

Section Solver.
Context {M St So : Type}.
(** the matrix stamper object: state and its three operations *)
Variable st_linear : St -> R -> St * list (@event R).
Variable st_nonlinear : St -> (nat -> R) -> Z -> St * list (@event R).
Variable st_residuals : St -> R -> (nat -> R) -> Z -> St * list (M * nat * R).
(** scipy spsolve followed by the NaN test; None: raised or NaN.  It may depend on a state of its own
    (so any behaviour is covered, and the calls can be counted). *)
Variable spsolve : So -> list (nat * nat * R) -> list R -> So * option (list R).
(** voltage limiting object; None is "no limiting" *)
Variable limiting : option (list R -> list R -> option (list R)).
Variable cfg : settings.

Inductive nresult := NOk (success : bool) (v : list R) (iteration : nat) (st : St) (so : So) | NErr (e : nerror) (so : So).

(** Effect of stamping on Y and J: Y.stamp(row, col, value) and J[row] += value, matrixstamper.py:343-355 *)
Fixpoint apply_events (Y : @builder R) (J : list R) (evs : list (@event R)) : (@builder R * list R) + nerror :=
  match evs with
  | [] => inl (Y, J)
  | EvY r c x :: rest => match b_stamp Rzero (fun _ => false) (set_debug cfg) Y (r, c, x) with
                         | BOk Y' => apply_events Y' J rest
                         | BErr e => inr (NBuilder e)
                         end
  | EvJ r x :: rest => match add_at J r x with
                       | Some J' => apply_events Y J' rest
                       | None => inr NIndex
                       end
  end.

(** does the check of lines 66-73 end the run? *)
Definition bails_out (hist : list R) : bool :=
  (length hist mod 50 =? 0)%nat && Rltb 0 (lsq_slope hist).

(** the loop of lines 36-84: [n] iterations are left, [k] is the number of the next one *)
Fixpoint nr_loop (n k : nat) (tx : R) (linear_index : nat) (J_linear : list R)
         (st : St) (so : So) (Y : @builder R) (v_prev : list R) (hist : list R) : nresult :=
  match n with
  | O => match k with
         | O => NErr NUnbound so
         | S k' => NOk false v_prev k' st so        (* line 89; v_previous is v_next here *)
         end
  | S n' =>
      let (st1, evs) := st_nonlinear st (vec v_prev) (Z.of_nat k) in
      match apply_events Y J_linear evs with
      | inr e => NErr e so
      | inl (Y1, J) =>
          if b_assert_valid (set_debug cfg) Y1 then
          match b_to_matrix (set_debug cfg) Y1 with
          | BErr e => NErr (NBuilder e) so
          | BOk es =>
              match spsolve so es J with
              | (so', None) => NErr NSolve so'
              | (so', Some v_next) =>
                  let (st2, res) := st_residuals st1 tx (vec v_next) (Z.of_nat k) in
                  match mk_residual_details res (length v_next) with
                  | None => NErr NIndex so'
                  | Some rd =>
                      let hist' := hist ++ [rd_max rd] in
                      if bails_out hist' then NOk false v_next k st2 so'
                      else if Rltb (rd_max rd) (set_tolerance cfg) then NOk true v_next k st2 so'
                      else
                        match (match limiting with
                               | Some lim => if Rltb (set_tolerance cfg) (rd_max rd) then lim v_next v_prev else Some v_next
                               | None => Some v_next
                               end) with
                        | None => NErr NLimit so'
                        | Some v_next' =>
                            nr_loop n' (S k) tx linear_index J_linear st2 so' (b_clear Y1 linear_index) v_next' hist'
                        end
                  end
              end
          end
          else NErr NInvalid so
      end
  end.

(** run_powerflow, lines 21-89 (printing and dumping left out) *)
Definition nr_run (st : St) (so : So) (v_init : list R) (tx : R) : nresult :=
  let (st0, evs) := st_linear st tx in
  match apply_events b_init (repeat 0 (length v_init)) evs with
  | inr e => NErr e so
  | inl (Y, J_linear) =>
      nr_loop (set_max_iters cfg) 0 tx (b_get_usage Y) J_linear st0 so Y v_init []
  end.
End Solver.
Arguments NOk {St So}. Arguments NErr {St So}.
