(** Model of src/logic/homotopycontroller.py. *)
From Coq Require Import List Bool Arith ZArith Reals.
From Verif Require Import Stamper Residual Collect Solver SpecSolver.
Import ListNotations.
Local Open Scope R_scope.

(** TX_ITERATIONS and tx_factor * TX_SCALE, homotopycontroller.py:7-8 *)
Definition TX_ITERATIONS : nat := 100.
Definition tx_value (tx_factor : Z) : R := IZR tx_factor * (1 / 100).

Section Homotopy.
Context {St V E Res : Type}.

(** outcome of NRSolver.run_powerflow on the matrix stamper (whose state is part of [St]) *)
Inductive nrout := NR (ok : bool) (v : V) (iteration : nat) (st : St) | NRraise (e : E) (st : St).
Variable nr : St -> V -> R -> nrout.
(** matrix_stamper.calc_residuals(tx, v, iteration); None: raises *)
Variable residuals : St -> R -> V -> nat -> option Res.

Record hresult := { h_ok : bool; h_v : V; h_iterations : nat; h_tx : R; h_res : Res }.
Inductive hout := HOk (r : hresult) (st : St) | HRaise (e : option E) (st : St).

Definition h_return (ok : bool) (v : V) (iters : nat) (tx : R) (k : nat) (st : St) : hout :=
  match residuals st 0 v k with
  | Some r => HOk {| h_ok := ok; h_v := v; h_iterations := iters; h_tx := tx; h_res := r |} st
  | None => HRaise None st
  end.

(** the loop of lines 31-42; the argument is tx_factor + 1 *)
Fixpoint tx_loop (n : nat) (st : St) (v_next : V) (ok : bool) (iters k : nat) : hout :=
  match n with
  | O => h_return ok v_next iters (tx_value (-1)) k st
  | S f =>
      match nr st v_next (tx_value (Z.of_nat f)) with
      | NRraise e st' => HRaise (Some e) st'
      | NR true v' k' st' => tx_loop f st' v' true (S k') k'
      | NR false v' k' st' => h_return false v' (S k') (tx_value (Z.of_nat f)) k' st'
      end
  end.

(** run_powerflow, lines 18-44; [st] is the freshly built matrix stamper *)
Definition homotopy_run (tx_stepping : bool) (st : St) (v_init : V) : hout :=
  match nr st v_init 0 with
  | NRraise e st' => HRaise (Some e) st'
  | NR ok v k st' =>
      if (ok || negb tx_stepping)%bool then h_return ok v k 0 k st'
      else tx_loop (S TX_ITERATIONS) st' v_init false 0 k
  end.
End Homotopy.
Arguments NR {St V E}. Arguments NRraise {St V E}. Arguments HOk {St V E Res}. Arguments HRaise {St V E Res}.

(** The controller on a network: stamper and linear solver state, Newton solver of Solver.v. *)
Section NetHomotopy.
Context {M So : Type}.
Variable spsolve : So -> list (nat * nat * R) -> list R -> So * option (list R).
Variable limiting : option (list R -> list R -> option (list R)).
Variable cfg : settings.
Definition net_nr (s : @mstamper R skey (list Expr.sym) M * So) (v : list R) (tx : R)
  : @nrout (@mstamper R skey (list Expr.sym) M * So) (list R) nerror :=
  match network_run spsolve limiting cfg (fst s) (snd s) v tx with
  | NOk ok v' k st' so' => NR ok v' k (st', so')
  | NErr e so' => NRraise e (fst s, so')      (* the stamper is discarded with the exception *)
  end.
Definition net_residuals (s : @mstamper R skey (list Expr.sym) M * So) (tx : R) (v : list R) (k : nat) : option residual_details :=
  mk_residual_details (snd (calc_residuals pkey_eqb (fst s) tx (vec v) (Z.of_nat k))) (length v).
Definition net_homotopy (tx_stepping : bool) (st : @mstamper R skey (list Expr.sym) M) (so : So) (v_init : list R) :=
  homotopy_run net_nr net_residuals tx_stepping (st, so) v_init.
End NetHomotopy.
