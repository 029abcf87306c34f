(** Specification side of C160. *)
From Coq Require Import Reals ZArith String List Bool.
From Verif Require Import ThreePhase RawParser Loader Command SpecCommand.
From Verif Require TimeSeries.
Import ListNotations.
Local Open Scope R_scope.

(** two command lines ask for the same circuit, solved in the same way *)
Definition same_request (o o' : options) : Prop :=
  op_case o = op_case o' /\ op_debug o = op_debug o' /\ op_infeasibility o = op_infeasibility o' /\ op_tx_stepping o = op_tx_stepping o' /\
  exists f, asks_factor o f /\ asks_factor o' f.
(** a load file there is, for the same hours *)
Definition same_file (o o' : options) : Prop :=
  exists cols, TimeSeries.ta_file (op_series o) = TimeSeries.File cols /\ op_series o = op_series o'.
(** the outputs of the artificial swing bus are booked only if both options are given *)
Definition idle (o : options) : Prop := op_swing o = None \/ op_negatives o = None.
(** the first hour and the one after the last; both are 0 if not given *)
Definition hours (o : options) (first last : Z) : Prop :=
  (TimeSeries.ta_start (op_series o) = Some first \/ TimeSeries.ta_start (op_series o) = None /\ first = 0%Z) /\
  (TimeSeries.ta_end (op_series o) = Some last \/ TimeSeries.ta_end (op_series o) = None /\ last = 0%Z).
