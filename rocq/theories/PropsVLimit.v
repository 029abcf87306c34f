(** Property theorems C21 and C22 (src/logic/v_limiting.py). *)
From Coq Require Import List Bool Arith Reals Lra Lia.
From Verif Require Import VLimit SpecVLimit VLimitProofs.
Import ListNotations.
Local Open Scope R_scope.

(** C21: a bus voltage is moved to the closest value allowed by both limits (if it started inside the band),
    always ends inside the band, and everything else is left alone. *)
Theorem C21_limiting_result : forall n buses x p y, apply_limiting n buses x p = Some y ->
  length y = length x /\
  forall i, (i < length x)%nat ->
    (~ is_bus_index buses i -> nth i y 0 = nth i x 0) /\
    (is_bus_index buses i ->
       -2 <= nth i y 0 <= 2 /\
       (-2 <= nth i p 0 <= 2 -> closest_allowed (nth i p 0) (nth i x 0) (nth i y 0)) /\
       (-2 <= nth i x 0 <= 2 -> Rabs (nth i x 0 - nth i p 0) <= 1 -> nth i y 0 = nth i x 0)).
Proof. exact limiting_result. Qed.
Print Assumptions C21_limiting_result.

Theorem C21_limiting_defined : forall n buses x p,
  (exists y, apply_limiting n buses x p = Some y) <->
  (length x = n /\ length p = n /\ forall i, is_bus_index buses i -> (i < n)%nat).
Proof. exact limiting_defined. Qed.
Print Assumptions C21_limiting_defined.

Example C21_example : exists y, apply_limiting 4 [(0, 1)%nat] [9; -9; 9; -9] [1/2; -3/2; 1/2; -3/2] = Some y /\ y = [3/2; -2; 9; -9].
Proof.
  eexists. split; [reflexivity|].
  unfold clip, V_DIFF_MAX, V_MIN, V_MAX, Rmin, Rmax; repeat destruct Rle_dec; try lra; repeat (apply f_equal2; [lra|]); reflexivity.
Qed.

(** C22: far outside the band the step is always longer than one unit; outside the band even a zero step moves. *)
Theorem C22_outside_band : forall n buses x p y i, apply_limiting n buses x p = Some y -> (i < length x)%nat -> is_bus_index buses i ->
  (3 < Rabs (nth i p 0) -> 1 < Rabs (nth i y 0 - nth i p 0)) /\
  (2 < Rabs (nth i p 0) -> nth i x 0 = nth i p 0 -> nth i y 0 <> nth i x 0).
Proof. exact limiting_outside. Qed.
Print Assumptions C22_outside_band.

Example C22_witness : exists y, apply_limiting 2 [(0, 1)%nat] [7200; 0] [7200; 0] = Some y /\ y = [2; 0].
Proof.
  eexists. split; [reflexivity|].
  unfold clip, V_DIFF_MAX, V_MIN, V_MAX, Rmin, Rmax; repeat destruct Rle_dec; try lra; repeat (apply f_equal2; [lra|]); reflexivity.
Qed.
