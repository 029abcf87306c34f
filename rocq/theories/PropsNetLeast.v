(** C148: infeasibility analysis finds the least currents. *)
From Coq Require Import Reals List Bool Arith.
From Verif Require Import SpecSystem SpecComponents Network SpecNetwork SpecKirchhoff SpecNetInfeas SpecNetLeast NetLeastFinal
  KirchhoffWitness NetInfeasWitness NetInfeasFinal NetLeastWitness NetLeastStuck.
Import ListNotations.
Local Open Scope R_scope.

(** C148: in a network without generators and constant power, a solution of the equations (L1 or L2) has the least total squared current of
    all currents with which the network has possible voltages, and no other currents reach it *)
Theorem C148_least : forall old nw l1, network_ok nw -> nw_optimization nw = Some l1 -> affine_network nw -> let a := assign_matrix old nw in forall v,
  (forall r, (r < as_size a)%nat -> F (equations a) v 0 r = 0) -> forall E W, physical_with E nw W ->
  total_square nw (extra l1 a v) <= total_square nw E /\
  (total_square nw E <= total_square nw (extra l1 a v) -> forall k, (k < length (nw_buses nw))%nat -> E k = extra l1 a v k).
Proof. exact least. Qed.
Print Assumptions C148_least.
Example C148_least_example : forall l1 old, network_ok (stranded l1) /\ affine_network (stranded l1) /\ let a := assign_matrix old (stranded l1) in
  (forall r, (r < as_size a)%nat -> F (equations a) (stranded_point l1) 0 r = 0) /\ total_square (stranded l1) (extra l1 a (stranded_point l1)) = 1.
Proof. exact (fun l1 old => conj (stranded_ok l1) (conj (stranded_affine l1) (conj (proj1 (stranded_solved l1 old)) (stranded_square l1 old)))). Qed.

(** C148: if such a network has possible voltages at all, every solution is a solution of the power flow without infeasibility currents *)
Theorem C148_feasible : forall old nw l1, network_ok nw -> nw_optimization nw = Some l1 -> affine_network nw -> let a := assign_matrix old nw in forall v,
  (forall r, (r < as_size a)%nat -> F (equations a) v 0 r = 0) -> forall W, physical nw W ->
  (forall k, (k < length (nw_buses nw))%nat -> extra l1 a v k = C0) /\ physical nw (voltages a v).
Proof. exact feasible. Qed.
Print Assumptions C148_feasible.
Example C148_feasible_example : forall l1 old, let nw := feeder_of l1 current_load in network_ok nw /\ affine_network nw /\ physical nw (far (3 / 4)) /\
  exists v, forall r, (r < as_size (assign_matrix old nw))%nat -> F (equations (assign_matrix old nw)) v 0 r = 0.
Proof. exact current_solved. Qed.

(** C148: with a constant power load this fails for both objectives: a feeder with possible voltages and a solution that reports a current *)
Theorem C148_power_refuted : forall l1 old, let nw := feeder_of l1 power_load in let a := assign_matrix old nw in
  network_ok nw /\ nw_optimization nw = Some l1 /\ physical nw (far (4 / 5)) /\ physical nw (far (1 / 5)) /\
  exists v, energised nw (voltages a v) /\ (forall r, (r < as_size a)%nat -> F (equations a) v 0 r = 0) /\
            voltages a v (Some 8%nat) = (2 / 5, 0) /\ extra l1 a v 1 = (1 / 5, 0).
Proof. exact power_stuck. Qed.
Print Assumptions C148_power_refuted.

(** C148: the L1 and the L2 form of a network give the same currents, whatever the indexes were before *)
Theorem C148_same : forall old old' nw nw' l1 l1', network_ok nw -> affine_network nw -> nw_optimization nw = Some l1 -> nw_optimization nw' = Some l1' ->
  nw_buses nw' = nw_buses nw -> elements nw' = elements nw -> let a := assign_matrix old nw in let a' := assign_matrix old' nw' in forall v v',
  (forall r, (r < as_size a)%nat -> F (equations a) v 0 r = 0) -> (forall r, (r < as_size a')%nat -> F (equations a') v' 0 r = 0) ->
  forall k, (k < length (nw_buses nw))%nat -> extra l1 a v k = extra l1' a' v' k.
Proof. exact same_currents. Qed.
Print Assumptions C148_same.
Example C148_same_example : forall old, extra true (assign_matrix old (stranded true)) (stranded_point true) 0 = (-1, 0) /\
  extra false (assign_matrix old (stranded false)) (stranded_point false) 0 = (-1, 0) /\ elements (stranded true) = elements (stranded false).
Proof. exact (fun old => conj (proj1 (proj2 (stranded_solved true old))) (conj (proj1 (proj2 (stranded_solved false old))) eq_refl)). Qed.
