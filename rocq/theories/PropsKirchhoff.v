(** C142: the equations of a whole network are the circuit laws of its elements and Kirchhoff's current law at its buses. *)
From Coq Require Import Reals List Bool Arith Lra.
From Verif Require Import SpecSystem Components SpecComponents Network SpecNetwork SpecKirchhoff KirchhoffNet KirchhoffWitness.
Import ListNotations.
Local Open Scope R_scope.

(** for every vector of unknowns, the rows of a bus are the net current there and the other rows are the laws of the elements *)
Theorem C142_rows : forall old nw, network_ok nw -> nw_optimization nw = None ->
  let a := assign_matrix old nw in forall v, energised nw (voltages a v) ->
  exists ac, accounts_for (voltages a v) nw ac /\ gives_rows nw a ac v.
Proof. exact all_rows. Qed.
Print Assumptions C142_rows.
(** for all voltages and all currents the elements may draw there is such a vector *)
Theorem C142_realised : forall old nw, network_ok nw -> nw_optimization nw = None ->
  let a := assign_matrix old nw in forall V ac, V None = C0 -> accounts_for V nw ac ->
  exists v, (forall b, In b (nw_buses nw) -> voltages a v (Some (bus_id b)) = V (Some (bus_id b))) /\ gives_rows nw a ac v.
Proof. exact realised. Qed.
Print Assumptions C142_realised.
(** an exact solution is a possible state of the circuit *)
Theorem C142_sound : forall old nw, network_ok nw -> nw_optimization nw = None ->
  let a := assign_matrix old nw in forall v, energised nw (voltages a v) ->
  (forall r, (r < as_size a)%nat -> F (equations a) v 0 r = 0) -> physical nw (voltages a v).
Proof. exact exact_iff. Qed.
Print Assumptions C142_sound.
(** every possible state of the circuit is a solution *)
Theorem C142_complete : forall old nw, network_ok nw -> nw_optimization nw = None ->
  let a := assign_matrix old nw in forall V, physical nw V ->
  exists v, (forall b, In b (nw_buses nw) -> voltages a v (Some (bus_id b)) = V (Some (bus_id b))) /\
    forall r, (r < as_size a)%nat -> F (equations a) v 0 r = 0.
Proof. exact complete. Qed.
Print Assumptions C142_complete.
(** rows below a tolerance: all laws hold up to that tolerance *)
Theorem C142_within : forall old nw, network_ok nw -> nw_optimization nw = None ->
  let a := assign_matrix old nw in forall eps v, energised nw (voltages a v) ->
  (forall r, (r < as_size a)%nat -> Rabs (F (equations a) v 0 r) < eps) -> nearly_physical eps nw (voltages a v).
Proof. exact within. Qed.
Print Assumptions C142_within.

(** a slack feeding a load over a line: exactly two voltages are possible at the far end *)
Example C142_network : network_ok feeder /\ nw_optimization feeder = None.
Proof. split; [exact feeder_ok|reflexivity]. Qed.
Example C142_two_states : physical feeder (far (1 / 3)) /\ physical feeder (far (2 / 3)).
Proof. exact far_both. Qed.
Example C142_no_other : ~ physical feeder (far (1 / 2)).
Proof. intros H. apply far_only in H. lra. Qed.
Example C142_energised : forall x, x <> 0 -> energised feeder (far x).
Proof. exact far_energised. Qed.
