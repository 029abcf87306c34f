(** C147: networks with infeasibility currents. *)
From Coq Require Import String ZArith Reals List Bool Arith.
From Verif Require Import PyExc SpecSystem SpecComponents Solver Network SpecNetwork SpecNetStamper SpecKirchhoff SpecNetInfeas NetInfeasFinal PowerFlow Loader SolverNet
  LoaderWitness PowerFlowWitness SolverNetWitness KirchhoffWitness NetInfeasWitness NetInfeasRun NetInfeasRunWitness.
Import ListNotations.
Local Open Scope R_scope.

(** C147: with infeasibility currents the rows of the multipliers are the circuit laws with one more current at every bus, and the rows of
    the infeasibility currents tie them to the multipliers *)
Theorem C147_rows : forall old nw l1, network_ok nw -> nw_optimization nw = Some l1 -> let a := assign_matrix old nw in forall v,
  energised nw (voltages a v) -> exists ac, accounts_for (voltages a v) nw ac /\ gives_infeasible_rows l1 nw a ac v.
Proof. exact infeasible_rows. Qed.
Print Assumptions C147_rows.
Example C147_example : forall l1 old, network_ok (stranded l1) /\ energised (stranded l1) (voltages (assign_matrix old (stranded l1)) (stranded_point l1)).
Proof. exact (fun l1 old => conj (stranded_ok l1) (stranded_energised l1 _)). Qed.

(** C147: a solution gives voltages that are possible when the reported currents are drawn besides; the current at a bus is -1/2 (L2) or
    -1 (L1) times the multiplier of the bus *)
Theorem C147_sound : forall old nw l1, network_ok nw -> nw_optimization nw = Some l1 -> let a := assign_matrix old nw in forall v,
  energised nw (voltages a v) -> (forall r, (r < as_size a)%nat -> F (equations a) v 0 r = 0) ->
  physical_with (extra l1 a v) nw (voltages a v) /\
  forall k b, nth_error (nw_buses nw) k = Some b -> extra l1 a v k = Cscale (if l1 then -1 else -1 / 2) (multiplier a v b).
Proof. exact infeasible_sound. Qed.
Print Assumptions C147_sound.
Example C147_sound_example : forall l1 old, let a := assign_matrix old (stranded l1) in
  (forall r, (r < as_size a)%nat -> F (equations a) (stranded_point l1) 0 r = 0) /\
  extra l1 a (stranded_point l1) 0 = (-1, 0) /\ multiplier a (stranded_point l1) bus9 = (if l1 then 1 else 2, 0).
Proof. exact stranded_solved. Qed.
(** the load there has no supply *)
Example C147_infeasible_example : forall l1 V, ~ physical (stranded l1) V.
Proof. exact stranded_infeasible. Qed.

(** C147: a solution without infeasibility currents is a solution of the power flow *)
Theorem C147_zero : forall old nw l1, network_ok nw -> nw_optimization nw = Some l1 -> let a := assign_matrix old nw in forall v,
  energised nw (voltages a v) -> (forall r, (r < as_size a)%nat -> F (equations a) v 0 r = 0) ->
  (forall k, (k < length (nw_buses nw))%nat -> extra l1 a v k = C0) -> physical nw (voltages a v).
Proof. exact infeasible_zero. Qed.
Print Assumptions C147_zero.

(** C147: every solution of the power flow is a solution with zero multipliers and no infeasibility currents *)
Theorem C147_complete : forall old nw l1, network_ok nw -> nw_optimization nw = Some l1 -> let a := assign_matrix old nw in forall V,
  physical nw V -> exists v,
  (forall b, In b (nw_buses nw) -> voltages a v (Some (bus_id b)) = V (Some (bus_id b)) /\ multiplier a v b = C0) /\
  (forall k, (k < length (nw_buses nw))%nat -> extra l1 a v k = C0) /\
  forall r, (r < as_size a)%nat -> F (equations a) v 0 r = 0.
Proof. exact infeasible_complete. Qed.
Print Assumptions C147_complete.
Example C147_complete_example : forall l1 old, network_ok (feeder_with l1) /\ physical (feeder_with l1) (far (2 / 3)) /\
  exists v, let a := assign_matrix old (feeder_with l1) in
  voltages a v (Some 4%nat) = (1, 0) /\ voltages a v (Some 8%nat) = (2 / 3, 0) /\ forall r, (r < as_size a)%nat -> F (equations a) v 0 r = 0.
Proof. exact (fun l1 old => conj (feeder_with_ok l1) (conj (proj2 far_both) (feeder_with_solved l1 old))). Qed.

(** C147: with small rows the laws hold up to that much *)
Theorem C147_within : forall old nw l1, network_ok nw -> nw_optimization nw = Some l1 -> let a := assign_matrix old nw in forall eps v,
  energised nw (voltages a v) -> (forall r, (r < as_size a)%nat -> Rabs (F (equations a) v 0 r) < eps) ->
  nearly_physical_with eps (extra l1 a v) nw (voltages a v).
Proof. exact infeasible_within. Qed.
Print Assumptions C147_within.

(** C147: a run that reports success; if its currents are at most [d] the plain power flow is solved up to [d] more *)
Theorem C147_run : forall T W nm So (spsolve : So -> list (nat * nat * R) -> list R -> So * option (list R)) nan cfg old visit uri so v it tx res ds so' l1,
  sized spsolve -> run_file T W nm spsolve nan cfg old visit (Some l1) uri so = Ok (PFDone true v it tx res ds so') ->
  exists r nw, from_file T W uri = Ok r /\ solver_network (Some l1) r = Ok nw /\
    let nw' := with_devices nw ds in let a' := assign_matrix old nw' in
    length v = as_size a' /\
    exists u so0 es J, spsolve so0 es J = (so', Some v) /\
      (energised nw' (voltages a' u) ->
       nearly_physical_with (set_tolerance (pf_nr cfg)) (extra l1 a' u) nw' (voltages a' u) /\
       forall d, 0 <= d -> (forall k, (k < length (nw_buses nw'))%nat -> Rabs (fst (extra l1 a' u k)) <= d /\ Rabs (snd (extra l1 a' u k)) <= d) ->
         nearly_physical (set_tolerance (pf_nr cfg) + d) nw' (voltages a' u)).
Proof. exact run_infeasible. Qed.
Print Assumptions C147_run.
Example C147_run_example : sized zeros /\ forall nm old nan, exists v it tx res so',
  run_file feed_tools lone_desk nm zeros nan quiet_settings old (fun l => l) (Some false) "lone.glm"%string 0%nat = Ok (PFDone true v it tx res [] so').
Proof. exact (conj zeros_sized lone_run2). Qed.
