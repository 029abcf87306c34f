(** A run with L2 infeasibility currents that succeeds, C147. *)
From Coq Require Import Reals ZArith String List Bool Lia Lra Arith.
From Verif Require Import PyExc Expr Collect SpecSystem Components SpecComponents Network SpecNetwork NetworkProofs NetworkAssign NetworkInit Solver SpecSolver Homotopy Devices Graph
  SpecKirchhoff KirchhoffProofs KirchhoffNet SpecNetStamper NetStamper NetRun NetStart PowerFlow SpecPowerFlow PowerFlowRun PowerFlowWitness NetTwin SpecNetInfeas NetInfeasProofs NetInfeasFinal
  ThreePhase Loader LoaderWitness SolverNet SpecSolverNet SolverNetFinal SolverNetWitness.
Import ListNotations.
Local Open Scope R_scope.

Definition lone_nw2 : Network.network :=
  {| nw_three_phase := true; nw_buses := [dx_bus lone_bus]; nw_lines := []; nw_transformers := [];
     nw_slack := [lone_slack]; nw_switches := [];
     nw_generators := []; nw_loads := []; nw_misc := []; nw_sources := []; nw_shunts := [];
     nw_regulators := []; nw_fuses := []; nw_capacitors := []; nw_optimization := Some false |}.
Lemma lone_network2 : solver_network (Some false) (Three lone_net) = Ok lone_nw2.
Proof. reflexivity. Qed.
Lemma lone_all2 : network_ok lone_nw2 /\ ends_on_buses lone_nw2 /\ sorted lone_nw2 /\ nw_optimization lone_nw2 = Some false /\ (nw_three_phase lone_nw2 = true <-> exists n, Three lone_net = Three n).
Proof. exact (loaded_network _ _ _ _ _ _ lone_loads lone_network2). Qed.
Section Lone.
Variable old : Network.table.
Let a := assign_matrix old lone_nw2.
Lemma lone_size2 : as_size a = 10%nat.
Proof. unfold a. rewrite total_size by apply lone_all2. reflexivity. Qed.
Lemma lone_table2 : as_table a 0%nat = new_nodes 0 true.
Proof. exact (table1 old lone_nw2 false (proj1 lone_all2) eq_refl 0%nat (dx_bus lone_bus) eq_refl). Qed.
Lemma lone_init2 i : (i < 10)%nat -> vec (v_init quiet_settings lone_nw2 a) i = if Nat.eqb i 0 then 2401 else 0.
Proof.
  intros Hi. unfold vec, v_init. rewrite lone_size2. cbn [nw_three_phase lone_nw2].
  rewrite (nth_indep _ 0 (dx_init lone_nw2 a 0%nat)) by (rewrite map_length, seq_length; lia). rewrite map_nth, seq_nth by lia. rewrite Nat.add_0_l.
  destruct (dx_init_values old lone_nw2 (proj1 lone_all2)) as [D1 [D2 D3]]. fold a in D1, D2, D3.
  destruct (polar_back (2401 * cos 0) (2401 * sin 0)) as [P1 P2]. rewrite cos_0, sin_0 in P1, P2.
  destruct i as [|[|i]].
  - rewrite (D1 (dx_bus lone_bus)) by (cbn [dx_bus lone_bus bus_id tb_id nw_buses lone_nw2]; rewrite ?lone_table2; cbn; auto). cbn [dx_bus lone_bus bus_Vm bus_Va tb_vr tb_vi]. rewrite cos_0, sin_0, P1. cbn. ring.
  - rewrite (D2 (dx_bus lone_bus)) by (cbn [dx_bus lone_bus bus_id tb_id nw_buses lone_nw2]; rewrite ?lone_table2; cbn; auto). cbn [dx_bus lone_bus bus_Vm bus_Va tb_vr tb_vi]. rewrite cos_0, sin_0, P2. cbn. ring.
  - apply D3. intros b Hb. cbn in Hb. in_cases Hb. cbn [dx_bus lone_bus bus_id tb_id]. rewrite lone_table2. cbn. split; discriminate.
Qed.
Lemma lone_exact2 r : (r < 10)%nat -> F (equations a) (vec (v_init quiet_settings lone_nw2 a)) 0 r = 0.
Proof.
  intros Hr. apply (zero_rows old lone_nw2 false (proj1 lone_all2) eq_refl (vec (v_init quiet_settings lone_nw (assign_matrix old lone_nw)))).
  - change (unknowns lone_nw2) with 4%nat. intros i Hi. rewrite lone_init by exact Hi.
    destruct i as [|[|[|[|i]]]]; [| | | |lia]; match goal with |- vec _ ?x = _ => let y := eval vm_compute in x in change x with y end; rewrite lone_init2 by lia; reflexivity.
  - change (unknowns lone_nw2) with 4%nat. intros i Hi.
    destruct i as [|[|[|[|i]]]]; [| | | |lia]; match goal with |- vec _ ?x = _ => let y := eval vm_compute in x in change x with y end; rewrite lone_init2 by lia; reflexivity.
  - fold a. rewrite lone_size2. change (unknowns lone_nw2) with 4%nat. intros q Hq. rewrite lone_init2 by lia. destruct (Nat.eqb_spec q 0); [lia|reflexivity].
  - intros q Hq. change (NetInfeasProofs.plain lone_nw2) with lone_nw. apply lone_exact. exact Hq.
  - fold a. rewrite lone_size2. exact Hr.
Qed.
End Lone.
Lemma lone_run2 nm old nan : exists v it tx res so', run_file feed_tools lone_desk nm zeros nan quiet_settings old (fun l => l) (Some false) "lone.glm" 0%nat = Ok (PFDone true v it tx res [] so').
Proof.
  rewrite (run_execute _ _ nm _ zeros nan quiet_settings old (fun l => l) (Some false) _ 0%nat _ _ lone_loads lone_network2). cbn [solver_details].
  destruct lone_all2 as (OK & EN & _).
  destruct (start_accepted old lone_nw2 OK EN nan nat zeros None (pf_nr quiet_settings) false) as [ms [Em H]]; try reflexivity.
  { exact zeros_answers. } { cbn; lia. } { rewrite lone_size2. lia. }
  set (a := assign_matrix old lone_nw2). destruct (H 0%nat (v_init quiet_settings lone_nw2 a)) as [r [s' [E1 [E2 _]]]].
  { unfold v_init. rewrite map_length, seq_length. reflexivity. }
  { rewrite lone_size2. intros r Hr. unfold a. rewrite lone_exact2 by exact Hr. rewrite Rabs_R0. cbn. lra. }
  pose proof lone_accepted as AC. unfold Graph.accepted in AC. apply andb_true_iff in AC as [AC1 AC2].
  change (graph_of (dx_details lone_net) lone_nw) with (graph_of (dx_details lone_net) lone_nw2) in AC1, AC2.
  unfold execute. rewrite AC1, AC2. cbn [negb]. fold a. unfold device_run. cbn [pf_device_control quiet_settings nw_three_phase lone_nw2 try_adjust_devices].
  change (devices_of (dx_details lone_net) lone_nw2 a) with (@nil device). unfold MAX_DEVICE_ITERATIONS. cbn [device_loop adjust_all]. unfold solve. change (any_blown []) with false. cbn iota.
  unfold run_homotopy. change (with_devices lone_nw2 []) with lone_nw2. cbv zeta. fold a. unfold a at 1. rewrite Em. unfold limiter. cbn [nw_three_phase lone_nw2 negb andb].
  match goal with |- context [net_homotopy ?p ?b ?c ?d ?e ?f ?g] => change (net_homotopy p b c d e f g) with (net_homotopy zeros None (pf_nr quiet_settings) false ms 0%nat (v_init quiet_settings lone_nw2 a)) end.
  rewrite E1. rewrite E2. cbn [negb].
  do 5 eexists. reflexivity.
Qed.
