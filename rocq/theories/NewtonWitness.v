(** A concrete network for C150: a slack, a line and a constant current load. *)
From Coq Require Import String List Bool Arith ZArith Reals Lra Lia Permutation.
From Verif Require Import Expr Segment Collect SpecSystem Components SpecComponents ComponentsProofs ElementProofs UnbalancedLine Network SpecNetwork Solver SpecKirchhoff KirchhoffWitness
  SpecNetStamper Devices Graph SpecGraph GraphProofs PowerFlow SpecPowerFlow PowerFlowGraph NetInfeasProofs NetInfeasFinal NetInfeasWitness NetLeastWitness SpecNewton NewtonGauss NewtonFinal.
Import ListNotations.
Local Open Scope R_scope.

Definition branch : network :=
  {| nw_three_phase := true; nw_buses := nw_buses feeder; nw_lines := nw_lines feeder; nw_transformers := []; nw_slack := nw_slack feeder; nw_switches := [];
     nw_generators := []; nw_loads := [ELoad current_load (Some 8%nat) None]; nw_misc := []; nw_sources := []; nw_shunts := [];
     nw_regulators := []; nw_fuses := []; nw_capacitors := []; nw_optimization := None |}.
Lemma branch_ok : network_ok branch.
Proof. exact (feeder_of_ok true current_load). Qed.
Lemma branch_ends : ends_on_buses branch.
Proof. split; cbn; intros; repeat match goal with H : _ \/ _ |- _ => destruct H as [H|H] end; discriminate || contradiction. Qed.
Lemma branch_linear : linear_network branch.
Proof. intros e [<-|[<-|[<-|[]]]]; cbn; auto. Qed.
Definition b4 : nodes := new_nodes 0 false.
Definition b8 : nodes := new_nodes 2 false.
Definition branch_elements : list element :=
  [(line_details b4 b8 false false, [1; 0; 0])] ++ [(line_details b4 GROUND false true, [0; 0; 0])] ++ [(line_details b8 GROUND false true, [0; 0; 0])] ++
  [(fst (two_terminal_details slack_lh b4 GROUND 4 false), [1; 0])] ++ [(fst (two_terminal_details lh_Ic b8 GROUND 6 false), [1 / 4; 0])].
Lemma branch_assigned old : let a := assign_matrix old branch in equations a = branch_elements /\ as_size a = 6%nat /\ as_table a 8%nat = b8.
Proof.
  assert (Z : both0 0 0 = true) by (apply both0_true; auto).
  assert (O : both0 (1 / 4) 0 = false) by (destruct (both0 (1 / 4) 0) eqn:E; [apply both0_true in E as [E _]; lra|reflexivity]).
  assert (C : 1 * cos 0 = 1) by (rewrite cos_0; ring). assert (S : 1 * sin 0 = 0) by (rewrite sin_0; ring).
  cbv zeta. unfold equations, all_stampers, assign_matrix. change (elements branch) with [ELine small_line (Some 4%nat) (Some 8%nat); ESlack unit_slack; ELoad current_load (Some 8%nat) None].
  cbn [assign_elems assign_elem]. unfold load_stampers, slack_stampers, line_stampers. change (ld_P current_load) with 0. change (ld_Q current_load) with 0. change (ld_Zr current_load) with 0. change (ld_Zi current_load) with 0.
  change (ld_IP current_load) with (1 / 4). change (ld_IQ current_load) with 0. change (sl_V unit_slack) with 1. change (sl_ang unit_slack) with 0. rewrite Z, O, C, S. repeat split; reflexivity.
Qed.
Lemma branch_F v r : F branch_elements v 0 r =
  (v 0%nat - v 2%nat + v 4%nat) * hit (Some 0%nat) r + (v 1%nat - v 3%nat + v 5%nat) * hit (Some 1%nat) r + (v 2%nat - v 0%nat + 1 / 4) * hit (Some 2%nat) r + (v 3%nat - v 1%nat) * hit (Some 3%nat) r
  + (v 0%nat - 1) * hit (Some 4%nat) r + v 1%nat * hit (Some 5%nat) r.
Proof. unfold branch_elements. cbn [app]. rewrite !F_cons, F_nil. cbn [fst]. expand_rows. unfold TX_LARGE_G, TX_LARGE_B. ring. Qed.
Definition branch_point : list R := [1; 0; 3 / 4; 0; -1 / 4; 0].
Lemma branch_unique old : let a := assign_matrix old branch in as_size a = 6%nat /\ one_solution (equations a) (as_size a) /\
  solution (equations a) branch_point /\ voltages a (vec branch_point) (Some 8%nat) = (3 / 4, 0).
Proof.
  cbv zeta. destruct (branch_assigned old) as [E [Sz T]]. cbv zeta in *. rewrite E, Sz.
  assert (P : solution branch_elements branch_point).
  { intros r Hr. cbn in Hr. rewrite branch_F. do 6 (destruct r as [|r]; [cbn; lra|]). lia. }
  split; [reflexivity|]. split; [|split; [exact P|unfold voltages; cbn [at_ref]; rewrite T; reflexivity]].
  exists branch_point. split; [reflexivity|]. split; [exact P|]. intros w Lw H.
  do 6 (destruct w as [|? w]; [discriminate|]). destruct w; [|discriminate]. unfold solution in H. cbn [length] in H.
  pose proof (H 0%nat ltac:(lia)) as H0. pose proof (H 1%nat ltac:(lia)) as H1. pose proof (H 2%nat ltac:(lia)) as H2.
  pose proof (H 3%nat ltac:(lia)) as H3. pose proof (H 4%nat ltac:(lia)) as H4. pose proof (H 5%nat ltac:(lia)) as H5. clear H.
  rewrite branch_F in *. cbn in H0, H1, H2, H3, H4, H5. unfold branch_point. repeat f_equal; lra.
Qed.
Definition branch_settings := {| pf_nr := {| set_tolerance := 1 / 100; set_max_iters := 2; set_debug := false |}; pf_limiting := true; pf_flat := false; pf_tx_stepping := true; pf_device_control := false |}.
Definition branch_details : details_of :=
  {| of_bus := fun k => {| gb_ground := false; gb_name := k; gb_phase := 0; gb_virtual := false; gb_vnom := 1 |}; of_fuse := fun _ => (1, GOOD); of_cap := fun _ => (C_VOLT, 5, 2) |}.
Lemma branch_proper : proper branch_details branch.
Proof. split; [reflexivity|]. split; intros; reflexivity. Qed.
Lemma branch_validated : validate (fun l => l) (build (graph_of branch_details branch)) = true.
Proof.
  apply close_validate; [exact (graph_ends branch_details branch branch_ok branch_proper)|intros; apply Permutation_refl|].
  assert (forall n b, first_bus (graph_of branch_details branch) n b -> gb_vnom b = 1) as G.
  { intros n b [l [r [E [_ _]]]]. assert (In b (filter (fun b => negb (gb_virtual b)) (gn_buses (graph_of branch_details branch)))) as I by (rewrite E; apply in_elt).
    apply filter_In in I as [I _]. cbn in I. destruct I as [<-|[<-|[]]]; reflexivity. }
  intros u v bu bv _ Hu Hv. rewrite (G _ _ Hu), (G _ _ Hv). rewrite Rminus_diag_eq, Rabs_R0 by reflexivity. lra.
Qed.
(** elimination as the linear solver: the answer is the solution *)
Lemma branch_run old nan : exists it res, execute branch_details gauss nan branch_settings old (fun l => l) branch tt = PFDone true branch_point it 0 res [] tt /\ (it <= 1)%nat.
Proof.
  destruct (branch_unique old) as [Sz [U [P V]]]. cbv zeta in *.
  destruct (newton_execute old branch branch_ok branch_ends branch_linear branch_details nan unit gauss branch_settings (fun l => l) tt gauss_regular U ltac:(lia) (or_introl eq_refl) eq_refl) as [[n H]|[H|(v & it & res & so' & H & I & L & S)]];
    try reflexivity; try (cbn; lia); try (cbn; lra).
  - intros _ k Hk. cbn in Hk. lia.
  - exfalso. unfold execute in H. assert (E : length (islands (build (graph_of branch_details branch))) = 1%nat) by (vm_compute; reflexivity). rewrite E in H. cbn [Nat.eqb negb] in H.
    destruct (negb (validate _ _)); [discriminate|]. destruct (device_run _ _ _ _ _ _ _) as [? ? [[? ?] ?] ? ?|]; discriminate.
  - exfalso. unfold execute in H. assert (E : length (islands (build (graph_of branch_details branch))) = 1%nat) by (vm_compute; reflexivity). rewrite E in H. cbn [Nat.eqb negb] in H.
    assert (E2 : validate (fun l => l) (build (graph_of branch_details branch)) = true).
    { exact branch_validated. }
    rewrite E2 in H. cbn [negb] in H. destruct (device_run _ _ _ _ _ _ _) as [? ? [[? ?] ?] ? ?|]; discriminate.
  - destruct so'. exists it, res. split; [|exact I]. destruct U as [w [Lw [Hw U]]]. rewrite (U branch_point (eq_sym Sz) P), <- (U v L S). exact H.
Qed.
