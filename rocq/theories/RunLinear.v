(** C157: linear RAW files. *)
From Coq Require Import String Reals ZArith List Bool Arith Lia Lra.
From Verif Require Import PyExc Components SpecComponents SpecSystem Devices Network SpecNetwork NetworkAssign Solver SpecKirchhoff KirchhoffNet NetStamper SpecNetStamper PowerFlow SpecPowerFlow PowerFlowProofs NewtonGauss
  ThreePhase SpecThreePhase RawTransformers RawParser SpecRaw Loader SolverNet SpecSolverNet SolverNetProofs SolverRawProofs SolverNetFinal Command SpecCommand CommandProofs CommandFinal CommandWitness SpecNewton ElementProofs SpecParts PartsProofs PartsFinal PartsFile SpecRun RunFinal.
From Verif Require TimeSeries ThreePhaseBase.
Import ListNotations.
Local Open Scope R_scope.

Lemma linear_raw So T W nm (spsolve : So -> list (nat * nat * R) -> list R -> So * option (list R)) nan old visit later outputs fuel o so f q :
  asks_factor o f -> op_infeasibility o = false -> from_file T W (op_case o) = Ok (Single q) ->
  solves_regular spsolve -> op_debug o = false -> linear_file f (Single q) -> n_buses q <> [] ->
  (forall nw', scaled f (sx_network None q) nw' -> one_solution (equations (assign_matrix old nw')) (as_size (assign_matrix old nw'))) ->
  forall s, reports (command So T W nm spsolve nan old visit later outputs fuel o so) s ->
  exists v it rd so' q' U, s = PFDone true v it 0 rd [] so' /\ onet_again f q q' /\ reads_raw q (vec v) U /\ sequence q' U (fun x => x = 0) /\
    forall U', sequence q' U' (fun x => x = 0) -> forall b, In b (n_buses q) -> U' (RawParser.ob_num b) = U (RawParser.ob_num b).
Proof.
  intros AF NI FI SV DB LF NB UQ s R.
  assert (NB' : nw_buses (sx_network None q) <> []) by (cbn; destruct (n_buses q); [contradiction|discriminate]).
  assert (AN : asks_analysis o None) by (right; split; [exact NI|reflexivity]).
  destruct (command_linear So T W nm spsolve nan old visit later outputs fuel o so (Single q) (sx_network None q) None f FI AN eq_refl AF (or_intror (or_intror (ex_intro _ q eq_refl))) SV DB LF I NB') as (nw' & SC & H). cbv zeta in H.
  destruct (H (UQ nw' SC)) as [H1 _]. destruct (H1 s R) as (v & it & rd & so' & -> & _ & _ & _ & P & _). destruct (P NI) as [P1 P2]. clear H H1.
  destruct (onet_back None f q nw' [] SC) as (q' & AG & E').
  assert (with_devices nw' [] = nw') as D by (unfold with_devices, with_capacitors; rewrite skipn_nil; cbn; destruct nw'; reflexivity). rewrite D in E'. subst nw'.
  destruct (loaded_raw _ _ _ _ FI) as (WA & ND & _). pose proof (again_attached _ _ _ AG WA) as WA'.
  assert (BQ : n_buses q' = n_buses q) by (destruct AG as (_ & B & _); exact B). rewrite <- BQ in ND.
  pose (V := voltages (assign_matrix old (sx_network None q')) (vec v)). change (voltages _ (vec v)) with V in P1, P2.
  assert (BN : by_number q' V (fun z => V (sx_ref q' z))).
  { intros k b Hk. destruct (ref_of q' (RawParser.ob_num b)) as (j & -> & HJ); [apply in_map, (nth_error_In _ _ Hk)|]. f_equal. f_equal. apply (is_bus_once q' _ _ _ ND) with (1 := ex_intro _ b (conj Hk eq_refl)) (2 := HJ). }
  exists v, it, rd, so', q', (fun z => V (sx_ref q' z)). split; [reflexivity|]. split; [exact AG|]. split; [|split].
  - intros k b Hk. rewrite <- BQ in Hk. rewrite <- (BN k b Hk). unfold V. exact (voltage_at old _ (vec v) k _ (sx_ok None q') eq_refl (raw_bus _ 0 k b Hk)).
  - apply (proj1 (single_laws q' None V _ WA' ND eq_refl BN)). exact P1.
  - intros U' C' b Hb. rewrite <- BQ in Hb. apply In_nth_error in Hb as [k Hk].
    pose (V' := fun r : bref => match r with Some k => match nth_error (n_buses q') k with Some b => U' (RawParser.ob_num b) | None => C0 end | None => C0 end).
    assert (BN' : by_number q' V' U') by (intros i c Hi; unfold V'; now rewrite Hi).
    pose proof (proj2 (proj1 (single_laws q' None V' U' WA' ND eq_refl BN')) C') as PH.
    pose proof (raw_bus (n_buses q') 0 k b Hk) as HB.
    assert (IB : In {| bus_id := 0 + k; bus_Vm := ob_vm b; bus_Va := ob_va b |} (nw_buses (sx_network None q))) by (cbn [nw_buses sx_network]; rewrite <- BQ; exact (nth_error_In _ _ HB)).
    pose proof (P2 V' PH _ IB) as Q. cbn [bus_id Nat.add] in Q. rewrite <- (BN' k b Hk), <- (BN k b Hk). exact Q.
Qed.

(** *** one bus *)
Definition lone_net : onet :=
  {| n_buses := [{| RawParser.ob_num := 42; ob_type := 0; ob_vm := 2401; ob_va := 0 |}];
     n_slack := [{| RawParser.sl_bus := 42; sl_vset := 2401; RawParser.sl_ang := 0; sl_pinit := 0; sl_qinit := 0 |}];
     n_gens := []; n_loads := [(42%Z, home_demand)]; n_shunts := []; n_lines := []; n_xfmrs := [] |}.
Lemma lone_scaled f nw' : scaled f (sx_network None lone_net) nw' ->
  exists d, nw' = with_loads (sx_network None lone_net) [ELoad d (Some 0%nat) None] /\ (ld_P d, ld_Q d) = (f * 3, f * 4) /\ ld_Zr d = 0 /\ ld_Zi d = 0 /\ ld_IP d = 0 /\ ld_IQ d = 0.
Proof.
  destruct nw'. unfold scaled. cbn. intros (L & -> & -> & -> & -> & -> & -> & -> & -> & -> & -> & -> & -> & -> & ->).
  inversion L as [|x y xs ys Q L2]. subst. inversion L2. subst. inversion Q as [l d b t Q1 Q2 Q3 Q4 Q5]. subst. exists d. split; [reflexivity|]. cbn in Q1. unfold Cscale in Q1. cbn in Q1. auto 6.
Qed.
Lemma lone_assigned old d : (ld_P d, ld_Q d) = (0 * 3, 0 * 4) -> ld_Zr d = 0 -> ld_Zi d = 0 -> ld_IP d = 0 -> ld_IQ d = 0 ->
  let a := assign_matrix old (with_loads (sx_network None lone_net) [ELoad d (Some 0%nat) None]) in equations a = home_elements /\ as_size a = 4%nat.
Proof.
  intros E Z1 Z2 Z3 Z4. injection E as E1 E2.
  assert (Z : both0 0 0 = true) by (apply both0_true; auto).
  assert (C : 2401 * cos 0 = 2401) by (rewrite cos_0; ring). assert (S : 2401 * sin 0 = 0) by (rewrite sin_0; ring).
  pose (s := {| Network.sl_bus := Some 0%nat; sl_V := 2401; Network.sl_ang := 0; sl_Pinit := 100 * 0; sl_Qinit := 100 * 0 |}).
  cbv zeta. unfold equations, all_stampers, assign_matrix.
  change (Network.elements (with_loads (sx_network None lone_net) [ELoad d (Some 0%nat) None])) with [ESlack s; ELoad d (Some 0%nat) None].
  cbn [assign_elems assign_elem]. unfold load_stampers, slack_stampers. rewrite E1, E2, Z1, Z2, Z3, Z4, !Rmult_0_l. change (sl_V s) with 2401. change (Network.sl_ang s) with 0. rewrite Z, C, S. repeat split; reflexivity.
Qed.
Lemma lone_unique old nw' : scaled 0 (sx_network None lone_net) nw' -> one_solution (equations (assign_matrix old nw')) (as_size (assign_matrix old nw')).
Proof.
  intros SC. destruct (lone_scaled _ _ SC) as (d & -> & D1 & D2 & D3 & D4 & D5). destruct (lone_assigned old d D1 D2 D3 D4 D5) as [EQ SZ]. cbv zeta in *. rewrite EQ, SZ.
  destruct home_solution as [HS HU]. exists home_point. split; [reflexivity|]. split; assumption.
Qed.
Lemma lone_linear : linear_file 0 (Single lone_net) /\ n_buses lone_net <> [] /\ reads_raw lone_net (vec home_point) (fun _ => (2401, 0)).
Proof. split; [split; [reflexivity|now left]|]. split; [discriminate|]. intros [|[|k]] b H; try discriminate. reflexivity. Qed.
