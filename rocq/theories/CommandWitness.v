(** A file taken through the command. *)
From Coq Require Import Reals ZArith String Ascii List Bool Lia Lra Arith Permutation.
From Verif Require Import PyExc Expr Segment Collect SpecSystem Components SpecComponents ComponentsProofs ElementProofs Network SpecNetwork NetworkAssign Solver SpecSolver Homotopy Devices Graph SpecGraph GraphProofs
  SpecKirchhoff SpecNetStamper NetStamper PowerFlow SpecPowerFlow PowerFlowGraph NetInfeasProofs SpecNewton NewtonGauss NewtonFinal
  ThreePhase SpecThreePhase SpecThreeElems RawParser GlmText GlmReader Loader SpecLoader LoaderProofs LoaderWitness SolverNet SpecSolverNet SolverNetProofs SolverNetFinal
  Command SpecCommand CommandProofs CommandFinal.
From Verif Require UnbalancedWitness ReaderWitness FileWitness GlmWitness TimeSeries.
Import ListNotations.
Local Open Scope string_scope.

Definition home := ["object node {"; " name a;"; " phases A;"; " bustype SWING;"; " nominal_voltage 2401;"; "}";
                    "object load {"; " name house_7;"; " phases AN;"; " parent a;"; " constant_power_A 3+4j;"; "}"].
Definition home_disk (f : string) : option (list string) := if String.eqb f "home.glm" then Some home else None.
Definition home_desk : world := World home_disk (fun _ => None) (fun _ => None) "/tmp".
Definition home_objs : list (string * gobj) :=
  [("a", ReaderWitness.obj "node" [("name", "a"); ("phases", "A"); ("bustype", "SWING"); ("nominal_voltage", "2401")]);
   ("house_7", ReaderWitness.obj "load" [("name", "house_7"); ("phases", "AN"); ("parent", "a"); ("constant_power_A", "3+4j")])].
Lemma home_read : read_glm feed_schema GlmWitness.no_conv GlmWitness.no_conv GlmWitness.no_cron home_disk "home.glm" = Ok (home_objs, []).
Proof. lazy. reflexivity. Qed.
Definition home_bus : tbus := {| tb_id := 0; tb_name := "a"; tb_phase := "A"; tb_virtual := false; tb_vnom := 2401; tb_vr := 2401 * cos 0; tb_vi := 2401 * sin 0 |}.
Definition home_load : tload := {| tl_from := Some 0%nat; tl_to := None; tl_p := 3; tl_q := 4; tl_z := (0, 0)%R; tl_ip := 0; tl_iq := 0; tl_name := "7"; tl_phase := "A"; tl_triplex := None |}.
Definition home_net : net :=
  {| nt_next := 1; nt_buses := [home_bus]; nt_map := [("a_A", 0%nat)]; nt_slack := [{| sk_bus := 0; sk_v := 2401; sk_ang := 0 |}];
     nt_loads := [home_load]; nt_xfmrs := []; nt_caps := []; nt_regs := []; nt_fuses := []; nt_switches := []; nt_lines := [] |}.
Lemma home_parses : FileWitness.loads FileWitness.feed_prims UnbalancedWitness.half_inv home_objs (eq home_net).
Proof. eexists. split; [ReaderWitness.run; reflexivity |]. FileWitness.go Q. intros <-. eexists. split; [reflexivity|]. unfold home_net, home_bus, home_load. cbn. reflexivity. Qed.
Lemma home_loads : from_file feed_tools home_desk "home.glm" = Ok (Three home_net).
Proof.
  destruct home_parses as (ms & S & n & P & <-).
  apply (proj1 (@local_glm feed_tools home_desk "home.glm" _ eq_refl (ex_intro _ "home" (ex_intro _ "" eq_refl)))). exists home_objs, [], ms. split; [exact home_read|]. split; assumption.
Qed.
Local Close Scope string_scope.
Local Open Scope R_scope.
Definition home_slack : slack := {| Network.sl_bus := Some 0%nat; sl_V := 2401; Network.sl_ang := 0; sl_Pinit := 0; sl_Qinit := 0 |}.
Definition home_demand : load := {| ld_P := 3; ld_Q := 4; ld_Zr := 0; ld_Zi := 0; ld_IP := 0; ld_IQ := 0 |}.
Definition home_nw : Network.network :=
  {| nw_three_phase := true; nw_buses := [dx_bus home_bus]; nw_lines := []; nw_transformers := [];
     nw_slack := [home_slack]; nw_switches := [];
     nw_generators := []; nw_loads := [ELoad home_demand (Some 0%nat) None]; nw_misc := []; nw_sources := []; nw_shunts := [];
     nw_regulators := []; nw_fuses := []; nw_capacitors := []; nw_optimization := None |}.
Lemma home_network : solver_network None (Three home_net) = Ok home_nw.
Proof. reflexivity. Qed.
(** neither load file nor swing bus; the load factor is open *)
Definition home_options (f : option R) : options :=
  {| op_case := "home.glm"; op_series := {| TimeSeries.ta_file := TimeSeries.NoFile; TimeSeries.ta_start := None; TimeSeries.ta_end := None |}; op_swing := None;
     op_negatives := None; op_debug := false; op_infeasibility := false; op_factor := f; op_tx_stepping := false |}.
Lemma home_plain f : no_series (home_options f) (Three home_net).
Proof. left. split; reflexivity. Qed.
Lemma home_linear : linear_file 0 (Three home_net) /\ no_devices (Three home_net).
Proof. split; [|split; reflexivity]. split; [intros; contradiction|now left]. Qed.
Lemma home_scaled f nw' : scaled f home_nw nw' -> exists d, nw' = with_loads home_nw [ELoad d (Some 0%nat) None] /\ (ld_P d, ld_Q d) = (f * 3, f * 4) /\ ld_Zr d = 0 /\ ld_Zi d = 0 /\ ld_IP d = 0 /\ ld_IQ d = 0.
Proof.
  destruct nw'. unfold scaled. cbn. intros (L & -> & -> & -> & -> & -> & -> & -> & -> & -> & -> & -> & -> & -> & ->).
  inversion L as [|x y xs ys Q L2]. subst. inversion L2. subst. inversion Q as [l d b t Q1 Q2 Q3 Q4 Q5]. subst. exists d. split; [reflexivity|]. cbn in Q1. unfold Cscale in Q1. cbn in Q1. auto 6.
Qed.
Definition home_elements : list element := [(fst (two_terminal_details slack_lh (new_nodes 0 false) GROUND 2 false), [2401; 0])].
Lemma home_assigned old d : (ld_P d, ld_Q d) = (0 * 3, 0 * 4) -> ld_Zr d = 0 -> ld_Zi d = 0 -> ld_IP d = 0 -> ld_IQ d = 0 ->
  let a := assign_matrix old (with_loads home_nw [ELoad d (Some 0%nat) None]) in equations a = home_elements /\ as_size a = 4%nat.
Proof.
  intros E Z1 Z2 Z3 Z4. injection E as E1 E2.
  assert (Z : both0 0 0 = true) by (apply both0_true; auto).
  assert (C : 2401 * cos 0 = 2401) by (rewrite cos_0; ring). assert (S : 2401 * sin 0 = 0) by (rewrite sin_0; ring).
  cbv zeta. unfold equations, all_stampers, assign_matrix. change (Network.elements (with_loads home_nw [ELoad d (Some 0%nat) None])) with [ESlack home_slack; ELoad d (Some 0%nat) None].
  cbn [assign_elems assign_elem]. unfold load_stampers, slack_stampers. rewrite E1, E2, Z1, Z2, Z3, Z4, !Rmult_0_l. change (sl_V home_slack) with 2401. change (Network.sl_ang home_slack) with 0. rewrite Z, C, S. repeat split; reflexivity.
Qed.
Lemma home_F v r : F home_elements v 0 r = v 2%nat * hit (Some 0%nat) r + v 3%nat * hit (Some 1%nat) r + (v 0%nat - 2401) * hit (Some 2%nat) r + v 1%nat * hit (Some 3%nat) r.
Proof. unfold home_elements. rewrite !F_cons, F_nil. cbn [fst]. expand_rows. ring. Qed.
Definition home_point : list R := [2401; 0; 0; 0].
Lemma home_solution : solution home_elements home_point /\ forall w, length w = 4%nat -> solution home_elements w -> w = home_point.
Proof.
  split.
  - intros r Hr. cbn in Hr. rewrite home_F. do 4 (destruct r as [|r]; [cbn; lra|]). lia.
  - intros w Lw H. do 4 (destruct w as [|? w]; [discriminate|]). destruct w; [|discriminate]. unfold solution in H. cbn [length] in H.
    pose proof (H 0%nat ltac:(lia)) as H0. pose proof (H 1%nat ltac:(lia)) as H1. pose proof (H 2%nat ltac:(lia)) as H2. pose proof (H 3%nat ltac:(lia)) as H3. clear H.
    rewrite home_F in *. cbn in H0, H1, H2, H3. unfold home_point. repeat f_equal; lra.
Qed.
Lemma home_accepted d : Graph.accepted (fun l => l) (graph_of (dx_details home_net) (with_loads home_nw [ELoad d (Some 0%nat) None])) = true.
Proof.
  set (nw := with_loads _ _). assert (OK : network_ok nw).
  { split; [cbn; constructor; [intros []|constructor]|]. cbn. intros e H k K. destruct H as [<-|[<-|[]]]; cbn in K; destruct K as [K|K]; try (injection K as <-; now left); try contradiction; destruct K as [K|K]; discriminate || contradiction. }
  assert (PR : proper (dx_details home_net) nw).
  { split; [|split].
    - intros [|[|k]]; reflexivity.
    - cbn. intros e f t k H J E. destruct H as [<-|[<-|[]]]; inversion J.
    - cbn. intros s k H E. destruct H as [H|[H|[]]]; [|discriminate]. injection H as <-. injection E as <-. reflexivity. }
  unfold Graph.accepted. apply andb_true_iff. split; [vm_compute; reflexivity|].
  apply close_validate; [exact (graph_ends _ _ OK PR)|intros; apply Permutation_refl|].
  assert (forall n b, first_bus (graph_of (dx_details home_net) nw) n b -> gb_vnom b = 2401) as G.
  { intros n b [l [r [E [_ _]]]]. assert (In b (filter (fun b => negb (gb_virtual b)) (gn_buses (graph_of (dx_details home_net) nw)))) as I by (rewrite E; apply in_elt).
    apply filter_In in I as [I _]. cbn in I. destruct I as [<-|[]]. reflexivity. }
  intros u v bu bv _ Hu Hv. rewrite (G _ _ Hu), (G _ _ Hv). rewrite Rminus_diag_eq, Rabs_R0 by reflexivity. lra.
Qed.
Lemma home_run nm old nan later outputs fuel : exists it rd,
  reports (command unit feed_tools home_desk nm gauss nan old (fun l => l) later outputs fuel (home_options (Some 0)) tt) (PFDone true home_point it 0 rd [] tt) /\ (it <= 1)%nat.
Proof.
  destruct (command_linear unit feed_tools home_desk nm gauss nan old (fun l => l) later outputs fuel (home_options (Some 0)) tt (Three home_net) home_nw None 0 home_loads
    (or_intror (conj eq_refl eq_refl)) home_network (or_introl eq_refl) (home_plain _) gauss_regular eq_refl (proj1 home_linear) (proj2 home_linear)) as (nw' & SC & H); [discriminate|].
  destruct (home_scaled _ _ SC) as (d & -> & D1 & D2 & D3 & D4 & D5). destruct (home_assigned old d D1 D2 D3 D4 D5) as [EQ SZ]. cbv zeta in *. destruct home_solution as [HS HU]. rewrite EQ, SZ in H.
  destruct H as [H1 [_ H2]]; [exists home_point; split; [reflexivity|]; split; assumption|].
  destruct (H2 (home_accepted d)) as [s Hs]. destruct (H1 s Hs) as (v & it & rd & [] & -> & I & L & S & _). rewrite (HU v L S) in Hs. eauto.
Qed.
