(** Witnesses for C154: the files of a run on home.glm. *)
From Coq Require Import Reals ZArith String Ascii List Bool Lia Lra.
From Verif Require Import PyExc Components SpecComponents Network Solver Devices Graph PowerFlow SpecKirchhoff NetStamper SpecNetStamper SpecNewton NewtonGauss ThreePhase RawParser Loader LoaderWitness SolverNet Command SpecCommand CommandProofs CommandFinal CommandWitness
  Results SpecResults Output SpecOutput OutputProofs OutputWitness Report SpecReport ReportProofs ReportFinal.
From Verif Require TimeSeries.
Import ListNotations.
Local Open Scope R_scope.

Definition no_label (z : Z) : string * string := (""%string, ""%string).
Lemma home_plain_names : names_plain no_label (Three home_net).
Proof. intros b [<-|[]]. split; apply plain_b; reflexivity. Qed.
Lemma house_modulus : Results.modulus (2401, 0) = 2401.
Proof. unfold Results.modulus. cbn [fst snd]. replace (2401 * 2401 + 0 * 0) with (2401 * 2401) by ring. apply sqrt_square. lra. Qed.
Lemma house_angle : degrees_of 2401 0 = 0.
Proof.
  unfold degrees_of. rewrite house_modulus. assert (X : rltb 2401 (1 / 100000000) = false) by (destruct (rltb 2401 (1 / 100000000)) eqn:Q; [apply rltb_spec in Q; lra|reflexivity]).
  rewrite X. unfold TimeSeries.atan2. destruct (Rlt_dec 0 2401); [|lra]. replace (0 / 2401) with 0 by field. rewrite atan_0. field. pose proof PI_RGT_0. lra.
Qed.
Lemma home_texts old it rd ls : map TimeSeries.power_of ls = [(0, 0)] -> exists res, results no_label old (Three home_net) home_nw false ls (PFDone true home_point it 0 rd [] tt) = Some res /\
  split line_end (voltage_file res) = ["bus,name,v_magnitude,v_ang_degrees"; "0,a:A,2401.000,0.000"; ""]%string /\
  split line_end (power_file res) = ["bus,name,P(MW),Q(MVar)"; "0,Slack,0.00,0.00"; "a,PQ,0.00,0.00"; ""]%string.
Proof.
  intros E. destruct ls as [|l [|]]; try discriminate. injection E as E1 E2. cbn [results]. eexists. split; [reflexivity|]. split.
  - unfold voltage_file, shown_buses, trailer. cbn [or_success or_v or_buses or_violates buses_of home_net nt_buses map home_bus tb_id tb_name tb_phase tb_virtual filter negb ob_virtual]. unfold bus_row. cbn [fst snd ob_V ob_num ob_name ob_phase].
    unfold indexes. rewrite NetworkAssign.table_of. cbn [nw_buses with_devices with_powers with_loads with_capacitors home_nw assign_buses fst snd dx_bus bus_id home_bus tb_id set_nodes Nat.eqb new_nodes n_Vr n_Vi PowerFlow.or0 vec home_point nth Nat.add].
    rewrite house_modulus, house_angle, (@fixed_pos 3 2401 2401000), (@fixed_pos 3 0 0) by (cbn; lra). reflexivity.
  - unfold power_file, shown_gens, trailer. cbn [or_success or_v or_gens or_slacks or_inf or_loads or_violates].
    replace (gens_of _ _ _) with (@nil (Z * rgen)) by reflexivity. replace (infeasible_of _ _ _) with (@None (list (Z * rinf))) by reflexivity.
    assert (S : exists i j, (vec home_point (snd i) = 0 /\ vec home_point (fst j) = 0) /\ slacks_of (assign_matrix old (with_devices (with_powers [l] home_nw) [])) (Three home_net) (with_devices (with_powers [l] home_nw) []) = [(0%Z, {| rs_bus := i; rs_I := j |})]).
    { exists (0, 1)%nat, (2, 3)%nat. split; [split; reflexivity|]. unfold slacks_of, stampers_of, slack_at, assign_matrix. cbn -[load_stampers cos sin]. destruct (load_stampers _ _ _ _ _). reflexivity. }
    destruct S as (i & j & [Z1 Z2] & S). rewrite S. cbn [map app fst snd]. unfold slack_res, gen_row. cbn [gr_P gr_Q gr_type rs_bus rs_I]. rewrite Z1, Z2, Rmult_0_r, Rmult_0_l.
    unfold loads_shown, load_row, load_of. cbn. rewrite E1, E2, (@fixed_pos 2 0 0) by (cbn; lra). reflexivity.
Qed.
Definition out_options (s : TimeSeries.ts_args) : options :=
  {| op_case := "home.glm"; op_series := s; op_swing := None; op_negatives := None; op_debug := false; op_infeasibility := false; op_factor := Some 0; op_tx_stepping := false |}.
Definition home_ls : list TimeSeries.tload := map (scale_by 0) (loads_of (Three home_net)).
Lemma home_ls_power : map TimeSeries.power_of home_ls = [(0, 0)].
Proof. unfold home_ls. cbn. unfold TimeSeries.power_of. cbn. repeat f_equal; ring. Qed.
Lemma home_executes nm old nan : exists it rd, execute (solver_details nm (Three home_net)) gauss nan (settings_of (home_options (Some 0))) old (fun l => l) (with_powers home_ls home_nw) tt = PFDone true home_point it 0 rd [] tt.
Proof.
  destruct (home_run nm old nan (fun _ _ => None) (fun _ => []) 0%nat) as (it & rd & R & _). exists it, rd.
  exact (reported unit feed_tools home_desk nm gauss nan old (fun l => l) (fun _ _ => None) (fun _ => []) 0%nat (home_options (Some 0)) tt (Three home_net) home_nw None 0 home_loads
    (or_intror (conj eq_refl eq_refl)) home_network (or_introl eq_refl) _ _ _ _ _ _ _ (home_plain _) R).
Qed.
(** one run with --outputfile out *)
Lemma home_files nm old nan later outputs rated fuel d : exists d' tv tp,
  files no_label unit feed_tools home_desk nm gauss nan old (fun l => l) later outputs rated fuel (home_options (Some 0)) (Some "out"%string) tt d = Ok (Some d') /\
  d' "out_voltage.csv"%string = Some tv /\ split line_end tv = ["bus,name,v_magnitude,v_ang_degrees"; "0,a:A,2401.000,0.000"; ""]%string /\
  d' "out_power.csv"%string = Some tp /\ split line_end tp = ["bus,name,P(MW),Q(MVar)"; "0,Slack,0.00,0.00"; "a,PQ,0.00,0.00"; ""]%string.
Proof.
  rewrite (plain_files no_label unit feed_tools home_desk nm gauss nan old (fun l => l) later outputs rated fuel (home_options (Some 0)) tt (Three home_net) home_nw None 0 home_loads
    (or_intror (conj eq_refl eq_refl)) home_network (or_introl eq_refl) (Some "out"%string) d (home_plain _)).
  fold home_ls. destruct (home_executes nm old nan) as (it & rd & ->). cbn [returned]. destruct (home_texts old it rd home_ls home_ls_power) as (res & -> & T1 & T2). cbn [put_file].
  destruct (@output_writes "out" res d ltac:(discriminate)) as (O1 & O2 & _). do 3 eexists. split; [reflexivity|]. split; [exact O1|]. split; [exact T1|]. split; [exact O2|exact T2].
Qed.
(** a load file without columns, for one hour *)
Definition one_hour : TimeSeries.ts_args := {| TimeSeries.ta_file := TimeSeries.File []; TimeSeries.ta_start := None; TimeSeries.ta_end := Some 1%Z |}.
Lemma home_series nm old nan later outputs fuel : exists it rd st,
  command unit feed_tools home_desk nm gauss nan old (fun l => l) later outputs fuel (out_options one_hour) tt = Ok (TimeSeries.Done st (TimeSeries.Series [(0%Z, PFDone true home_point it 0 rd [] tt)])).
Proof.
  destruct (home_executes nm old nan) as (it & rd & E). exists it, rd, (1%nat, home_ls).
  rewrite (series_run unit feed_tools home_desk nm gauss nan old (fun l => l) later outputs fuel (out_options one_hour) tt (Three home_net) home_nw None 0 home_loads
    (or_intror (conj eq_refl eq_refl)) home_network (or_introl eq_refl) [] eq_refl eq_refl).
  fold home_ls. cbn [one_hour out_options op_series TimeSeries.ta_start TimeSeries.ta_end TimeSeries.or_zero op_swing op_negatives]. change (TimeSeries.py_range 0 1) with [0%Z]. cbn [TimeSeries.run_hours TimeSeries.set_load_values fold_left fst snd].
  unfold TimeSeries.execute_powerflow, TimeSeries.power_flow. cbn [fst snd power_flows]. change (settings_of (out_options one_hour)) with (settings_of (home_options (Some 0))). rewrite E. cbn [returned].
  destruct fuel; reflexivity.
Qed.
(** two hours of which the second power flow raises and a third, after the series is given up, returns *)
Definition two_hours : TimeSeries.ts_args := {| TimeSeries.ta_file := TimeSeries.File []; TimeSeries.ta_start := None; TimeSeries.ta_end := Some 2%Z |}.
Lemma home_broken nm old nan outputs fuel res : exists st,
  command unit feed_tools home_desk nm gauss nan old (fun l => l) (fun k _ => match k with O => None | _ => Some res end) outputs fuel (out_options two_hours) tt = Ok (TimeSeries.Done st (TimeSeries.Single res)).
Proof.
  destruct (home_executes nm old nan) as (it & rd & E). exists (3%nat, home_ls).
  rewrite (series_run unit feed_tools home_desk nm gauss nan old (fun l => l) _ outputs fuel (out_options two_hours) tt (Three home_net) home_nw None 0 home_loads
    (or_intror (conj eq_refl eq_refl)) home_network (or_introl eq_refl) [] eq_refl eq_refl).
  fold home_ls. cbn [two_hours out_options op_series TimeSeries.ta_start TimeSeries.ta_end TimeSeries.or_zero op_swing op_negatives]. change (TimeSeries.py_range 0 2) with [0%Z; 1%Z]. cbn [TimeSeries.run_hours TimeSeries.set_load_values fold_left fst snd].
  unfold TimeSeries.execute_powerflow, TimeSeries.power_flow. cbn [fst snd power_flows]. change (settings_of (out_options two_hours)) with (settings_of (home_options (Some 0))). rewrite E. cbn [returned].
  destruct fuel; reflexivity.
Qed.
Lemma home_one nm old nw' : scaled 0 home_nw nw' ->
  one_solution (equations (assign_matrix old nw')) (as_size (assign_matrix old nw')) /\ Graph.accepted (fun l => l) (graph_of (solver_details nm (Three home_net)) nw') = true.
Proof.
  intros SC. destruct (home_scaled _ _ SC) as (d & -> & D1 & D2 & D3 & D4 & D5). destruct (home_assigned old d D1 D2 D3 D4 D5) as [-> ->]. destruct home_solution as [HS HU].
  split; [exists home_point; split; [reflexivity|]; split; assumption|exact (home_accepted d)].
Qed.
