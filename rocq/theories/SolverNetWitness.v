(** Files taken all the way to the power flow. *)
From Coq Require Import Reals ZArith String Ascii List Bool Lia Lra Arith Permutation.
From Verif Require Import PyExc Expr Collect SpecSystem Components SpecComponents Network SpecNetwork NetworkAssign NetworkInit Solver SpecSolver Homotopy Devices Graph SpecGraph GraphProofs
  SpecKirchhoff KirchhoffProofs KirchhoffNet SpecNetStamper NetStamper NetRun NetStart PowerFlow SpecPowerFlow PowerFlowGraph PowerFlowRun PowerFlowWitness
  ThreePhase SpecThreePhase SpecThreeElems RawParser RawText GlmText GlmReader Loader SpecLoader LoaderProofs LoaderWitness SolverNet SpecSolverNet SolverNetProofs SolverRawProofs SolverNetFinal.
From Verif Require UnbalancedWitness ThreeWitness ReaderWitness FileWitness RawTextWitness RawTextWitness2 GlmWitness.
Import ListNotations.
Local Open Scope R_scope.

(** *** one swing node *)
Local Open Scope string_scope.
Definition lone := ["object node {"; " name a;"; " phases A;"; " bustype SWING;"; " nominal_voltage 2401;"; "}"].
Definition lone_disk (f : string) : option (list string) :=
  if String.eqb f "lone.glm" then Some lone else if String.eqb f "pair.RAW" then Some (RawTextWitness2.sfile [RawTextWitness2.line1; RawTextWitness2.line3]) else None.
Definition lone_desk : world := World lone_disk (fun _ => None) (fun _ => None) "/tmp".
Definition lone_objs : list (string * gobj) := [("a", ReaderWitness.obj "node" [("name", "a"); ("phases", "A"); ("bustype", "SWING"); ("nominal_voltage", "2401")])].
Lemma lone_read : read_glm feed_schema GlmWitness.no_conv GlmWitness.no_conv GlmWitness.no_cron lone_disk "lone.glm" = Ok (lone_objs, []).
Proof. lazy. reflexivity. Qed.
Definition lone_bus : tbus := {| tb_id := 0; tb_name := "a"; tb_phase := "A"; tb_virtual := false; tb_vnom := 2401; tb_vr := 2401 * cos 0; tb_vi := 2401 * sin 0 |}.
Definition lone_net : net :=
  {| nt_next := 1; nt_buses := [lone_bus]; nt_map := [("a_A", 0%nat)]; nt_slack := [{| sk_bus := 0; sk_v := 2401; sk_ang := 0 |}];
     nt_loads := []; nt_xfmrs := []; nt_caps := []; nt_regs := []; nt_fuses := []; nt_switches := []; nt_lines := [] |}.
Lemma lone_parses : FileWitness.loads FileWitness.feed_prims UnbalancedWitness.half_inv lone_objs (eq lone_net).
Proof. eexists. split; [ReaderWitness.run; reflexivity |]. FileWitness.go Q. intros <-. eexists. split; reflexivity. Qed.
Lemma lone_loads : from_file feed_tools lone_desk "lone.glm" = Ok (Three lone_net).
Proof.
  destruct lone_parses as (ms & S & n & P & <-).
  apply (proj1 (@local_glm feed_tools lone_desk "lone.glm" _ eq_refl (ex_intro _ "lone" (ex_intro _ "" eq_refl)))). exists lone_objs, [], ms. split; [exact lone_read|]. split; assumption.
Qed.
Local Close Scope string_scope.
Definition lone_slack : slack := {| Network.sl_bus := Some 0%nat; sl_V := 2401; Network.sl_ang := 0; sl_Pinit := 0; sl_Qinit := 0 |}.
Definition lone_nw : Network.network :=
  {| nw_three_phase := true; nw_buses := [dx_bus lone_bus]; nw_lines := []; nw_transformers := [];
     nw_slack := [lone_slack]; nw_switches := [];
     nw_generators := []; nw_loads := []; nw_misc := []; nw_sources := []; nw_shunts := [];
     nw_regulators := []; nw_fuses := []; nw_capacitors := []; nw_optimization := None |}.
Lemma lone_network : solver_network None (Three lone_net) = Ok lone_nw.
Proof. reflexivity. Qed.
Lemma lone_all : network_ok lone_nw /\ ends_on_buses lone_nw /\ sorted lone_nw /\ nw_optimization lone_nw = None /\ (nw_three_phase lone_nw = true <-> exists n, Three lone_net = Three n).
Proof. exact (loaded_network _ _ _ _ _ _ lone_loads lone_network). Qed.
Lemma lone_proper : proper (dx_details lone_net) lone_nw.
Proof.
  split; [|split].
  - intros [|[|k]]; reflexivity.
  - cbn. intros e f t k H J E. in_cases H; inversion J; subst; destruct E as [E|E]; try discriminate; injection E as <-; reflexivity.
  - cbn. intros s k H E. repeat match type of H with _ \/ _ => destruct H as [H|H] | False => destruct H end; try discriminate. injection H as <-. injection E as <-. reflexivity.
Qed.
Lemma lone_accepted : Graph.accepted (fun l => l) (graph_of (dx_details lone_net) lone_nw) = true.
Proof.
  unfold Graph.accepted. apply andb_true_iff. split; [vm_compute; reflexivity|].
  apply close_validate; [exact (graph_ends _ _ (proj1 lone_all) lone_proper)|intros; apply Permutation_refl|].
  assert (forall n b, first_bus (graph_of (dx_details lone_net) lone_nw) n b -> gb_vnom b = 2401) as G.
  { intros n b [l [r [E [_ _]]]]. assert (In b (filter (fun b => negb (gb_virtual b)) (gn_buses (graph_of (dx_details lone_net) lone_nw)))) as I by (rewrite E; apply in_elt).
    apply filter_In in I as [I _]. cbn in I. in_cases I; reflexivity. }
  intros u v bu bv _ Hu Hv. rewrite (G _ _ Hu), (G _ _ Hv). rewrite Rminus_diag_eq, Rabs_R0 by reflexivity. lra.
Qed.
Section Lone.
Variable old : Network.table.
Let a := assign_matrix old lone_nw.
Lemma lone_size : as_size a = 4%nat.
Proof. unfold a. rewrite total_size by apply lone_all. reflexivity. Qed.
Lemma lone_table : as_table a 0%nat = new_nodes 0 false.
Proof. exact (table_at old lone_nw (proj1 lone_all) eq_refl 0%nat (dx_bus lone_bus) eq_refl). Qed.
Lemma lone_init i : (i < 4)%nat -> vec (v_init quiet_settings lone_nw a) i = if Nat.eqb i 0 then 2401 else 0.
Proof.
  intros Hi. unfold vec, v_init. rewrite lone_size. cbn [nw_three_phase lone_nw].
  rewrite (nth_indep _ 0 (dx_init lone_nw a 0%nat)) by (rewrite map_length, seq_length; lia). rewrite map_nth, seq_nth by lia. rewrite Nat.add_0_l.
  destruct (dx_init_values old lone_nw (proj1 lone_all)) as [D1 [D2 D3]]. fold a in D1, D2, D3.
  destruct (polar_back (2401 * cos 0) (2401 * sin 0)) as [P1 P2]. rewrite cos_0, sin_0 in P1, P2.
  destruct i as [|[|i]].
  - rewrite (D1 (dx_bus lone_bus)) by (cbn [dx_bus lone_bus bus_id tb_id nw_buses lone_nw]; rewrite ?lone_table; cbn; auto). cbn [dx_bus lone_bus bus_Vm bus_Va tb_vr tb_vi]. rewrite cos_0, sin_0, P1. cbn. ring.
  - rewrite (D2 (dx_bus lone_bus)) by (cbn [dx_bus lone_bus bus_id tb_id nw_buses lone_nw]; rewrite ?lone_table; cbn; auto). cbn [dx_bus lone_bus bus_Vm bus_Va tb_vr tb_vi]. rewrite cos_0, sin_0, P2. cbn. ring.
  - apply D3. intros b Hb. cbn in Hb. in_cases Hb. cbn [dx_bus lone_bus bus_id tb_id]. rewrite lone_table. cbn. split; discriminate.
Qed.
Lemma lone_exact r : (r < 4)%nat -> F (equations a) (vec (v_init quiet_settings lone_nw a)) 0 r = 0.
Proof.
  intros Hr. set (v := vec _). pose proof (rows_of_vector old lone_nw (proj1 lone_all) eq_refl v) as GR. fold a in GR.
  assert (VB : voltages a v (Some 0%nat) = (2401, 0)).
  { unfold voltages. cbn [at_ref]. rewrite lone_table. unfold volt, v. cbn [new_nodes n_Vr n_Vi read Nat.add]. rewrite !lone_init by lia. reflexivity. }
  assert (account_of (voltages a v) v 2 (Network.elements lone_nw) =
    [ (ESlack lone_slack, [(Some 0%nat, C0)], [0; 0])]) as EA.
  { cbn [Network.elements lone_nw nw_three_phase nw_lines nw_transformers nw_slack nw_switches nw_generators nw_loads nw_misc nw_regulators nw_fuses nw_capacitors map app account_of own_unknowns].
    cbn [draws laws lone_slack Network.sl_bus sl_V Network.sl_ang]. unfold pair_of, across, re_im. rewrite !VB. cbn [Nat.add]. unfold v. rewrite !lone_init by lia. cbn [Nat.eqb]. unfold Cpolar, Csub, Cmul, Copp, C0. rewrite cos_0, sin_0. cbn [fst snd].
    repeat f_equal; try lra. }
  change (2 * length (nw_buses lone_nw))%nat with 2%nat in GR. rewrite EA in GR.
  destruct (row_cases old lone_nw v _ r GR) as [[k [b [Hk Hr']]]|[j [y [Hj ->]]]]; [fold a; rewrite lone_size; exact Hr| |]; destruct GR as [G1 [G2 _]].
  - specialize (G1 k b Hk). assert (net_current (bus_id b) [ (ESlack lone_slack, [(Some 0%nat, C0)], [0; 0])] = C0) as Z.
    { apply nth_error_In in Hk. cbn in Hk. in_cases Hk; unfold net_current; cbn; unfold Cadd, C0; cbn; f_equal; lra. }
    rewrite Z in G1. unfold C0 in G1. injection G1 as E1 E2. destruct Hr' as [-> | ->]; auto.
  - rewrite (G2 j y Hj). destruct j as [|[|j]]; cbn in Hj; try (injection Hj as <-; reflexivity). destruct j; discriminate.
Qed.
End Lone.
Lemma lone_run nm old nan : exists v it tx res so', run_file feed_tools lone_desk nm zeros nan quiet_settings old (fun l => l) None "lone.glm" 0%nat = Ok (PFDone true v it tx res [] so').
Proof.
  rewrite (run_execute _ _ nm _ zeros nan quiet_settings old (fun l => l) None _ 0%nat _ _ lone_loads lone_network). cbn [solver_details].
  destruct lone_all as (OK & EN & _).
  destruct (start_accepted old lone_nw OK EN nan nat zeros None (pf_nr quiet_settings) false) as [ms [Em H]]; try reflexivity.
  { exact zeros_answers. } { cbn; lia. } { rewrite lone_size. lia. }
  set (a := assign_matrix old lone_nw). destruct (H 0%nat (v_init quiet_settings lone_nw a)) as [r [s' [E1 [E2 _]]]].
  { unfold v_init. rewrite map_length, seq_length. reflexivity. }
  { rewrite lone_size. intros r Hr. unfold a. rewrite lone_exact by exact Hr. rewrite Rabs_R0. cbn. lra. }
  pose proof lone_accepted as AC. unfold Graph.accepted in AC. apply andb_true_iff in AC as [AC1 AC2].
  unfold execute. rewrite AC1, AC2. cbn [negb]. fold a. unfold device_run. cbn [pf_device_control quiet_settings nw_three_phase lone_nw try_adjust_devices].
  change (devices_of (dx_details lone_net) lone_nw a) with (@nil device). unfold MAX_DEVICE_ITERATIONS. cbn [device_loop adjust_all]. unfold solve. change (any_blown []) with false. cbn iota.
  unfold run_homotopy. change (with_devices lone_nw []) with lone_nw. cbv zeta. fold a. unfold a at 1. rewrite Em. unfold limiter. cbn [nw_three_phase lone_nw negb andb].
  match goal with |- context [net_homotopy ?p ?b ?c ?d ?e ?f ?g] => change (net_homotopy p b c d e f g) with (net_homotopy zeros None (pf_nr quiet_settings) false ms 0%nat (v_init quiet_settings lone_nw a)) end.
  rewrite E1. rewrite E2. cbn [negb].
  do 5 eexists. reflexivity.
Qed.

(** *** a RAW file with two buses and nothing between them *)
Lemma pair_told : told_format "pair.RAW" RAW.
Proof. split; [apply LineFile.contains_not; reflexivity | apply LineFile.contains_part; reflexivity]. Qed.
Definition pair_of_buses (o : onet) : Prop :=
  map ob_num (n_buses o) = [1%Z; 3%Z] /\ n_lines o = [] /\ n_xfmrs o = [] /\ n_slack o = [] /\ n_gens o = [] /\ n_loads o = [] /\ n_shunts o = [].
Lemma pair_parses : exists o, parse_raw RawTextWitness2.scase = Ok o /\ pair_of_buses o.
Proof. eexists. split; [lazy -[IZR Rplus Rmult Rminus Ropp Rinv Rdiv]; reflexivity|]. repeat split. Qed.
Lemma pair_loads : exists o, from_file feed_tools lone_desk "pair.RAW" = Ok (Single o) /\ pair_of_buses o.
Proof.
  destruct pair_parses as (o & P & H). exists o. split; [|exact H].
  apply (proj1 (@local_raw feed_tools lone_desk "pair.RAW" _ eq_refl pair_told)). unfold load_raw. cbn [feed_tools t_int t_float].
  rewrite (proj1 RawTextWitness2.s_read). exact P.
Qed.
Lemma pair_piece nm opt o : pair_of_buses o -> (one_piece (sx_details nm o) (sx_network opt o) <-> nm 1%Z = nm 3%Z).
Proof.
  intros (B & L & X & S & G & D & H). destruct (n_buses o) as [|b1 [|b2 [|b3 bs]]] eqn:EB; try discriminate. injection B as B1 B2.
  assert (EL : not_fuses (sx_network opt o) = []) by (unfold not_fuses, sx_network; cbn; rewrite L, X, S, G, D, H; reflexivity).
  set (c1 := {| bus_id := 0; bus_Vm := ob_vm b1; bus_Va := ob_va b1 |}). set (c2 := {| bus_id := 1; bus_Vm := ob_vm b2; bus_Va := ob_va b2 |}).
  assert (BB : nw_buses (sx_network opt o) = [c1; c2]) by (cbn [sx_network nw_buses]; rewrite EB; reflexivity).
  assert (N1 : name_of_bus (sx_details nm o) c1 = nm 1%Z) by (unfold name_of_bus, sx_details; cbn; rewrite EB; cbn; now rewrite B1).
  assert (N2 : name_of_bus (sx_details nm o) c2 = nm 3%Z) by (unfold name_of_bus, sx_details; cbn; rewrite EB; cbn; now rewrite B2).
  assert (R1 : real_bus (sx_details nm o) (sx_network opt o) c1) by (split; [rewrite BB; cbn; auto|cbn; rewrite EB; reflexivity]).
  assert (R2 : real_bus (sx_details nm o) (sx_network opt o) c2) by (split; [rewrite BB; cbn; auto|cbn; rewrite EB; reflexivity]).
  assert (NB : forall u v, ~ beside (sx_details nm o) (sx_network opt o) u v).
  { intros u v (i & j & [A|A] & _); destruct A as (e & _ & A); rewrite EL in A; destruct A as [[]|[A _]]; discriminate A. }
  split.
  - intros [_ P]. specialize (P _ _ R1 R2). rewrite N1, N2 in P. inversion P as [|v w P1 P2]; [reflexivity|]. exfalso. eapply NB; eassumption.
  - intros E. split; [eauto|]. intros b c [Hb _] [Hc _]. rewrite BB in Hb, Hc. cbn in Hb, Hc. in_cases Hb; in_cases Hc; rewrite ?N1, ?N2, ?E; constructor.
Qed.

(** *** a line that goes to phases its ends do not have *)
Local Open Scope string_scope.
Definition short_line : list dmodel := [ThreeWitness.node "mid" ["A"] true None 2400; ThreeWitness.node "end" ["A"] false None 2400;
  MLine (ThreeWitness.demo_line false false [ThreeWitness.wire "B" false] None)].
Lemma short_line_refused : exists n, parse_three UnbalancedWitness.half_inv false short_line = Ok n /\ dx_network None n = Err KeyError.
Proof.
  unfold UnbalancedWitness.half_inv. assert (exists r, parse_three (fun _ => Some [[Some (1 / 2, 0)%R]]) false short_line = r) as [r E] by eauto.
  rewrite E. revert E. repeat ThreeWitness.advance. ThreeWitness.run. intros <-. eexists. split; reflexivity.
Qed.
(** *** a line with its buses *)
Lemma demo_line_ends : exists n nw, parse_three UnbalancedWitness.half_inv false ThreeWitness.demo5 = Ok n /\ dx_network None n = Ok nw /\ length (nt_lines n) = 1%nat /\
  Forall (fun l => NoDup (tn_phases l)) (nt_lines n).
Proof.
  unfold UnbalancedWitness.half_inv. assert (exists r, parse_three (fun _ => Some [[Some (1 / 2, 0)%R]]) false ThreeWitness.demo5 = r) as [r E] by eauto.
  rewrite E. revert E. repeat ThreeWitness.advance. ThreeWitness.run. intros <-. eexists. eexists. split; [reflexivity|]. split; [reflexivity|]. split; [reflexivity|].
  repeat constructor; cbn; intuition discriminate.
Qed.
(** *** a node with the name of the bus inside a fuse *)
Definition captured : list dmodel := [ThreeWitness.node "mid" ["A"] true None 2400; ThreeWitness.node "end" ["A"] false None 2400; ThreeWitness.node "mid-Fuse" ["A"] false None 2400;
  MLine (ThreeWitness.demo_line true false [ThreeWitness.wire "A" false] None);
  MLine {| dl_fuse := false; dl_switch := true; dl_from := Some "end"; dl_to := Some "mid-Fuse"; dl_phases := Some ["A"]; dl_wires := [ThreeWitness.wire "A" false]; dl_limit := None;
     dl_status := fun _ => None; dl_z := []; dl_shunt := None; dl_len := 2 |}].
Lemma captured_bus : tidy captured /\ known_elements captured /\ exists n nw, parse_three UnbalancedWitness.half_inv false captured = Ok n /\ dx_network None n = Ok nw /\
  map tb_name (nt_buses n) = ["mid"; "end"; "mid-Fuse"; "mid-Fuse"] /\ nw_switches nw = [ESwitch true (Some 1%nat) (Some 3%nat)] /\ ~ proper (dx_details n) nw.
Proof.
  split; [apply ThreeWitness.tidy_ok; reflexivity|]. split; [apply ThreeWitness.known_ok; reflexivity|].
  unfold UnbalancedWitness.half_inv. assert (exists r, parse_three (fun _ => Some [[Some (1 / 2, 0)%R]]) false captured = r) as [r E] by eauto.
  rewrite E. revert E. repeat ThreeWitness.advance. ThreeWitness.run. intros <-. eexists. eexists. split; [reflexivity|]. split; [reflexivity|]. split; [reflexivity|]. split; [reflexivity|].
  intros (_ & P & _). specialize (P (ESwitch true (Some 1%nat) (Some 3%nat)) (Some 1%nat) (Some 3%nat) 3%nat).
  cut (false = true); [discriminate|]. symmetry. apply P; [cbn; auto 10| |right; reflexivity]. constructor.
Qed.
Local Close Scope string_scope.
Lemma names_merge : exists o, from_file feed_tools lone_desk "pair.RAW" = Ok (Single o) /\
  map ob_num (n_buses o) = [1%Z; 3%Z] /\ n_lines o = [] /\ n_xfmrs o = [] /\
  forall nm So (spsolve : So -> list (nat * nat * R) -> list R -> So * option (list R)) nan cfg old visit opt so,
    ((exists k, run_file feed_tools lone_desk nm spsolve nan cfg old visit opt "pair.RAW" so = Ok (PFIslands k)) <-> nm 1%Z <> nm 3%Z).
Proof.
  destruct pair_loads as (o & E & P). exists o. split; [exact E|]. split; [apply P|]. split; [apply P|]. split; [apply P|]. intros.
  rewrite (pieces_raw _ _ nm _ spsolve nan cfg old visit opt _ so o E), (pair_piece nm opt o P). reflexivity.
Qed.
Lemma not_inner s : forallb (fun t => negb (String.eqb (substring (String.length s - String.length t) (String.length t) s) t)) ["-Reg"; "-Fuse"; "_primary"; "_sending_1"; "_sending_2"]%string = true -> outside (Some s).
Proof.
  intros H s' Q I. injection Q as <-. rewrite forallb_forall in H.
  assert (G : forall a t : string, substring (String.length (a ++ t)%string - String.length t) (String.length t) (a ++ t)%string = t).
  { intros a t. assert (Q : forall a : string, String.length (a ++ t)%string = (String.length a + String.length t)%nat) by (induction a0; cbn; [reflexivity|now rewrite IHa0]). rewrite Q.
    replace (String.length a + String.length t - String.length t)%nat with (String.length a) by lia. clear. induction a; cbn.
    - induction t; cbn; [reflexivity|now rewrite IHt].
    - exact IHa. }
  assert (X : forall t, In t ["-Reg"; "-Fuse"; "_primary"; "_sending_1"; "_sending_2"]%string -> ~ SpecThreePhase.ends_with s t).
  { intros t Ht [a ->]. specialize (H t Ht). rewrite G, String.eqb_refl in H. discriminate. }
  unfold interior_name in I. destruct I as [I|[I|[I|[I|I]]]]; revert I; apply X; cbn; auto 10.
Qed.
Lemma demo5_plain : Forall plain_ends ThreeWitness.demo5 /\ known_elements ThreeWitness.demo5.
Proof.
  split.
  - unfold ThreeWitness.demo5, ThreeWitness.demo_nodes. cbn [app]. repeat apply Forall_cons; try apply Forall_nil; cbn [plain_ends ThreeWitness.node]; try exact Logic.I.
    all: split; [apply not_inner; reflexivity|]; split; [apply not_inner; reflexivity|]; cbn; repeat apply Forall_cons; try apply Forall_nil; unfold known; cbn; intuition auto.
  - pose proof ThreeWitness.three_demos as D. rewrite Forall_forall in D. apply D. cbn. auto 10.
Qed.
