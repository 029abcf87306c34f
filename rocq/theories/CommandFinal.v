(** C151: the command as a whole. *)
From Coq Require Import Reals ZArith String List Bool Lia Lra Arith.
From Verif Require Import PyExc Collect SpecSystem Components SpecComponents SpecUnbalanced Network SpecNetwork Solver SpecSolver Homotopy Devices Graph PowerFlow SpecPowerFlow PowerFlowRun
  SpecKirchhoff SpecNetStamper NetStamper SpecNetInfeas SpecNetLeast SpecNewton NewtonFinal NetworkAssign
  ThreePhase RawParser Loader SolverNet SolverNetProofs SolverRawProofs SolverNetFinal Command SpecCommand CommandProofs.
From Verif Require TimeSeries TimeSeriesRun.
Import ListNotations.
Local Open Scope R_scope.

Section Command.
Variables (So : Type) (T : tools) (W : world) (nm : Z -> nat) (spsolve : So -> list (nat * nat * R) -> list R -> So * option (list R))
  (nan : R) (old : Network.table) (visit : list nat -> list nat)
  (later : nat -> list TimeSeries.tload -> option (@pf_result So)) (outputs : @pf_result So -> list TimeSeries.gout) (fuel : nat) (o : options) (so : So).
Variables (r : Loader.network) (nw : Network.network) (opt : option bool) (f : R).
Hypothesis FI : from_file T W (op_case o) = Ok r.
Hypothesis AN : asks_analysis o opt.
Hypothesis NW : solver_network opt r = Ok nw.
Hypothesis AF : asks_factor o f.
Let run := command So T W nm spsolve nan old visit later outputs fuel o so.
Let ls := map (scale_by f) (loads_of r).
Let nw' := with_powers ls nw.

Lemma is_analysis : analysis o = opt.
Proof. unfold analysis. destruct AN as [[-> ->]|[-> ->]]; reflexivity. Qed.
Lemma is_factor : factor o = f.
Proof. unfold factor. destruct AF as [-> |[-> ->]]; reflexivity. Qed.
Lemma run_main : run = Ok (TimeSeries.main _ outputs (power_flows So nm spsolve nan old visit later o r nw so) (op_swing o) (op_negatives o) fuel (nw_three_phase nw) (op_series o) (0%nat, ls)).
Proof. unfold run, command. rewrite FI. cbn [pbind]. rewrite is_analysis, NW. cbn [pbind]. rewrite is_factor. reflexivity. Qed.
Lemma is_scaled : scaled f nw nw'.
Proof. exact (loads_scaled f r opt nw NW). Qed.
Lemma plain_run : no_series o r ->
  run = Ok (match returned So (execute (solver_details nm r) spsolve nan (settings_of o) old visit nw' so) with
            | Some s => TimeSeries.Done (1%nat, ls) (TimeSeries.Single s) | None => TimeSeries.Raised (1%nat, ls) end).
Proof.
  intros NS. rewrite run_main. f_equal. destruct NS as [[NF SW]|NS].
  - rewrite SW. rewrite (TimeSeriesRun.no_options outputs _ (op_negatives o) fuel (nw_three_phase nw) (op_series o) 0%nat ls NF). reflexivity.
  - rewrite TimeSeriesRun.options_ignored; [reflexivity|]. destruct NS as [NS|[n NS]]; [now right|]. left. destruct (loaded_network _ _ _ _ _ _ FI NW) as (_ & _ & _ & _ & TP).
    destruct (nw_three_phase nw); [|reflexivity]. destruct (proj1 TP eq_refl) as [m Q]. congruence.
Qed.
Lemma command_plain : no_series o r -> exists nw', scaled f nw nw' /\
  (forall res, reports run res <-> execute (solver_details nm r) spsolve nan (settings_of o) old visit nw' so = res /\ exists ok v it tx rd ds so', res = PFDone ok v it tx rd ds so') /\
  ((exists st res, run = Ok (TimeSeries.Done st (TimeSeries.Single res))) \/ exists st, run = Ok (TimeSeries.Raised st)).
Proof.
  intros NS. exists nw'. split; [exact is_scaled|]. rewrite (plain_run NS). destruct (execute _ _ _ _ _ _ _ _) as [k| |e ds so'|ok v it tx rd ds so']; cbn [returned].
  - split; [|right; eauto]. intros res. split; [intros [st Q]; discriminate|]. intros [<- (? & ? & ? & ? & ? & ? & ? & Q)]; discriminate.
  - split; [|right; eauto]. intros res. split; [intros [st Q]; discriminate|]. intros [<- (? & ? & ? & ? & ? & ? & ? & Q)]; discriminate.
  - split; [|right; eauto]. intros res. split; [intros [st Q]; discriminate|]. intros [<- (? & ? & ? & ? & ? & ? & ? & Q)]; discriminate.
  - split; [|left; eauto]. intros res. split; [intros [st Q]; injection Q as _ <-; eauto 12|]. intros [<- _]. eexists. reflexivity.
Qed.
Lemma reported v ok it tx rd ds so' : no_series o r -> reports run (PFDone ok v it tx rd ds so') ->
  execute (solver_details nm r) spsolve nan (settings_of o) old visit nw' so = PFDone ok v it tx rd ds so'.
Proof.
  intros NS [st Q]. rewrite (plain_run NS) in Q. destruct (execute _ _ _ _ _ _ _ _) as [k| |e ds0 so0|ok0 v0 it0 tx0 rd0 ds0 so0]; cbn [returned] in Q; try discriminate. injection Q as _ -> -> -> -> -> -> ->. reflexivity.
Qed.
Lemma command_success v it tx rd ds so' : no_series o r -> sized spsolve -> op_infeasibility o = false -> reports run (PFDone true v it tx rd ds so') ->
  exists nw', scaled f nw nw' /\ let nwd := with_devices nw' ds in let a := assign_matrix old nwd in
    length v = as_size a /\
    (exists u so0 es J, spsolve so0 es J = (so', Some v) /\ (energised nwd (voltages a u) -> nearly_physical (1 / 100000) nwd (voltages a u))) /\
    (nw_three_phase nw = true -> capacitors_rest (solver_details nm r) (voltages a (vec v)) nwd /\
     (energised nwd (voltages a (vec v)) -> exists ac, accounts_for (voltages a (vec v)) nwd ac /\ gives_rows nwd a ac (vec v) /\ fuses_rest (solver_details nm r) nwd ac)).
Proof.
  intros NS SZ IN Q. apply (reported _ _ _ _ _ _ _ NS) in Q. exists nw'. split; [exact is_scaled|]. cbv zeta.
  destruct (loaded_network _ _ _ _ _ _ FI NW) as (OK & EN & SO & OP & _). pose proof is_scaled as SC.
  assert (ON : nw_optimization nw' = None) by (cbn; rewrite OP; destruct AN as [[? _]|[_ ?]]; congruence).
  destruct (done_success _ _ _ _ _ _ _ _ _ _ _ _ _ _ _ Q (scaled_ok _ _ _ SC OK) (scaled_ends _ _ _ SC EN) SZ eq_refl) as (L & u & lin & stale & J & so0 & S1 & _ & _ & _ & S2).
  split; [exact L|]. split; [exists u, so0, (lin ++ stale), J; split; [exact S1|exact (S2 ON)]|]. intros T3.
  destruct (done_devices _ _ _ _ _ _ _ _ _ _ _ _ _ _ _ Q (scaled_ok _ _ _ SC OK) (scaled_sorted _ _ _ SC SO) eq_refl eq_refl T3) as (D1 & D2). split; [exact D1|exact (D2 ON)].
Qed.

(** *** linear files *)
Lemma no_devices_of x a : no_devices r -> devices_of x nw' a = [].
Proof.
  intros D. unfold devices_of. destruct r as [n|q]; cbn [solver_network no_devices] in *.
  - apply dx_fields in NW as (_ & TP & _ & _ & _ & _ & _ & _ & _ & _ & _ & _ & FU & CA & _). destruct D as [D1 D2]. rewrite D1 in FU. rewrite D2 in CA. cbn. rewrite FU, CA, TP. reflexivity.
  - injection NW as <-. reflexivity.
Qed.
Lemma command_linear : no_series o r -> solves_regular spsolve -> op_debug o = false -> linear_file f r -> no_devices r -> nw_buses nw <> [] ->
  exists nw', scaled f nw nw' /\ let a := assign_matrix old nw' in
    (one_solution (equations a) (as_size a) ->
     (forall s, reports run s -> exists v it rd so', s = PFDone true v it 0 rd [] so' /\ (it <= 1)%nat /\ length v = as_size a /\ solution (equations a) v /\
        (op_infeasibility o = false -> physical nw' (voltages a (vec v)) /\
           forall V, physical nw' V -> forall b, In b (nw_buses nw) -> V (Some (bus_id b)) = voltages a (vec v) (Some (bus_id b))) /\
        (op_infeasibility o = true -> (forall ph g b B, In (EUnb ph g b B) (nw_lines nw) -> symmetric (length ph) g /\ symmetric (length ph) b /\ symmetric (length ph) B) ->
           physical_with (extra false a (vec v)) nw' (voltages a (vec v)) /\
           forall E V, physical_with E nw' V -> total_square nw' (extra false a (vec v)) <= total_square nw' E)) /\
     ((exists s, reports run s) <-> Graph.accepted visit (graph_of (solver_details nm r) nw') = true)).
Proof.
  intros NS SV DB LF ND NB. exists nw'. split; [exact is_scaled|]. cbv zeta. intros U. pose proof is_scaled as SC. pose proof (plain_run NS) as PR.
  destruct (loaded_network _ _ _ _ _ _ FI NW) as (OK & EN & SO & OP & _). pose proof (scaled_ok _ _ _ SC OK) as OK'. pose proof (scaled_ends _ _ _ SC EN) as EN'. pose proof (scaled_linear _ _ _ _ _ NW SC LF) as LN'.
  pose proof (no_devices_of (solver_details nm r) (assign_matrix old nw') ND) as DV.
  pose proof (no_control (solver_details nm r) So spsolve nan (settings_of o) old visit nw' so DV) as NC. rewrite NC in PR.
  assert (SZ : (1 <= as_size (assign_matrix old nw'))%nat).
  { rewrite (NetworkAssign.total_size old nw' (proj1 OK')). unfold expected_size, unknowns. change (nw_buses nw') with (nw_buses nw). destruct (nw_buses nw) as [|b bs]; [contradiction|]. unfold per_bus. cbn [length]. destruct (nw_optimization nw') as [[]|]; lia. }
  assert (IT : intact (solver_details nm r) nw').
  { intros T3 k Hk. exfalso. change (nw_fuses nw') with (nw_fuses nw) in Hk. change (nw_three_phase nw') with (nw_three_phase nw) in T3. clear - ND NW Hk T3. destruct r as [n|q]; cbn [solver_network no_devices] in *.
    - apply dx_fields in NW as (_ & _ & _ & _ & _ & _ & _ & _ & _ & _ & _ & _ & FU & _). destruct ND as [D _]. rewrite D in FU. rewrite FU in Hk. cbn in Hk. lia.
    - injection NW as <-. discriminate. }
  assert (GA : Graph.accepted visit (graph_of (solver_details nm r) nw') = false -> returned So (execute (solver_details nm r) spsolve nan (uncontrolled (settings_of o)) old visit nw' so) = None).
  { intros G. unfold execute. unfold Graph.accepted in G. apply andb_false_iff in G. destruct (Nat.eqb _ 1) eqn:E1; cbn [negb]; [|reflexivity]. destruct G as [G|G]; [congruence|]. rewrite G. reflexivity. }
  destruct (newton_execute old nw' OK' EN' LN' (solver_details nm r) nan So spsolve (uncontrolled (settings_of o)) visit so SV U SZ (or_intror eq_refl) eq_refl IT) as [H|[H|H]];
    try exact DB; try (cbn; lia); try (cbn; lra).
  - destruct H as [n H]. rewrite H in PR. cbn [returned] in PR. split; [intros s [st Q]; rewrite PR in Q; discriminate|]. split; [intros [s [st Q]]; rewrite PR in Q; discriminate|].
    intros G. exfalso. unfold Graph.accepted in G. apply andb_true_iff in G as [G _]. unfold execute in H. rewrite G in H. cbn [negb] in H. destruct (negb (validate _ _)); [discriminate|].
    destruct (device_run _ _ _ _ _ _ _) as [? ? [[? ?] ?] ? ?|]; discriminate.
  - rewrite H in PR. cbn [returned] in PR. split; [intros s [st Q]; rewrite PR in Q; discriminate|]. split; [intros [s [st Q]]; rewrite PR in Q; discriminate|].
    intros G. exfalso. unfold Graph.accepted in G. apply andb_true_iff in G as [G1 G2]. unfold execute in H. rewrite G1, G2 in H. cbn [negb] in H.
    destruct (device_run _ _ _ _ _ _ _) as [? ? [[? ?] ?] ? ?|]; discriminate.
  - destruct H as (v & it & rd & so' & H & IT' & L & S). rewrite DV in H. rewrite H in GA, PR. cbn [returned] in GA, PR. split.
    + intros s [st Q]. rewrite PR in Q. injection Q as _ <-. exists v, it, rd, so'. split; [reflexivity|]. split; [exact IT'|]. split; [exact L|]. split; [exact S|]. split.
      * intros IN. apply (newton_physical old nw' OK' LN'); auto. cbn. rewrite OP. destruct AN as [[? _]|[_ ?]]; congruence.
      * intros IN SY. apply (newton_least old nw' false OK'); auto; [cbn; rewrite OP; destruct AN as [[_ ?]|[? _]]; congruence|]. exact (scaled_affine _ _ _ _ _ NW SC LF SY).
    + split; [intros _|intros _; eexists; eexists; exact PR]. destruct (Graph.accepted visit _); [reflexivity|]. specialize (GA eq_refl). discriminate.
Qed.
End Command.
