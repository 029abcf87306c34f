(** C154: the files a run of the command leaves behind. *)
From Coq Require Import Reals ZArith String Ascii List Bool Arith.
From Verif Require Import PyExc Collect SpecSystem Components SpecComponents Network SpecNetwork Solver SpecSolver Devices Graph PowerFlow SpecPowerFlow
  SpecKirchhoff NetStamper SpecNetStamper SpecNewton NewtonGauss ThreePhase RawParser Loader LoaderWitness SolverNet Command SpecCommand CommandWitness Output SpecOutput Report SpecReport ReportFinal ReportWitness.
From Verif Require TimeSeries.
Import ListNotations.
Local Open Scope R_scope.

(** C154: one power flow.  The two files say FAILURE, or show the voltages of the solution found and the scaled powers of the loads; nothing else is written, and nothing
    at all if the power flow raises or no path is given *)
Theorem C154_plain : forall label So T W nm (spsolve : So -> list (nat * nat * R) -> list R -> So * option (list R)) nan old visit later outputs rated fuel o so r nw opt f,
  from_file T W (op_case o) = Ok r -> asks_analysis o opt -> solver_network opt r = Ok nw -> asks_factor o f ->
  let run := command So T W nm spsolve nan old visit later outputs fuel o so in
  let disk_after path d := files label So T W nm spsolve nan old visit later outputs rated fuel o path so d in
  forall path d, no_series o r -> path <> ""%string -> let vf := (path ++ "_voltage.csv")%string in let pf := (path ++ "_power.csv")%string in
  (forall ok v it tx rd ds so', reports run (PFDone ok v it tx rd ds so') -> exists d' tv tp, disk_after (Some path) d = Ok (Some d') /\ d' vf = Some tv /\ d' pf = Some tp /\
     (forall g, g <> vf -> g <> pf -> d' g = d g) /\
     (ok = false -> tv = "FAILURE"%string /\ tp = "FAILURE"%string) /\
     (ok = true -> names_plain label r -> shows_voltages label r (voltages (assign_matrix old nw) (vec v)) false tv /\ shows_powers label r f (sources nw) tp)) /\
  ((forall s, ~ reports run s) -> disk_after (Some path) d = Ok (Some d)) /\
  disk_after None d = Ok (Some d) /\ disk_after (Some ""%string) d = Ok (Some d).
Proof. exact files_plain. Qed.
Print Assumptions C154_plain.
Example C154_plain_example : names_plain no_label (Three home_net) /\ forall nm old nan later outputs rated fuel d, exists d' tv tp,
  files no_label unit feed_tools home_desk nm gauss nan old (fun l => l) later outputs rated fuel (home_options (Some 0)) (Some "out"%string) tt d = Ok (Some d') /\
  d' "out_voltage.csv"%string = Some tv /\ split line_end tv = ["bus,name,v_magnitude,v_ang_degrees"; "0,a:A,2401.000,0.000"; ""]%string /\
  d' "out_power.csv"%string = Some tp /\ split line_end tp = ["bus,name,P(MW),Q(MVar)"; "0,Slack,0.00,0.00"; "a,PQ,0.00,0.00"; ""]%string.
Proof. exact (conj home_plain_names home_files). Qed.

(** C154: from the file of a linear circuit to the voltage file: it shows the voltages the circuit laws admit, which are only these *)
Theorem C154_linear : forall label So T W nm (spsolve : So -> list (nat * nat * R) -> list R -> So * option (list R)) nan old visit later outputs rated fuel o so r nw opt f,
  from_file T W (op_case o) = Ok r -> asks_analysis o opt -> solver_network opt r = Ok nw -> asks_factor o f ->
  forall path d, no_series o r -> path <> ""%string -> solves_regular spsolve -> op_debug o = false -> op_infeasibility o = false -> linear_file f r -> no_devices r -> nw_buses nw <> [] -> names_plain label r ->
  forall nw', scaled f nw nw' -> let a := assign_matrix old nw' in one_solution (equations a) (as_size a) -> Graph.accepted visit (graph_of (solver_details nm r) nw') = true ->
  exists d' tv V, files label So T W nm spsolve nan old visit later outputs rated fuel o (Some path) so d = Ok (Some d') /\ d' (path ++ "_voltage.csv")%string = Some tv /\
    physical nw' V /\ forall V, physical nw' V -> shows_voltages label r V false tv.
Proof. exact files_linear. Qed.
Print Assumptions C154_linear.
Example C154_linear_example : solves_regular gauss /\ linear_file 0 (Three home_net) /\ no_devices (Three home_net) /\ names_plain no_label (Three home_net) /\ forall nm old nw', scaled 0 home_nw nw' ->
  one_solution (equations (assign_matrix old nw')) (as_size (assign_matrix old nw')) /\ Graph.accepted (fun l => l) (graph_of (solver_details nm (Three home_net)) nw') = true.
Proof. exact (conj gauss_regular (conj (proj1 home_linear) (conj (proj2 home_linear) (conj home_plain_names home_one)))). Qed.

(** C154: a time series.  Every hour of the range has its two files, and no other file is touched *)
Theorem C154_series : forall label So T W nm (spsolve : So -> list (nat * nat * R) -> list R -> So * option (list R)) nan old visit later outputs rated fuel o so r nw opt f,
  from_file T W (op_case o) = Ok r -> asks_analysis o opt -> solver_network opt r = Ok nw -> asks_factor o f ->
  let run := command So T W nm spsolve nan old visit later outputs fuel o so in
  forall cols, TimeSeries.ta_file (op_series o) = TimeSeries.File cols -> nw_three_phase nw = true ->
  let first := TimeSeries.or_zero (TimeSeries.ta_start (op_series o)) in let stop := TimeSeries.or_zero (TimeSeries.ta_end (op_series o)) in
  forall p d st rs, run = Ok (TimeSeries.Done st (TimeSeries.Series rs)) ->
  exists d', files label So T W nm spsolve nan old visit later outputs rated fuel o (Some p) so d = Ok (Some d') /\
    map fst rs = TimeSeries.py_range first stop /\ (forall h res, In (h, res) rs -> hour_says label old r nw p d' h res) /\ other_files p first stop d d'.
Proof. exact files_series. Qed.
Print Assumptions C154_series.
Example C154_series_example : forall nm old nan later outputs fuel, exists it rd st,
  command unit feed_tools home_desk nm gauss nan old (fun l => l) later outputs fuel (out_options one_hour) tt = Ok (TimeSeries.Done st (TimeSeries.Series [(0%Z, PFDone true home_point it 0 rd [] tt)])).
Proof. exact home_series. Qed.

(** C154: a series that raises on the way.  The hours before keep their files, and the power flow that follows, with whatever the loads are by then, gets the files of a
    run without a series *)
Theorem C154_broken : forall label So T W nm (spsolve : So -> list (nat * nat * R) -> list R -> So * option (list R)) nan old visit later outputs rated fuel o so r nw opt f,
  from_file T W (op_case o) = Ok r -> asks_analysis o opt -> solver_network opt r = Ok nw -> asks_factor o f ->
  let run := command So T W nm spsolve nan old visit later outputs fuel o so in let ls := map (scale_by f) (loads_of r) in
  forall cols, TimeSeries.ta_file (op_series o) = TimeSeries.File cols -> nw_three_phase nw = true ->
  let first := TimeSeries.or_zero (TimeSeries.ta_start (op_series o)) in let stop := TimeSeries.or_zero (TimeSeries.ta_end (op_series o)) in
  let goes := TimeSeries.run_hours _ outputs (power_flows So nm spsolve nan old visit later o r nw so) (op_swing o) (op_negatives o) fuel (TimeSeries.named ls) cols in
  forall p d st ok v it tx rd ds so', p <> ""%string -> run = Ok (TimeSeries.Done st (TimeSeries.Single (PFDone ok v it tx rd ds so'))) -> exists d' st1 st2 done h rest rs,
  files label So T W nm spsolve nan old visit later outputs rated fuel o (Some p) so d = Ok (Some d') /\ TimeSeries.py_range first stop = done ++ h :: rest /\
  goes done (0%nat, ls) = TimeSeries.Done st1 rs /\ goes (done ++ [h]) (0%nat, ls) = TimeSeries.Raised st2 /\ st = (S (fst st2), snd st2) /\
  (forall h res, In (h, res) rs -> hour_says label old r nw p d' h res) /\
  exists tv tp, d' (p ++ "_voltage.csv")%string = Some tv /\ d' (p ++ "_power.csv")%string = Some tp /\ (ok = false -> tv = "FAILURE"%string /\ tp = "FAILURE"%string) /\
    (ok = true -> names_plain label r -> shows_voltages label r (voltages (assign_matrix old nw) (vec v)) false tv).
Proof. exact files_broken. Qed.
Print Assumptions C154_broken.
Example C154_broken_example : forall nm old nan outputs fuel res, exists st,
  command unit feed_tools home_desk nm gauss nan old (fun l => l) (fun k _ => match k with O => None | _ => Some res end) outputs fuel (out_options two_hours) tt = Ok (TimeSeries.Done st (TimeSeries.Single res)).
Proof. exact home_broken. Qed.
