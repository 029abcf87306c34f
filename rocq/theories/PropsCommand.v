(** C151: the command as a whole. *)
From Coq Require Import Reals ZArith String List Bool Arith.
From Verif Require Import PyExc Collect SpecSystem Components SpecComponents SpecUnbalanced Network SpecNetwork Solver SpecSolver Devices Graph PowerFlow SpecPowerFlow
  SpecKirchhoff SpecNetStamper NetStamper SpecNetInfeas SpecNetLeast SpecNewton NewtonGauss ThreePhase RawParser Loader LoaderWitness SolverNet Command SpecCommand CommandProofs CommandFinal CommandWitness.
From Verif Require TimeSeries.
Import ListNotations.
Local Open Scope R_scope.

(** C151: without a load file and an artificial swing bus, with a load file that is missing and for every positive sequence case, the command reports what one power
    flow returns on the network of the file with its loads scaled, and raises if that raises *)
Theorem C151_plain : forall So T W nm (spsolve : So -> list (nat * nat * R) -> list R -> So * option (list R)) nan old visit later outputs fuel o so r nw opt f,
  from_file T W (op_case o) = Ok r -> asks_analysis o opt -> solver_network opt r = Ok nw -> asks_factor o f ->
  let run := command So T W nm spsolve nan old visit later outputs fuel o so in
  no_series o r -> exists nw', scaled f nw nw' /\
  (forall res, reports run res <-> execute (solver_details nm r) spsolve nan (settings_of o) old visit nw' so = res /\ exists ok v it tx rd ds so', res = PFDone ok v it tx rd ds so') /\
  ((exists st res, run = Ok (TimeSeries.Done st (TimeSeries.Single res))) \/ exists st, run = Ok (TimeSeries.Raised st)).
Proof. exact command_plain. Qed.
Print Assumptions C151_plain.
Example C151_plain_example : forall f, from_file feed_tools home_desk (op_case (home_options f)) = Ok (Three home_net) /\ solver_network None (Three home_net) = Ok home_nw /\ no_series (home_options f) (Three home_net) /\
  asks_factor (home_options None) (-1).
Proof. exact (fun f => conj home_loads (conj home_network (conj (home_plain f) (or_intror (conj eq_refl eq_refl))))). Qed.

(** C151: in the scaled network every load takes the factor times its constant power besides its constant current and impedance; that is -1 if no factor is given *)
Theorem C151_power : forall f nw nw', scaled f nw nw' -> forall V ac l b t, accounts_for V nw' ac -> In (ELoad l b t) (nw_loads nw) ->
  exists l' Ip Iz, let I := Cadd Ip (Cadd (ld_IP l, ld_IQ l) Iz) in In (ELoad l' b t, [(b, I); (t, Copp I)], []) ac /\
    power (across V b t) Ip = Cscale f (ld_P l, ld_Q l) /\
    ((ld_Zr l, ld_Zi l) = C0 /\ Iz = C0 \/ (ld_Zr l, ld_Zi l) <> C0 /\ Cmul (ld_Zr l, ld_Zi l) Iz = across V b t).
Proof. exact scaled_power. Qed.
Print Assumptions C151_power.
Example C151_power_example : forall nw', scaled (-1) home_nw nw' -> exists d, nw' = with_loads home_nw [ELoad d (Some 0%nat) None] /\ (ld_P d, ld_Q d) = (-1 * 3, -1 * 4) /\
  ld_Zr d = 0 /\ ld_Zi d = 0 /\ ld_IP d = 0 /\ ld_IQ d = 0.
Proof. exact (home_scaled (-1)). Qed.

(** C151: a reported success without infeasibility analysis *)
Theorem C151_success : forall So T W nm (spsolve : So -> list (nat * nat * R) -> list R -> So * option (list R)) nan old visit later outputs fuel o so r nw opt f,
  from_file T W (op_case o) = Ok r -> asks_analysis o opt -> solver_network opt r = Ok nw -> asks_factor o f ->
  forall v it tx rd ds so', no_series o r -> sized spsolve -> op_infeasibility o = false ->
  reports (command So T W nm spsolve nan old visit later outputs fuel o so) (PFDone true v it tx rd ds so') ->
  exists nw', scaled f nw nw' /\ let nwd := with_devices nw' ds in let a := assign_matrix old nwd in
    length v = as_size a /\
    (exists u so0 es J, spsolve so0 es J = (so', Some v) /\ (energised nwd (voltages a u) -> nearly_physical (1 / 100000) nwd (voltages a u))) /\
    (nw_three_phase nw = true -> capacitors_rest (solver_details nm r) (voltages a (vec v)) nwd /\
     (energised nwd (voltages a (vec v)) -> exists ac, accounts_for (voltages a (vec v)) nwd ac /\ gives_rows nwd a ac (vec v) /\ fuses_rest (solver_details nm r) nwd ac)).
Proof. exact command_success. Qed.
Print Assumptions C151_success.

(** C151: files without generators, fuses and capacitors of whose loads no constant power is left, as with factor 0: the command reports the exact solution exactly
    if the graph is accepted *)
Theorem C151_linear : forall So T W nm (spsolve : So -> list (nat * nat * R) -> list R -> So * option (list R)) nan old visit later outputs fuel o so r nw opt f,
  from_file T W (op_case o) = Ok r -> asks_analysis o opt -> solver_network opt r = Ok nw -> asks_factor o f ->
  let run := command So T W nm spsolve nan old visit later outputs fuel o so in
  no_series o r -> solves_regular spsolve -> op_debug o = false -> linear_file f r -> no_devices r -> nw_buses nw <> [] ->
  exists nw', scaled f nw nw' /\ let a := assign_matrix old nw' in
    (one_solution (equations a) (as_size a) ->
     (forall s, reports run s -> exists v it rd so', s = PFDone true v it 0 rd [] so' /\ (it <= 1)%nat /\ length v = as_size a /\ solution (equations a) v /\
        (op_infeasibility o = false -> physical nw' (voltages a (vec v)) /\
           forall V, physical nw' V -> forall b, In b (nw_buses nw) -> V (Some (bus_id b)) = voltages a (vec v) (Some (bus_id b))) /\
        (op_infeasibility o = true -> (forall ph g b B, In (EUnb ph g b B) (nw_lines nw) -> symmetric (length ph) g /\ symmetric (length ph) b /\ symmetric (length ph) B) ->
           physical_with (extra false a (vec v)) nw' (voltages a (vec v)) /\
           forall E V, physical_with E nw' V -> total_square nw' (extra false a (vec v)) <= total_square nw' E)) /\
     ((exists s, reports run s) <-> Graph.accepted visit (graph_of (solver_details nm r) nw') = true)).
Proof. exact command_linear. Qed.
Print Assumptions C151_linear.
Example C151_example : solves_regular gauss /\ linear_file 0 (Three home_net) /\ no_devices (Three home_net) /\ forall nm old nan later outputs fuel, exists it rd,
  reports (command unit feed_tools home_desk nm gauss nan old (fun l => l) later outputs fuel (home_options (Some 0)) tt) (PFDone true home_point it 0 rd [] tt) /\ (it <= 1)%nat.
Proof. exact (conj gauss_regular (conj (proj1 home_linear) (conj (proj2 home_linear) home_run))). Qed.
