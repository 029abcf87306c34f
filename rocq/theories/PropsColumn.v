(** C155: what the numbers of the power file add up to. *)
From Coq Require Import Reals ZArith String List Bool Arith.
From Verif Require Import PyExc Collect SpecSystem Solver Devices Graph PowerFlow NewtonGauss ThreePhase RawParser Loader LoaderWitness SolverNet Command SpecCommand CommandWitness Results Output SpecOutput Report SpecReport ReportWitness.
From Verif Require TimeSeries.
From Verif Require Import Components SpecComponents Network SpecNetwork NetworkAssign SpecKirchhoff KirchhoffWitness SpecBalance BalanceWitness SpecColumn ColumnFinal ColumnFile ColumnWitness.
Import ListNotations.
Local Open Scope R_scope.

(** the rows are what the slacks and generators draw; what they show as active power is the negative of what the sources supply *)
Theorem C155_rows : forall old r nw v, network_ok nw -> nw_optimization nw = None -> let a := assign_matrix old nw in let V := voltages a v in
  energised nw V -> sources_listed nw -> let gens := map (fun g => gen_res v (snd g)) (gens_of a r nw) in let slacks := map (fun s => slack_res v (snd s)) (slacks_of a r nw) in
  exists ac aS aG, accounts_for V nw ac /\ gives_rows nw a ac v /\ only is_source ac = aS ++ aG /\ Forall2 (slack_row V) aS slacks /\ Forall2 (gen_row V) aG gens /\
  active gens slacks = - fst (supplied V ac).
Proof. exact column_rows. Qed.
Print Assumptions C155_rows.
Example C155_rows_example : network_ok feeder /\ sources_listed feeder /\ slacks_at_zero feeder.
Proof. exact (conj feeder_ok (conj feeder_sources feeder_zero)). Qed.

(** with residuals below a tolerance the active powers of sources, loads and branches add up to 0 within the tolerance times the sum of the voltages *)
Theorem C155_near : forall old r nw v, network_ok nw -> nw_optimization nw = None -> let a := assign_matrix old nw in let V := voltages a v in
  energised nw V -> sources_listed nw -> let gens := map (fun g => gen_res v (snd g)) (gens_of a r nw) in let slacks := map (fun s => slack_res v (snd s)) (slacks_of a r nw) in
  forall eps, (forall q, (q < as_size a)%nat -> Rabs (F (equations a) v 0 q) < eps) -> exists ac, accounts_for V nw ac /\ gives_rows nw a ac v /\
  Rabs (active gens slacks + fst (delivered V ac) + fst (lost V ac)) <= all_voltages nw V * eps /\ (constant_power nw -> delivered V ac = described nw).
Proof. exact column_near. Qed.
Print Assumptions C155_near.
Example C155_near_example : constant_power feeder /\ described feeder = Cadd C0 (Cadd C0 (Cadd (2 / 9, 0) C0)).
Proof. exact (conj feeder_constant eq_refl). Qed.

(** in an exact solution: sources and loads add up to minus the losses, which are not negative with passive branches; with all slacks at angle 0 the column P has these numbers *)
Theorem C155_exact : forall old r nw v, network_ok nw -> nw_optimization nw = None -> let a := assign_matrix old nw in let V := voltages a v in
  energised nw V -> sources_listed nw -> let gens := map (fun g => gen_res v (snd g)) (gens_of a r nw) in let slacks := map (fun s => slack_res v (snd s)) (slacks_of a r nw) in
  (forall q, (q < as_size a)%nat -> F (equations a) v 0 q = 0) -> exists ac, accounts_for V nw ac /\
  Forall (fun x => takes V (fst (fst x)) (absorbed V (snd (fst x)))) ac /\ active gens slacks + fst (delivered V ac) = - fst (lost V ac) /\
  (constant_power nw -> active gens slacks + fst (described nw) = - fst (lost V ac)) /\ ((forall e, In e (elements nw) -> passive e) -> 0 <= fst (lost V ac)) /\
  (slacks_at_zero nw -> column_P gens slacks = active gens slacks /\ Forall (fun g => gr_Q g = 0) slacks).
Proof. exact column_exact. Qed.
Print Assumptions C155_exact.
Example C155_exact_example : forall old x, x * (1 - x) = 2 / 9 -> let a := assign_matrix old feeder in
  exists v, (forall q, (q < as_size a)%nat -> F (equations a) v 0 q = 0) /\ energised feeder (voltages a v).
Proof. exact feeder_solved. Qed.

(** with a slack at 90 degrees it has not: the column P of an exact solution of a passive network says that more is taken than delivered *)
Theorem C155_column_refuted : forall old r, exists v, let a := assign_matrix old turned in let gens := map (fun g => gen_res v (snd g)) (gens_of a r turned) in let slacks := map (fun s => slack_res v (snd s)) (slacks_of a r turned) in
  network_ok turned /\ nw_optimization turned = None /\ energised turned (voltages a v) /\ sources_listed turned /\ constant_power turned /\ (forall e, In e (elements turned) -> passive e) /\
  (forall q, (q < as_size a)%nat -> F (equations a) v 0 q = 0) /\ 0 < column_P gens slacks + fst (described turned).
Proof. exact turned_column. Qed.
Print Assumptions C155_column_refuted.

(** the file of a run: the numbers read from it, column P of all lines and column Q of those of the slacks, add up to minus the losses within rounding and the tolerance *)
Theorem C155_file : forall label So T W nm (spsolve : So -> list (nat * nat * R) -> list R -> So * option (list R)) nan old visit later outputs rated fuel o so r nw f,
  from_file T W (op_case o) = Ok r -> op_infeasibility o = false -> solver_network None r = Ok nw -> asks_factor o f ->
  let run := command So T W nm spsolve nan old visit later outputs fuel o so in
  forall path d, no_series o r -> path <> ""%string -> names_plain label r ->
  forall v it tx rd ds so' eps, reports run (PFDone true v it tx rd ds so') -> forall nw', scaled f nw nw' -> let nwd := with_devices nw' ds in let a := assign_matrix old nwd in let V := voltages a (vec v) in
  energised nwd V -> constant_power nwd -> (forall q, (q < as_size a)%nat -> Rabs (F (equations a) (vec v) 0 q) < eps) ->
  exists d' tp gens slacks loads, files label So T W nm spsolve nan old visit later outputs rated fuel o (Some path) so d = Ok (Some d') /\ d' (path ++ "_power.csv")%string = Some tp /\
    split line_end tp = ("bus,name,P(MW),Q(MVar)"%string :: gens ++ slacks ++ loads ++ [""%string])%list /\
    length gens = length (nw_generators nw) /\ length slacks = length (nw_slack nw) /\ length loads = length (nw_loads nw) /\
    exists ac ps qs, accounts_for V nwd ac /\ gives_rows nwd a ac (vec v) /\ Forall2 (reads 2) (gens ++ slacks ++ loads) ps /\ Forall2 (reads 3) slacks qs /\
      Rabs (sum ps + sum qs + fst (lost V ac)) <= all_voltages nwd V * eps + INR (length ps + length qs) / 200.
Proof. exact files_column. Qed.
Print Assumptions C155_file.
Example C155_file_example : forall nm old nan later outputs fuel, exists it rd,
  reports (command unit feed_tools home_desk nm gauss nan old (fun l => l) later outputs fuel (home_options (Some 0)) tt) (PFDone true home_point it 0 rd [] tt) /\
  names_plain no_label (Three home_net) /\ forall nw', scaled 0 home_nw nw' -> let nwd := with_devices nw' [] in let a := assign_matrix old nwd in
  energised nwd (voltages a (vec home_point)) /\ constant_power nwd /\ forall q, (q < as_size a)%nat -> Rabs (F (equations a) (vec home_point) 0 q) < 1 / 1000.
Proof. exact home_column. Qed.
