(** C157: a reported success in the terms of the file. *)
From Coq Require Import String Reals ZArith List Bool Arith.
From Verif Require Import PyExc Components SpecComponents SpecSystem Devices Network Solver SpecKirchhoff NetStamper SpecNetStamper PowerFlow SpecPowerFlow NewtonGauss SpecNewton
  ThreePhase RawParser Loader LoaderWitness SolverNet Command SpecCommand CommandWitness SpecParts PartsFile PartsWitness SpecRun RunFinal RunWitness RunLinear.
From Verif Require TimeSeries.
Import ListNotations.
Local Open Scope R_scope.

(** a GridLAB-D file: the last step started from voltages that obey the laws of the file with its loads scaled, within 1/100000; at the voltages that are reported
    capacitors are where the control leaves them and fuses are within their limits *)
Theorem C157_three : forall So T W nm (spsolve : So -> list (nat * nat * R) -> list R -> So * option (list R)) nan old visit later outputs fuel o so f,
  asks_factor o f -> sized spsolve -> op_infeasibility o = false -> forall v it tx rd ds so',
  reports (command So T W nm spsolve nan old visit later outputs fuel o so) (PFDone true v it tx rd ds so') ->
  forall n, from_file T W (op_case o) = Ok (Three n) -> no_series o (Three n) -> exists n', net_again f n n' /\
  (exists u V so0 es J, spsolve so0 es J = (so', Some v) /\ reads n u V /\ (lit n' V -> circuit n' V (fun x => Rabs x < 1 / 100000))) /\
  exists V, reads n (vec v) V /\ Forall (cap_left V) (nt_caps n') /\ (lit n' V -> held n' V).
Proof. exact run_three. Qed.
Print Assumptions C157_three.
Example C157_three_example : sized gauss /\ (forall nm old nan later outputs fuel, exists it rd,
  reports (command unit feed_tools home_desk nm gauss nan old (fun l => l) later outputs fuel (home_options (Some 0)) tt) (PFDone true home_point it 0 rd [] tt) /\ (it <= 1)%nat) /\
  from_file feed_tools home_desk "home.glm" = Ok (Three home_net) /\ net_again (-1) home_net house_again /\ lit house_again (house_at 2401).
Proof. exact (conj gauss_sized (conj home_run (conj home_loads house_reversed))). Qed.

(** a RAW file *)
Theorem C157_raw : forall So T W nm (spsolve : So -> list (nat * nat * R) -> list R -> So * option (list R)) nan old visit later outputs fuel o so f,
  asks_factor o f -> sized spsolve -> op_infeasibility o = false -> forall v it tx rd ds so',
  reports (command So T W nm spsolve nan old visit later outputs fuel o so) (PFDone true v it tx rd ds so') ->
  forall q, from_file T W (op_case o) = Ok (Single q) -> exists q', onet_again f q q' /\
  exists u U so0 es J, spsolve so0 es J = (so', Some v) /\ reads_raw q u U /\ (powered q' U -> sequence q' U (fun x => Rabs x < 1 / 100000)).
Proof. exact run_raw. Qed.
Print Assumptions C157_raw.
Example C157_raw_example : onet_again (-1) pair_net pair_again /\ reads_raw pair_net (vec [1; 0; 1 / 3; 0]) (pair_at (1 / 3)) /\ powered pair_again (pair_at (1 / 3)).
Proof. exact pair_reversed. Qed.

(** linear files: the reported voltages are the only ones that obey the laws of the file, and obey them exactly *)
Theorem C157_exact : forall So T W nm (spsolve : So -> list (nat * nat * R) -> list R -> So * option (list R)) nan old visit later outputs fuel o so f n nw,
  asks_factor o f -> op_infeasibility o = false -> from_file T W (op_case o) = Ok (Three n) -> dx_network None n = Ok nw -> no_series o (Three n) ->
  solves_regular spsolve -> op_debug o = false -> linear_file f (Three n) -> no_devices (Three n) -> nt_buses n <> [] ->
  (forall nw', scaled f nw nw' -> one_solution (equations (assign_matrix old nw')) (as_size (assign_matrix old nw'))) ->
  forall s, reports (command So T W nm spsolve nan old visit later outputs fuel o so) s ->
  exists v it rd so' n' V, s = PFDone true v it 0 rd [] so' /\ net_again f n n' /\ reads n (vec v) V /\ circuit n' V (fun x => x = 0) /\
    forall V', circuit n' V' (fun x => x = 0) -> forall b, In b (nt_buses n) -> V' (Some (tb_id b)) = V (Some (tb_id b)).
Proof. exact linear_three. Qed.
Print Assumptions C157_exact.
Example C157_exact_example : (forall old nw', scaled 0 home_nw nw' -> one_solution (equations (assign_matrix old nw')) (as_size (assign_matrix old nw'))) /\
  linear_file 0 (Three home_net) /\ no_devices (Three home_net) /\ solves_regular gauss /\ reads home_net (vec home_point) (house_at 2401).
Proof. exact (conj home_unique (conj (proj1 home_linear) (conj (proj2 home_linear) (conj gauss_regular house_reads)))). Qed.
Theorem C157_exact_raw : forall So T W nm (spsolve : So -> list (nat * nat * R) -> list R -> So * option (list R)) nan old visit later outputs fuel o so f q,
  asks_factor o f -> op_infeasibility o = false -> from_file T W (op_case o) = Ok (Single q) ->
  solves_regular spsolve -> op_debug o = false -> linear_file f (Single q) -> n_buses q <> [] ->
  (forall nw', scaled f (sx_network None q) nw' -> one_solution (equations (assign_matrix old nw')) (as_size (assign_matrix old nw'))) ->
  forall s, reports (command So T W nm spsolve nan old visit later outputs fuel o so) s ->
  exists v it rd so' q' U, s = PFDone true v it 0 rd [] so' /\ onet_again f q q' /\ reads_raw q (vec v) U /\ sequence q' U (fun x => x = 0) /\
    forall U', sequence q' U' (fun x => x = 0) -> forall b, In b (n_buses q) -> U' (RawParser.ob_num b) = U (RawParser.ob_num b).
Proof. exact linear_raw. Qed.
Print Assumptions C157_exact_raw.
Example C157_exact_raw_example : (forall old nw', scaled 0 (sx_network None lone_net) nw' -> one_solution (equations (assign_matrix old nw')) (as_size (assign_matrix old nw'))) /\
  linear_file 0 (Single lone_net) /\ n_buses lone_net <> [] /\ reads_raw lone_net (vec home_point) (fun _ => (2401, 0)).
Proof. exact (conj lone_unique lone_linear). Qed.
