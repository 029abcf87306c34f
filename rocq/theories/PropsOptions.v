(** C160: options of the command line that change nothing. *)
From Coq Require Import Reals ZArith String List Bool.
From Verif Require Import PyExc Components Network Solver Devices PowerFlow NewtonGauss ThreePhase RawParser Loader LoaderWitness SolverNet Command SpecCommand CommandWitness SpecOptions OptionsProofs OptionsWitness.
From Verif Require TimeSeries.
Import ListNotations.
Local Open Scope R_scope.

(** C160: if there is nothing to simulate over time, the options for it are without effect; a missing load file is like none, and not to
    give a load factor is to give -1 *)
Theorem C160_ignored : forall So T W nm (spsolve : So -> list (nat * nat * R) -> list R -> So * option (list R)) nan old visit later later' outputs outputs' fuel fuel' o o' so,
  same_request o o' -> (forall r, from_file T W (op_case o) = Ok r -> no_series o r /\ no_series o' r) ->
  command So T W nm spsolve nan old visit later outputs fuel o so = command So T W nm spsolve nan old visit later' outputs' fuel' o' so.
Proof. exact ignored. Qed.
Print Assumptions C160_ignored.
Example C160_ignored_example : forall nm nan old later outputs fuel, exists it rd,
  reports (command unit feed_tools home_desk nm gauss nan old (fun l => l) later outputs fuel (lost_options (Some 0)) tt) (PFDone true home_point it 0 rd [] tt).
Proof. exact lost_reports. Qed.
(** the load factor that is not given *)
Example C160_no_factor : forall nm nan old later outputs fuel,
  command unit feed_tools home_desk nm gauss nan old (fun l => l) later outputs fuel (home_options None) tt =
  command unit feed_tools home_desk nm gauss nan old (fun l => l) later outputs fuel (home_options (Some (-1))) tt.
Proof.
  intros. apply C160_ignored; [exact minus_one|]. intros r E. cbn [op_case home_options] in E. rewrite home_loads in E. injection E as <-. split; apply home_plain.
Qed.

(** C160: over a load file an artificial swing bus without negative loads is without effect, and so are negative loads without a swing bus *)
Theorem C160_idle : forall So T W nm (spsolve : So -> list (nat * nat * R) -> list R -> So * option (list R)) nan old visit later outputs outputs' fuel fuel' o o' so,
  same_request o o' -> same_file o o' -> idle o -> idle o' ->
  command So T W nm spsolve nan old visit later outputs fuel o so = command So T W nm spsolve nan old visit later outputs' fuel' o' so.
Proof. exact idle_options. Qed.
Print Assumptions C160_idle.
Example C160_idle_example : forall cols a b f, same_request (hour_options cols a b (Some "N1"%string) None f) (hour_options cols a b None (Some ["load_1"%string]) f) /\
  same_file (hour_options cols a b (Some "N1"%string) None f) (hour_options cols a b None (Some ["load_1"%string]) f) /\
  idle (hour_options cols a b (Some "N1"%string) None f) /\ idle (hour_options cols a b None (Some ["load_1"%string]) f).
Proof. exact hour_idle. Qed.

(** C160: a load file whose last hour is not after the first, as when no last hour is given, means that nothing is solved and no result reported *)
Theorem C160_no_hours : forall So T W nm (spsolve : So -> list (nat * nat * R) -> list R -> So * option (list R)) nan old visit later outputs fuel o so r nw opt cols a b,
  from_file T W (op_case o) = Ok r -> asks_analysis o opt -> solver_network opt r = Ok nw ->
  (exists n, r = Three n) -> TimeSeries.ta_file (op_series o) = TimeSeries.File cols -> hours o a b -> (b <= a)%Z ->
  exists st, command So T W nm spsolve nan old visit later outputs fuel o so = Ok (TimeSeries.Done st (TimeSeries.Series [])) /\ fst st = 0%nat.
Proof. exact no_hours. Qed.
Print Assumptions C160_no_hours.
Example C160_no_hours_example : forall nm nan old later outputs fuel cols swing neg f, exists st,
  command unit feed_tools home_desk nm gauss nan old (fun l => l) later outputs fuel (hour_options cols (Some 0%Z) None swing neg f) tt = Ok (TimeSeries.Done st (TimeSeries.Series [])).
Proof.
  intros. destruct (C160_no_hours unit feed_tools home_desk nm gauss nan old (fun l => l) later outputs fuel (hour_options cols (Some 0%Z) None swing neg f) tt (Three home_net) home_nw None cols 0 0
    home_loads (or_intror (conj eq_refl eq_refl)) home_network (ex_intro _ home_net eq_refl) eq_refl) as [st [E _]]; [split; [left; reflexivity|right; split; reflexivity]|discriminate|].
  exists st. exact E.
Qed.
