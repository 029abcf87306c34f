(** Lemmas for C160. *)
From Coq Require Import Reals ZArith String List Bool Arith Lia.
From Verif Require Import PyExc Components Network Solver Devices PowerFlow ThreePhase RawParser Loader SolverNet SolverNetProofs SolverNetFinal Command SpecCommand SpecOptions.
From Verif Require TimeSeries.
Import ListNotations.
Local Open Scope R_scope.

Section Main.
Variables (snap : Type) (gens gens' : snap -> list TimeSeries.gout) (solve solve' : nat -> list TimeSeries.tload -> option snap).
Notation silent a sw tp := (TimeSeries.ta_file a = TimeSeries.NoFile /\ sw = None \/ TimeSeries.ta_file a = TimeSeries.Missing \/ tp = false).
Lemma main_silent sw ng fuel tp a st : silent a sw tp ->
  TimeSeries.main snap gens solve sw ng fuel tp a st =
  match TimeSeries.power_flow snap solve st with
  | TimeSeries.Done st s => TimeSeries.Done st (TimeSeries.Single s) | TimeSeries.Raised st => TimeSeries.Raised st | TimeSeries.Looping => TimeSeries.Looping end.
Proof.
  unfold TimeSeries.main, TimeSeries.process. intros [[-> ->]|[-> | ->]]; [destruct tp; reflexivity|reflexivity|]. destruct (TimeSeries.ta_file a); reflexivity.
Qed.
Lemma execute_idle sw ng fuel st : sw = None \/ ng = None -> TimeSeries.execute_powerflow snap gens solve sw ng fuel st = TimeSeries.power_flow snap solve st.
Proof.
  intros I. unfold TimeSeries.execute_powerflow. destruct (TimeSeries.power_flow snap solve st) as [st' s|st'|]; try reflexivity.
  assert (forall l, TimeSeries.adjust sw ng (gens s) l = TimeSeries.Settled) as S by (intros l; destruct I as [-> | ->]; [reflexivity|destruct sw; reflexivity]).
  destruct fuel; cbn; rewrite S; reflexivity.
Qed.
Lemma hours_idle sw ng sw' ng' fuel fuel' names cols hs : (sw = None \/ ng = None) -> (sw' = None \/ ng' = None) ->
  forall st, TimeSeries.run_hours snap gens solve sw ng fuel names cols hs st = TimeSeries.run_hours snap gens' solve sw' ng' fuel' names cols hs st.
Proof.
  intros I I'. induction hs as [|h hs IH]; intros st; [reflexivity|]. cbn [TimeSeries.run_hours]. rewrite execute_idle by exact I.
  assert (forall s, TimeSeries.execute_powerflow snap gens' solve sw' ng' fuel' s = TimeSeries.power_flow snap solve s) as E'.
  { intros s. unfold TimeSeries.execute_powerflow. destruct (TimeSeries.power_flow snap solve s) as [st' x|st'|]; try reflexivity.
    assert (forall l, TimeSeries.adjust sw' ng' (gens' x) l = TimeSeries.Settled) as S by (intros l; destruct I' as [-> | ->]; [reflexivity|destruct sw'; reflexivity]).
    destruct fuel'; cbn; rewrite S; reflexivity. }
  rewrite E'. destruct (TimeSeries.power_flow _ _ _) as [st' s|st'|]; try reflexivity. rewrite IH. reflexivity.
Qed.
Lemma main_idle sw ng sw' ng' fuel fuel' tp a st cols : TimeSeries.ta_file a = TimeSeries.File cols -> (sw = None \/ ng = None) -> (sw' = None \/ ng' = None) ->
  TimeSeries.main snap gens solve sw ng fuel tp a st = TimeSeries.main snap gens' solve sw' ng' fuel' tp a st.
Proof. intros F I I'. unfold TimeSeries.main, TimeSeries.process. rewrite F. destruct tp; [|reflexivity]. rewrite (hours_idle sw ng sw' ng' fuel fuel') by assumption. reflexivity. Qed.
Lemma main_no_hours sw ng fuel a st cols : TimeSeries.ta_file a = TimeSeries.File cols ->
  (TimeSeries.or_zero (TimeSeries.ta_end a) <= TimeSeries.or_zero (TimeSeries.ta_start a))%Z ->
  TimeSeries.main snap gens solve sw ng fuel true a st = TimeSeries.Done st (TimeSeries.Series []).
Proof.
  intros F H. unfold TimeSeries.main, TimeSeries.process. rewrite F. unfold TimeSeries.py_range.
  replace (Z.to_nat _) with 0%nat by lia. reflexivity.
Qed.
End Main.

Lemma same_factor o o' : (exists f, asks_factor o f /\ asks_factor o' f) -> factor o = factor o'.
Proof. unfold asks_factor, factor. intros [f [[-> |[-> ->]] [-> |[-> E]]]]; congruence. Qed.
Lemma same_settings o o' : same_request o o' -> settings_of o = settings_of o' /\ analysis o = analysis o' /\ factor o = factor o' /\ op_case o = op_case o'.
Proof. intros [E1 [E2 [E3 [E4 E5]]]]. unfold settings_of, analysis. rewrite E2, E3, E4. auto using same_factor. Qed.
Lemma three_of opt r nw : solver_network opt r = Ok nw -> nw_three_phase nw = match r with Three _ => true | Single _ => false end.
Proof.
  destruct r as [n|n]; cbn [solver_network]; [unfold dx_network; destruct (pmap (dx_line n) (nt_lines n)); cbn [pbind]; [|discriminate]|]; intros H; injection H as <-; reflexivity.
Qed.

Section Command.
Variables (So : Type) (T : tools) (W : world) (nm : Z -> nat).
Variable spsolve : So -> list (nat * nat * R) -> list R -> So * option (list R).
Variables (nan : R) (old : table) (visit : list nat -> list nat).
Notation result := (@pf_result So).

Lemma ignored later later' outputs outputs' fuel fuel' o o' so : same_request o o' ->
  (forall r, from_file T W (op_case o) = Ok r -> no_series o r /\ no_series o' r) ->
  command So T W nm spsolve nan old visit later outputs fuel o so = command So T W nm spsolve nan old visit later' outputs' fuel' o' so.
Proof.
  intros SR N. destruct (same_settings _ _ SR) as [E1 [E2 [E3 E4]]]. unfold command. rewrite <- E4, <- E2, <- E3.
  destruct (from_file T W (op_case o)) as [r|e]; cbn [pbind]; [|reflexivity]. destruct (N r eq_refl) as [N1 N2].
  destruct (solver_network (analysis o) r) as [nw|e] eqn:EN; cbn [pbind]; [|reflexivity]. f_equal. pose proof (three_of _ _ _ EN) as T3.
  rewrite !main_silent.
  - unfold TimeSeries.power_flow, power_flows. cbn [fst snd]. rewrite E1. reflexivity.
  - destruct N2 as [H|[H|[n ->]]]; auto.
  - destruct N1 as [H|[H|[n ->]]]; auto.
Qed.
Lemma idle_options later outputs outputs' fuel fuel' o o' so : same_request o o' -> same_file o o' -> idle o -> idle o' ->
  command So T W nm spsolve nan old visit later outputs fuel o so = command So T W nm spsolve nan old visit later outputs' fuel' o' so.
Proof.
  intros SR [cols [F ES]] I I'. destruct (same_settings _ _ SR) as [E1 [E2 [E3 E4]]]. unfold command. rewrite <- E4, <- E2, <- E3.
  destruct (from_file T W (op_case o)) as [r|e]; cbn [pbind]; [|reflexivity].
  destruct (solver_network (analysis o) r) as [nw|e]; cbn [pbind]; [|reflexivity]. f_equal. rewrite <- ES.
  assert (power_flows So nm spsolve nan old visit later o r nw so = power_flows So nm spsolve nan old visit later o' r nw so) as -> by (unfold power_flows; rewrite E1; reflexivity).
  exact (main_idle _ _ _ _ _ _ _ _ _ _ _ _ _ cols F I I').
Qed.
Lemma no_hours later outputs fuel o so r nw opt cols a b : from_file T W (op_case o) = Ok r -> asks_analysis o opt -> solver_network opt r = Ok nw ->
  (exists n, r = Three n) -> TimeSeries.ta_file (op_series o) = TimeSeries.File cols -> hours o a b -> (b <= a)%Z ->
  exists st, command So T W nm spsolve nan old visit later outputs fuel o so = Ok (TimeSeries.Done st (TimeSeries.Series [])) /\ fst st = 0%nat.
Proof.
  intros EF EA EN [n ->] F [Ha Hb] L. unfold command. rewrite EF. cbn [pbind].
  assert (analysis o = opt) as -> by (unfold analysis; destruct EA as [[-> ->]|[-> ->]]; reflexivity).
  rewrite EN. cbn [pbind]. rewrite (three_of _ _ _ EN). rewrite (main_no_hours _ _ _ _ _ _ _ _ cols F).
  - eexists. split; reflexivity.
  - assert (TimeSeries.or_zero (TimeSeries.ta_start (op_series o)) = a) as -> by (destruct Ha as [-> |[-> ->]]; reflexivity).
    assert (TimeSeries.or_zero (TimeSeries.ta_end (op_series o)) = b) as -> by (destruct Hb as [-> |[-> ->]]; reflexivity). exact L.
Qed.
End Command.
