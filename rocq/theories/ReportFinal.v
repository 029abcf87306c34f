(** C154: the files of a run. *)
From Coq Require Import Reals ZArith String Ascii List Bool Lia Lra Arith.
From Verif Require Import PyExc Collect SpecSystem Components SpecComponents Network SpecNetwork Solver SpecSolver Devices Graph PowerFlow SpecPowerFlow
  SpecKirchhoff SpecNetStamper NetStamper SpecNewton NewtonFinal NetworkAssign
  ThreePhase RawParser Loader SolverNet SolverNetProofs SolverRawProofs SolverNetFinal Command SpecCommand CommandProofs CommandFinal
  Results SpecResults Output SpecOutput OutputProofs Report SpecReport ReportProofs.
From Verif Require TimeSeries TimeSeriesRun.
Import ListNotations.
Local Open Scope R_scope.

(** the text of an integer starts with a digit or a sign *)
Lemma show_head z : exists x y, show_int z = String x y /\ x <> "v"%char /\ x <> "p"%char.
Proof.
  assert (F : forall c, (c = "v" \/ c = "p")%char -> free c (show_int z)).
  { intros c Hc. apply int_not; [intros d L; do 10 (destruct d as [|d]; [destruct Hc as [-> | ->]; discriminate|]); lia|]. destruct Hc as [-> | ->]; apply free_b; reflexivity. }
  destruct (show_int z) as [|x y] eqn:E.
  - exfalso. destruct (show_int_ok z) as (t & n & k & D & [[Q _]|[Q _]]); rewrite E in Q; [|discriminate]. inversion D as [|s m j d D' Hd E1 E2 E3]. rewrite <- Q in E1. destruct s; discriminate.
  - exists x, y. split; [reflexivity|]. split; intros ->; [apply (F "v"%char); auto; now left|apply (F "p"%char); auto; now left].
Qed.

Section Files.
Variable label : Z -> string * string.
Variables (So : Type) (T : tools) (W : world) (nm : Z -> nat) (spsolve : So -> list (nat * nat * R) -> list R -> So * option (list R))
  (nan : R) (old : Network.table) (visit : list nat -> list nat)
  (later : nat -> list TimeSeries.tload -> option (@pf_result So)) (outputs : @pf_result So -> list TimeSeries.gout)
  (rated : list TimeSeries.tload -> @pf_result So -> bool) (fuel : nat) (o : options) (so : So).
Variables (r : Loader.network) (nw : Network.network) (opt : option bool) (f : R).
Hypothesis FI : from_file T W (op_case o) = Ok r.
Hypothesis AN : asks_analysis o opt.
Hypothesis NW : solver_network opt r = Ok nw.
Hypothesis AF : asks_factor o f.
Let run := command So T W nm spsolve nan old visit later outputs fuel o so.
Let disk_after path d := files label So T W nm spsolve nan old visit later outputs rated fuel o path so d.
Let ls := map (scale_by f) (loads_of r).

Lemma plain_files path d : no_series o r ->
  disk_after path d = Ok (Some (put_file path (match returned So (execute (solver_details nm r) spsolve nan (settings_of o) old visit (with_powers ls nw) so) with
                                        | Some s => results label old r nw false ls s | None => None end) d)).
Proof.
  intros NS. unfold disk_after, files. rewrite FI. cbn [pbind]. rewrite (is_analysis o r nw opt AN NW), NW. cbn [pbind]. rewrite (is_factor o r nw f AF). fold ls. f_equal.
  destruct (loaded_network _ _ _ _ _ _ FI NW) as (_ & _ & _ & _ & TP).
  set (solve := power_flows So nm spsolve nan old visit later o r nw so).
  assert (P : TimeSeries.process _ outputs solve (op_swing o) (op_negatives o) fuel (nw_three_phase nw) (op_series o) (0%nat, ls) = TimeSeries.Done (0%nat, ls) None \/
              TimeSeries.process _ outputs solve (op_swing o) (op_negatives o) fuel (nw_three_phase nw) (op_series o) (0%nat, ls) = TimeSeries.Raised (0%nat, ls)).
  { unfold TimeSeries.process. destruct NS as [[-> ->]|[->|[n RS]]]; [destruct (nw_three_phase nw); auto|auto|]. right.
    destruct (nw_three_phase nw); [destruct (proj1 TP eq_refl) as [? Q]; congruence|]. destruct (TimeSeries.ta_file (op_series o)); reflexivity. }
  assert (D : forall d', match TimeSeries.ta_file (op_series o) with TimeSeries.File cols => if nw_three_phase nw then d' cols else d | _ => d end = d).
  { intros d'. destruct NS as [[-> _]|[->|[n RS]]]; try reflexivity. destruct (nw_three_phase nw); [destruct (proj1 TP eq_refl) as [? Q]; congruence|]. destruct (TimeSeries.ta_file (op_series o)); reflexivity. }
  rewrite (D (fun cols => put_hours label So old rated path r nw (hours_run outputs solve (op_swing o) (op_negatives o) fuel (TimeSeries.named (snd (0%nat, ls))) cols
                      (TimeSeries.py_range (TimeSeries.or_zero (TimeSeries.ta_start (op_series o))) (TimeSeries.or_zero (TimeSeries.ta_end (op_series o)))) (0%nat, ls)) d)).
  destruct P as [-> | ->]; unfold TimeSeries.power_flow; cbn [fst snd]; unfold solve at 1; cbn [power_flows]; destruct (returned _ _); cbn [snd]; try reflexivity; now destruct path.
Qed.
Lemma plain_reported ok v it tx rd ds so' path d : no_series o r -> reports run (PFDone ok v it tx rd ds so') ->
  disk_after path d = Ok (Some (put_file path (results label old r nw false ls (PFDone ok v it tx rd ds so')) d)).
Proof. intros NS Q. apply (reported So T W nm spsolve nan old visit later outputs fuel o so r nw opt f FI AN NW AF) in Q; [|exact NS]. rewrite (plain_files path d NS). fold ls in Q. rewrite Q. reflexivity. Qed.

(** what a file says *)
Lemma file_says violates lo ok v it tx rd ds so' : exists res, results label old r nw violates lo (@PFDone So ok v it tx rd ds so') = Some res /\
  (ok = false -> voltage_file res = "FAILURE"%string /\ power_file res = "FAILURE"%string) /\
  (ok = true -> names_plain label r -> shows_voltages label r (voltages (assign_matrix old nw) (vec v)) violates (voltage_file res) /\
     (lo = ls -> violates = false -> shows_powers label r f (sources nw) (power_file res))).
Proof.
  destruct (loaded_network _ _ _ _ _ _ FI NW) as (OK & _). cbn [results]. eexists. split; [reflexivity|]. split; [intros ->; split; reflexivity|]. intros -> P.
  set (nwd := with_devices (with_powers lo nw) ds). set (res := Output.Build_result _ _ _ _ _ _ _ _).
  assert (SV : forall u, voltages (assign_matrix old nwd) u = voltages (assign_matrix old nw) u) by (intros u; unfold voltages; now rewrite (table_same old nw nwd eq_refl eq_refl)).
  split.
  - pose proof (bus_lines label old r opt nw nwd res NW OK eq_refl eq_refl eq_refl eq_refl P) as B. cbv zeta in B. rewrite SV in B. exact B.
  - intros -> ->. exact (load_lines label old r opt nw nwd f res NW OK eq_refl eq_refl eq_refl eq_refl eq_refl eq_refl P).
Qed.
Lemma files_plain path d : no_series o r -> path <> ""%string -> let vf := (path ++ "_voltage.csv")%string in let pf := (path ++ "_power.csv")%string in
  (forall ok v it tx rd ds so', reports run (PFDone ok v it tx rd ds so') -> exists d' tv tp, disk_after (Some path) d = Ok (Some d') /\ d' vf = Some tv /\ d' pf = Some tp /\
     (forall g, g <> vf -> g <> pf -> d' g = d g) /\
     (ok = false -> tv = "FAILURE"%string /\ tp = "FAILURE"%string) /\
     (ok = true -> names_plain label r -> shows_voltages label r (voltages (assign_matrix old nw) (vec v)) false tv /\ shows_powers label r f (sources nw) tp)) /\
  ((forall s, ~ reports run s) -> disk_after (Some path) d = Ok (Some d)) /\
  disk_after None d = Ok (Some d) /\ disk_after (Some ""%string) d = Ok (Some d).
Proof.
  intros NS NE vf pf. split; [|split].
  - intros ok v it tx rd ds so' Q. destruct (file_says false ls ok v it tx rd ds so') as (res & E & S1 & S2). rewrite (plain_reported _ _ _ _ _ _ _ (Some path) d NS Q), E. cbn [put_file].
    destruct (@output_writes path res d NE) as (O1 & O2 & O3). do 3 eexists. split; [reflexivity|]. split; [exact O1|]. split; [exact O2|]. split; [exact O3|]. split; [exact S1|]. intros K P. destruct (S2 K P) as [A B]. auto.
  - intros N. rewrite (plain_files (Some path) d NS). destruct (command_plain So T W nm spsolve nan old visit later outputs fuel o so r nw opt f FI AN NW AF NS) as (nw' & SC & R & _).
    pose proof (is_scaled r nw opt f NW) as SC'. rewrite (scaled_unique _ _ _ _ SC SC') in R. fold ls in R. destruct (execute _ _ _ _ _ _ _ _) as [k| |e ds so'|ok v it tx rd ds so'] eqn:X; try reflexivity.
    exfalso. apply (N (PFDone ok v it tx rd ds so')). apply R. split; [reflexivity|eauto 12].
  - rewrite (plain_files None d NS), (plain_files (Some ""%string) d NS). split; [reflexivity|]. destruct (returned _ _) as [s|]; [|reflexivity]. cbn [put_file]. destruct (results _ _ _ _ _ _ s); [now rewrite output_nothing|reflexivity].
Qed.
(** only the voltages of the buses of the case matter *)
Lemma shows_same V V' vi tv : (forall b, In b (nw_buses nw) -> V (Some (bus_id b)) = V' (Some (bus_id b))) -> shows_voltages label r V vi tv -> shows_voltages label r V' vi tv.
Proof.
  intros E (rows & last & H1 & H2 & H3). exists rows, last. split; [exact H1|]. split; [exact H2|]. clear FI ls. destruct r as [n|q].
  - refine (Forall2_in _ _ _ _ _ H3). intros row b Hb Q. apply filter_In in Hb as [Hb _]. destruct (three_bus _ _ _ _ NW Hb) as (c & Hc & Ec). rewrite <- Ec, <- (E c Hc), Ec. exact Q.
  - destruct H3 as [H3 H4]. split; [exact H3|]. intros k row b Hr Hb. destruct (single_bus _ _ _ _ _ NW Hb) as (c & Hc & Ec). rewrite <- Ec, <- (E c Hc), Ec. exact (H4 k row b Hr Hb).
Qed.
Lemma files_linear path d : no_series o r -> path <> ""%string -> solves_regular spsolve -> op_debug o = false -> op_infeasibility o = false -> linear_file f r -> no_devices r -> nw_buses nw <> [] -> names_plain label r ->
  forall nw', scaled f nw nw' -> let a := assign_matrix old nw' in one_solution (equations a) (as_size a) -> Graph.accepted visit (graph_of (solver_details nm r) nw') = true ->
  exists d' tv V, disk_after (Some path) d = Ok (Some d') /\ d' (path ++ "_voltage.csv")%string = Some tv /\ physical nw' V /\ forall V, physical nw' V -> shows_voltages label r V false tv.
Proof.
  intros NS NE SV DB IN LF ND NB P nw' SC a U GA.
  destruct (command_linear So T W nm spsolve nan old visit later outputs fuel o so r nw opt f FI AN NW AF NS SV DB LF ND NB) as (nw1 & SC1 & H). rewrite (scaled_unique _ _ _ _ SC1 SC) in H. cbv zeta in H. destruct (H U) as [H1 H2]. clear H.
  destruct (proj2 H2 GA) as [s Hs]. destruct (H1 s Hs) as (v & it & rd & so' & -> & _ & _ & _ & H3 & _). destruct (H3 IN) as [PH UN].
  destruct (files_plain path d NS NE) as [F _]. destruct (F _ _ _ _ _ _ _ Hs) as (d' & tv & tp & D & E & _ & _ & _ & S). destruct (S eq_refl P) as [S1 _].
  exists d', tv, (voltages a (vec v)). split; [exact D|]. split; [exact E|]. split; [exact PH|]. intros V HV. apply (shows_same (voltages (assign_matrix old nw) (vec v))); [|exact S1].
  intros b Hb. rewrite (UN V HV b Hb). unfold voltages. destruct SC as (_ & _ & SB & _ & _ & _ & _ & _ & _ & _ & _ & _ & _ & _ & SO). unfold a. now rewrite (table_same old nw nw' SB SO).
Qed.

(** *** a series *)
Definition pure (x : Z * (list TimeSeries.tload * @pf_result So)) : Z * @pf_result So := (fst x, snd (snd x)).
Definition rendered (rs : list (Z * (list TimeSeries.tload * @pf_result So))) : list (Z * Output.result) :=
  flat_map (fun x => match results label old r nw (is_success So (snd (snd x)) && rated (fst (snd x)) (snd (snd x))) (fst (snd x)) (snd (snd x)) with Some q => [(fst x, q)] | None => [] end) rs.
Lemma put_series p rs d : put_hours label So old rated (Some p) r nw rs d = output_series (Some p) (rendered rs) d.
Proof.
  unfold put_hours. cbn [output_series]. revert d. induction rs as [|[h [l s]] rs IH]; intros d; [reflexivity|]. cbn [fold_left rendered flat_map fst snd]. rewrite IH. unfold rendered. destruct (results _ _ _ _ _ _ _); reflexivity.
Qed.
Lemma rendered_hours rs : NoDup (map fst rs) -> NoDup (map fst (rendered rs)) /\ forall h, In h (map fst (rendered rs)) -> In h (map fst rs).
Proof.
  induction rs as [|[h [l s]] rs IH]; intros N; [split; [constructor|auto]|]. cbn in N. apply NoDup_cons_iff in N as [N1 N]. destruct (IH N) as [A B]. unfold rendered in *. cbn [flat_map fst snd]. destruct (results _ _ _ _ _ _ _); cbn.
  - split; [constructor; [intros X; apply N1; auto|exact A]|]. intros k [<-|K]; auto.
  - split; [exact A|]. auto.
Qed.
Lemma nodup_left (l m : list Z) : NoDup (l ++ m) -> NoDup l.
Proof. induction l as [|x l IH]; cbn; intros H; [constructor|]. apply NoDup_cons_iff in H as [H1 H2]. constructor; [intros X; apply H1, in_or_app; now left|auto]. Qed.
Lemma range_nodup a b : NoDup (TimeSeries.py_range a b).
Proof. unfold TimeSeries.py_range. apply FinFun.Injective_map_NoDup; [|apply seq_NoDup]. intros x y H. lia. Qed.
Lemma in_range a b h : In h (TimeSeries.py_range a b) <-> (a <= h < b)%Z.
Proof.
  unfold TimeSeries.py_range. rewrite in_map_iff. split.
  - intros (k & <- & Hk). apply in_seq in Hk. lia.
  - intros H. exists (Z.to_nat (h - a)). split; [lia|]. apply in_seq. lia.
Qed.
Section Hours.
Variables (solve : nat -> list TimeSeries.tload -> option (@pf_result So)) (swing : option string) (negatives : option (list string)) (names : string -> option nat) (cols : list TimeSeries.column).
Let step := hours_run outputs solve swing negatives fuel names cols.
Let goes := TimeSeries.run_hours _ outputs solve swing negatives fuel names cols.
Lemma hours_all hours : forall st st' rs, goes hours st = TimeSeries.Done st' rs -> map pure (step hours st) = rs.
Proof.
  unfold goes, step. induction hours as [|h hours IH]; intros st st' rs H; cbn in *; [now injection H as _ <-|]. destruct (TimeSeries.execute_powerflow _ _ _ _ _ _ _) as [st1 s1|st1|]; [|discriminate..].
  destruct (TimeSeries.run_hours _ _ _ _ _ _ _ _ hours st1) as [st2 rs2|st2|] eqn:E; [|discriminate..]. injection H as <- <-. cbn. f_equal. exact (IH _ _ _ E).
Qed.
Lemma hours_some hours : forall st, exists done rest st', hours = done ++ rest /\ goes done st = TimeSeries.Done st' (map pure (step hours st)).
Proof.
  unfold goes, step. induction hours as [|h hours IH]; intros st; [exists [], [], st; split; reflexivity|]. cbn [hours_run]. destruct (TimeSeries.execute_powerflow _ outputs solve swing negatives fuel _) as [st1 s1|st1|] eqn:E.
  - destruct (IH st1) as (done & rest & st' & E1 & E2). exists (h :: done), rest, st'. split; [cbn; now rewrite <- E1|]. cbn [TimeSeries.run_hours]. rewrite E, E2. reflexivity.
  - exists [], (h :: hours), st. split; reflexivity.
  - exists [], (h :: hours), st. split; reflexivity.
Qed.
Lemma hours_broken hours : forall st stx, goes hours st = TimeSeries.Raised stx -> exists done h rest st', hours = done ++ h :: rest /\
  goes done st = TimeSeries.Done st' (map pure (step hours st)) /\ goes (done ++ [h]) st = TimeSeries.Raised stx.
Proof.
  unfold goes, step. induction hours as [|h hours IH]; intros st stx H; [discriminate|]. cbn [hours_run]. cbn [TimeSeries.run_hours] in H. destruct (TimeSeries.execute_powerflow _ outputs solve swing negatives fuel _) as [st1 s1|st1|] eqn:E; [| |discriminate].
  - destruct (TimeSeries.run_hours _ _ _ _ _ _ _ _ hours st1) as [st2 rs2|st2|] eqn:G; [discriminate| |discriminate]. injection H as <-. destruct (IH st1 _ G) as (done & k & rest & st' & E1 & E2 & E3). exists (h :: done), k, rest, st'. split; [cbn; now rewrite <- E1|].
    cbn [TimeSeries.run_hours app]. rewrite E, E2, E3. split; reflexivity.
  - injection H as <-. exists [], h, hours, st. split; [reflexivity|]. split; [reflexivity|]. cbn [app TimeSeries.run_hours]. rewrite E. reflexivity.
Qed.
Lemma hours_names hours st st' rs : goes hours st = TimeSeries.Done st' rs -> map fst rs = hours.
Proof.
  unfold goes. revert st st' rs. induction hours as [|h hours IH]; intros st st' rs H; cbn in *; [now injection H as _ <-|]. destruct (TimeSeries.execute_powerflow _ _ _ _ _ _ _) as [st1 s1|st1|]; [|discriminate..].
  destruct (TimeSeries.run_hours _ _ _ _ _ _ _ _ hours st1) as [st2 rs2|st2|] eqn:E; [|discriminate..]. injection H as <- <-. cbn. f_equal. exact (IH _ _ _ E).
Qed.
End Hours.
Local Notation hour_says := (SpecReport.hour_says label old r nw).
Lemma hours_files p d hs a b : NoDup (map fst hs) -> (forall h, In h (map fst hs) -> (a <= h < b)%Z) ->
  let d' := put_hours label So old rated (Some p) r nw hs d in (forall h res, In (h, res) (map pure hs) -> hour_says p d' h res) /\ other_files p a b d d'.
Proof.
  intros N R d'. unfold d'. rewrite put_series. destruct (rendered_hours hs N) as [N' I']. destruct (@series_writes p (rendered hs) d N') as [W1 W2]. split.
  - intros h res H ok v it tx rd ds so' ->. apply in_map_iff in H as ([h0 [l0 s0]] & E & H). injection E as -> ->.
    destruct (file_says (is_success So (PFDone ok v it tx rd ds so') && rated l0 (PFDone ok v it tx rd ds so')) l0 ok v it tx rd ds so') as (q & E & S1 & S2).
    assert (Hq : In (h, q) (rendered hs)) by (unfold rendered; apply in_flat_map; exists (h, (l0, PFDone ok v it tx rd ds so')); split; [exact H|]; cbn [fst snd]; rewrite E; now left).
    destruct (W1 _ _ Hq) as [O1 O2]. do 3 eexists. split; [exact O1|]. split; [exact O2|]. split; [exact S1|]. intros K P. exact (proj1 (S2 K P)).
  - intros g G. apply W2. intros h q Hq. apply G, R, I'. apply in_map_iff. now exists (h, q).
Qed.
Lemma hours_fst hs : map fst (map pure hs) = map fst hs.
Proof. rewrite map_map. reflexivity. Qed.
Variable cols : list TimeSeries.column.
Hypothesis FL : TimeSeries.ta_file (op_series o) = TimeSeries.File cols.
Hypothesis T3 : nw_three_phase nw = true.
Let first := TimeSeries.or_zero (TimeSeries.ta_start (op_series o)).
Let stop := TimeSeries.or_zero (TimeSeries.ta_end (op_series o)).
Let solve := power_flows So nm spsolve nan old visit later o r nw so.
Let goes := TimeSeries.run_hours _ outputs solve (op_swing o) (op_negatives o) fuel (TimeSeries.named ls) cols.
Let hs := hours_run outputs solve (op_swing o) (op_negatives o) fuel (TimeSeries.named ls) cols (TimeSeries.py_range first stop) (0%nat, ls).
Lemma series_disk path d : disk_after path d =
  Ok (let d := put_hours label So old rated path r nw hs d in
      match goes (TimeSeries.py_range first stop) (0%nat, ls) with
      | TimeSeries.Done _ _ => Some d
      | TimeSeries.Raised st => match TimeSeries.power_flow _ solve st with TimeSeries.Done st res => Some (put_file path (results label old r nw false (snd st) res) d) | _ => Some d end
      | TimeSeries.Looping => None end).
Proof.
  unfold disk_after, files. rewrite FI. cbn [pbind]. rewrite (is_analysis o r nw opt AN NW), NW. cbn [pbind]. rewrite (is_factor o r nw f AF). fold ls. f_equal. rewrite FL, T3. unfold TimeSeries.process. rewrite FL.
  cbn [fst snd]. fold first stop solve hs goes. change (TimeSeries.run_hours pf_result outputs solve (op_swing o) (op_negatives o) fuel (TimeSeries.named ls) cols) with goes. destruct (goes _ _); reflexivity.
Qed.
Lemma series_run : run = Ok (match goes (TimeSeries.py_range first stop) (0%nat, ls) with
      | TimeSeries.Done st rs => TimeSeries.Done st (TimeSeries.Series rs)
      | TimeSeries.Raised st => match TimeSeries.power_flow _ solve st with TimeSeries.Done st res => TimeSeries.Done st (TimeSeries.Single res) | TimeSeries.Raised st => TimeSeries.Raised st | TimeSeries.Looping => TimeSeries.Looping end
      | TimeSeries.Looping => TimeSeries.Looping end).
Proof.
  unfold run. rewrite (run_main So T W nm spsolve nan old visit later outputs fuel o so r nw opt f FI AN NW AF). f_equal. unfold TimeSeries.main, TimeSeries.process. rewrite FL, T3.
  cbn [fst snd]. fold ls. fold first stop solve. change (TimeSeries.run_hours pf_result outputs solve (op_swing o) (op_negatives o) fuel (TimeSeries.named ls) cols) with goes. destruct (goes _ _); reflexivity.
Qed.
Lemma hs_files p d : let d' := put_hours label So old rated (Some p) r nw hs d in (forall h res, In (h, res) (map pure hs) -> hour_says p d' h res) /\ other_files p first stop d d'.
Proof.
  destruct (hours_some solve (op_swing o) (op_negatives o) (TimeSeries.named ls) cols (TimeSeries.py_range first stop) (0%nat, ls)) as (done & rest & st' & E1 & E2). fold hs in E2. apply hours_names in E2. rewrite hours_fst in E2.
  pose proof (range_nodup first stop) as N. rewrite E1 in N. apply hours_files; rewrite E2; [exact (nodup_left _ _ N)|]. intros h H. apply in_range. rewrite E1. apply in_or_app. now left.
Qed.
Lemma files_series p d st rs : run = Ok (TimeSeries.Done st (TimeSeries.Series rs)) -> exists d', disk_after (Some p) d = Ok (Some d') /\
  map fst rs = TimeSeries.py_range first stop /\ (forall h res, In (h, res) rs -> hour_says p d' h res) /\ other_files p first stop d d'.
Proof.
  rewrite series_run, series_disk. destruct (goes _ _) as [st1 rs1|st1|] eqn:G; intros H.
  - injection H as -> ->. eexists. split; [reflexivity|]. pose proof (hours_names _ _ _ _ _ _ _ _ _ G) as HN. apply hours_all in G. fold hs in G. split; [exact HN|]. rewrite <- G. apply hs_files.
  - destruct (TimeSeries.power_flow _ _ _); discriminate.
  - discriminate.
Qed.
Lemma files_broken p d st ok v it tx rd ds so' : p <> ""%string -> run = Ok (TimeSeries.Done st (TimeSeries.Single (PFDone ok v it tx rd ds so'))) -> exists d' st1 st2 done h rest rs,
  disk_after (Some p) d = Ok (Some d') /\ TimeSeries.py_range first stop = done ++ h :: rest /\ goes done (0%nat, ls) = TimeSeries.Done st1 rs /\ goes (done ++ [h]) (0%nat, ls) = TimeSeries.Raised st2 /\ st = (S (fst st2), snd st2) /\ (forall h res, In (h, res) rs -> hour_says p d' h res) /\
  exists tv tp, d' (p ++ "_voltage.csv")%string = Some tv /\ d' (p ++ "_power.csv")%string = Some tp /\ (ok = false -> tv = "FAILURE"%string /\ tp = "FAILURE"%string) /\
    (ok = true -> names_plain label r -> shows_voltages label r (voltages (assign_matrix old nw) (vec v)) false tv).
Proof.
  intros NE. rewrite series_run, series_disk. destruct (goes _ _) as [st1 rs1|st1|] eqn:G; intros H; try discriminate. destruct (TimeSeries.power_flow _ solve st1) as [st2 res|st2|] eqn:PF; try discriminate. injection H as -> ->.
  assert (ST : st = (S (fst st1), snd st1)) by (unfold TimeSeries.power_flow in PF; destruct (solve (fst st1) (snd st1)); [now injection PF as <- _|discriminate]).
  destruct (hours_broken solve (op_swing o) (op_negatives o) (TimeSeries.named ls) cols _ _ _ G) as (done & h0 & rest & st' & E1 & E2 & E3). fold hs in E2. fold goes in E2, E3.
  destruct (file_says false (snd st) ok v it tx rd ds so') as (q & E & S1 & S2). cbv zeta. rewrite E. cbn [put_file]. set (d0 := put_hours _ _ _ _ _ _ _ _ _). destruct (@output_writes p q d0 NE) as (O1 & O2 & O3).
  exists (output p q d0), st', st1, done, h0, rest, (map pure hs). split; [reflexivity|]. split; [exact E1|]. split; [exact E2|]. split; [exact E3|]. split; [exact ST|]. split.
  - intros h res Hr ok1 v1 it1 tx1 rd1 ds1 so1 E4. destruct (hs_files p d) as [HF _]. destruct (HF h res Hr _ _ _ _ _ _ _ E4) as (tv & tp & vi & A1 & A2 & A3). fold d0 in A1, A2. exists tv, tp, vi.
    assert (X : forall s t : string, ((p ++ "_" ++ show_int h) ++ s <> p ++ "_" ++ String "v" t /\ (p ++ "_" ++ show_int h) ++ s <> p ++ "_" ++ String "p" t)%string).
    { intros s t. assert (D : forall c, (c = "v" \/ c = "p")%char -> ((p ++ "_" ++ show_int h) ++ s)%string <> (p ++ "_" ++ String c t)%string).
      { intros c Hc Q. rewrite !app_assoc_o in Q. apply cancel in Q. cbn [append] in Q. injection Q as Q. destruct (show_head h) as (x & y & Y & Z1 & Z2). rewrite Y in Q. cbn in Q. injection Q as -> _. destruct Hc as [-> | ->]; congruence. }
      split; apply D; auto. }
    rewrite !O3; try (apply X); auto.
  - exists (voltage_file q), (power_file q). split; [exact O1|]. split; [exact O2|]. split; [exact S1|]. intros K P. exact (proj1 (S2 K P)).
Qed.
End Files.
