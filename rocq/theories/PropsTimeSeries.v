(** C52, C53, C55, C67, C68: load profiles, generator adjustment, load names, the flow of the command line tool. *)
From Coq Require Import String List Bool Arith ZArith Reals Lra.
From Verif Require Import TimeSeries SpecTimeSeries TimeSeriesProofs TimeSeriesRun TimeSeriesWitness.
Import ListNotations.
Local Open Scope R_scope.

(** ** C52 *)
Theorem C52_magnitude_and_power_factor : forall s m, s <> (0, 0) -> 0 < m -> apparent (apply_magnitude s m) = m /\ apply_magnitude s m = times (m / apparent s) s.
Proof. exact keeps_factor. Qed.
Print Assumptions C52_magnitude_and_power_factor.
(** After positive magnitudes only the last one counts. *)
Theorem C52_last_positive_decides : forall s ms m, positive ms -> through s (ms ++ [m]) = apply_magnitude s m.
Proof. exact last_decides. Qed.
Print Assumptions C52_last_positive_decides.
(** After a zero the power factor is 1 for good. *)
Theorem C52_zero_loses_power_factor : forall s ms ns m, positive ns -> through s (ms ++ 0 :: ns ++ [m]) = (m, 0).
Proof. exact after_zero. Qed.
Print Assumptions C52_zero_loses_power_factor.
(** After a negative value all later hours are reversed. *)
Theorem C52_negative_reverses : forall s ms n ns m, s <> (0, 0) -> positive ms -> n < 0 -> positive ns ->
  through s (ms ++ n :: ns ++ [m]) = times (-1) (apply_magnitude s m).
Proof. exact after_negative. Qed.
Print Assumptions C52_negative_reverses.
(** Each load takes the value of the column with its name; without one it stays as it is. *)
Theorem C52_columns : forall loads cols h i l, NoDup (map fst cols) -> at_ loads i l ->
  (owns_name loads i l -> forall m, column_value cols (load_name l) h m -> at_ (set_load_values (named loads) cols h loads) i (set_power l (apply_magnitude (power_of l) m))) /\
  ((shadowed loads i l \/ forall m, ~ column_value cols (load_name l) h m) -> at_ (set_load_values (named loads) cols h loads) i l).
Proof. exact load_updates. Qed.
Print Assumptions C52_columns.
Example C52_example : apply_magnitude (3, 4) 10 = (6, 8) /\ through (3, 4) [0; 10] = (10, 0) /\ through (3, 4) [-1; 10] = (-6, -8).
Proof. exact (conj ten_of_34 (conj zero_of_34 negative_of_34)). Qed.

(** ** C53 *)
(** When the loop ends, the swing bus of the returned snapshot puts out less than 0.1, and the snapshot belongs to the final loads. *)
Theorem C53_exit : forall snap (gens : snap -> list gout) solve s ns fuel st st' r,
  execute_powerflow snap gens solve (Some s) (Some ns) fuel st = Done st' r ->
  magnitude_sum (at_bus s (gens r)) < 1 / 10 /\ exists k, fst st' = S k /\ solve k (snd st') = Some r.
Proof. exact @execute_exit. Qed.
Print Assumptions C53_exit.
(** A pass adds to each load exactly the swing outputs of the phases booked to it. *)
Theorem C53_pass : forall s ns nums gs loads r, numbers_of ns nums -> adjust (Some s) (Some ns) gs loads = Again r ->
  1 / 10 <= magnitude_sum (at_bus s gs) /\ booked nums (at_bus s gs) loads r.
Proof. exact adjust_again. Qed.
Print Assumptions C53_pass.
(** A phase of the swing bus without a negative load: exception, with the phases before it already booked. *)
Theorem C53_missing_phase : forall s ns nums gs loads r, numbers_of ns nums -> adjust (Some s) (Some ns) gs loads = KeyError r ->
  exists pre g post, at_bus s gs = pre ++ g :: post /\ (forall i l, ~ books nums loads (go_phase g) i l) /\ booked nums pre loads r.
Proof. exact adjust_keyerror. Qed.
Print Assumptions C53_missing_phase.
(** No bound: if the output stays at 0.1 or more, no number of passes is enough. *)
Theorem C53_can_loop_forever : forall snap (gens : snap -> list gout) solve s ns nums fuel st, numbers_of ns nums ->
  (forall k loads, map (fun l => (tl_num l, load_key l)) loads = map (fun l => (tl_num l, load_key l)) (snd st) ->
     exists sn, solve k loads = Some sn /\ 1 / 10 <= magnitude_sum (at_bus s (gens sn)) /\
     forall g, In g (at_bus s (gens sn)) -> exists l, In l (snd st) /\ In (tl_num l) nums /\ load_key l = go_phase g) ->
  execute_powerflow snap gens solve (Some s) (Some ns) fuel st = Looping.
Proof. exact @execute_forever. Qed.
Print Assumptions C53_can_loop_forever.
(** A swing bus name without a generator: nothing is adjusted. *)
Theorem C53_unknown_swing_bus : forall snap (gens : snap -> list gout) solve s ns fuel st sn, solve (fst st) (snd st) = Some sn -> at_bus s (gens sn) = [] ->
  execute_powerflow snap gens solve (Some s) (Some ns) fuel st = Done (S (fst st), snd st) sn.
Proof. exact @unknown_swing. Qed.
Print Assumptions C53_unknown_swing_bus.
Example C53_example_settles : execute_powerflow (list gout) (fun s => s) balance (Some "sw"%string) (Some ["load_9"%string]) 1 (0%nat, feeder) =
  Done (2%nat, [wye "3" "A" 5; set_power (wye "9" "A" 0) (0 + - total feeder, 0 + 0)])
       [{| go_name := "sw"; go_phase := "A"; go_P := - total [wye "3" "A" 5; set_power (wye "9" "A" 0) (0 + - total feeder, 0 + 0)]; go_Q := 0 |}].
Proof. exact feeder_settles. Qed.
Example C53_example_loops : forall fuel, execute_powerflow (list gout) (fun s => s) stubborn (Some "sw"%string) (Some ["load_9"%string]) fuel (0%nat, feeder) = Looping.
Proof. exact feeder_loops. Qed.
Example C53_example_missing : adjust (Some "sw"%string) (Some ["load_9"%string]) [{| go_name := "sw"; go_phase := "A"; go_P := 1; go_Q := 0 |}; {| go_name := "sw"; go_phase := "B"; go_P := 2; go_Q := 0 |}] feeder =
  KeyError [wye "3" "A" 5; set_power (wye "9" "A" 0) (0 + 1, 0 + 0)].
Proof. exact two_phase_fails. Qed.

(** ** C55 *)
(** For alphabetic phases and decimal numbers the name determines both. *)
Theorem C55_alphabetic_names : forall a b, isalpha (tl_phase a) = true -> isalpha (tl_phase b) = true -> digits (tl_num a) -> digits (tl_num b) ->
  load_name a = load_name b -> tl_num a = tl_num b /\ tl_phase a = tl_phase b.
Proof. exact alpha_names. Qed.
Print Assumptions C55_alphabetic_names.
(** For numeric phases it determines the number and the first digit only. *)
Theorem C55_numeric_names : forall a b, isnumeric (tl_phase a) = true -> isnumeric (tl_phase b) = true ->
  (load_name a = load_name b <-> tl_num a = tl_num b /\ first_char (tl_phase a) = first_char (tl_phase b)).
Proof. exact numeric_names. Qed.
Print Assumptions C55_numeric_names.
(** A load with the name of a later one keeps its values through all hours of any file. *)
Theorem C55_shadowed_never_updated : forall base cols hs i l, NoDup (map fst cols) -> shadowed base i l -> at_ (after_hours base cols hs) i l.
Proof. exact shadowed_constant. Qed.
Print Assumptions C55_shadowed_never_updated.
Example C55_example : map load_name pair_of_loads = ["rl_7_1"%string; "rl_7_1"%string] /\
  set_load_values (named pair_of_loads) one_column 0 pair_of_loads = [tri "1"; set_power (tri "12") (6, 8)].
Proof. exact (conj pair_names pair_after). Qed.
Example C55_example_names : map load_name [wye "7" "A" 1; wye "7" "AB" 1; tri "12"; wye "7" "" 1] = ["cl_7A"; "cl_7AB"; "rl_7_1"; "7_"]%string.
Proof. exact wye_names. Qed.

(** ** C67 *)
(** Positive sequence cases and missing load files: the time series options are ignored and the plain result is reported. *)
Theorem C67_options_ignored : forall snap (gens : snap -> list gout) solve swing negatives fuel tp a k loads, (tp = false \/ ta_file a = Missing) ->
  main snap gens solve swing negatives fuel tp a (k, loads) =
  match solve k loads with Some s => Done (S k, loads) (Single s) | None => Raised (S k, loads) end.
Proof. exact @options_ignored. Qed.
Print Assumptions C67_options_ignored.
Theorem C67_no_options : forall snap (gens : snap -> list gout) solve negatives fuel tp a k loads, ta_file a = NoFile ->
  main snap gens solve None negatives fuel tp a (k, loads) =
  match solve k loads with Some s => Done (S k, loads) (Single s) | None => Raised (S k, loads) end.
Proof. exact @no_options. Qed.
Print Assumptions C67_no_options.
(** When an hour fails, the results of the hours before it are lost and a single snapshot with the loads of that hour is reported. *)
Theorem C67_failed_hour_loses_series : forall snap (gens : snap -> list gout) solve swing negatives, swing = None \/ negatives = None ->
  forall fuel a cols k loads s e n sn, ta_file a = File cols -> hour_of (ta_start a) s -> hour_of (ta_end a) e -> (n < Z.to_nat (e - s))%nat ->
  (forall i, (i < n)%nat -> solve (k + i)%nat (after_hours loads cols (hours_from s (S i))) <> None) ->
  solve (k + n)%nat (after_hours loads cols (hours_from s (S n))) = None ->
  solve (S (k + n)) (after_hours loads cols (hours_from s (S n))) = Some sn ->
  exists st, main snap gens solve swing negatives fuel true a (k, loads) = Done st (Single sn).
Proof. exact @failed_hours. Qed.
Print Assumptions C67_failed_hour_loses_series.
(** When a phase has no negative load, the reported snapshot is that of the partly adjusted loads. *)
Theorem C67_missing_phase_reported : forall snap (gens : snap -> list gout) solve s ns nums fuel a k loads sn r sn', numbers_of ns nums -> ta_file a = NoFile ->
  solve k loads = Some sn -> adjust (Some s) (Some ns) (gens sn) loads = KeyError r -> solve (S k) r = Some sn' ->
  main snap gens solve (Some s) (Some ns) fuel true a (k, loads) = Done (S (S k), r) (Single sn').
Proof. exact @keyerror_fallback. Qed.
Print Assumptions C67_missing_phase_reported.
Definition no_file : ts_args := {| ta_file := NoFile; ta_start := None; ta_end := None |}.
Example C67_example : main (list gout) (fun s => s) two_phase (Some "sw"%string) (Some ["load_9"%string]) 5 true no_file (0%nat, feeder) =
  Done (2%nat, [wye "3" "A" 5; set_power (wye "9" "A" 0) (0 + 1, 0 + 0)])
       (Single [{| go_name := "sw"; go_phase := "A"; go_P := 1; go_Q := 0 |}; {| go_name := "sw"; go_phase := "B"; go_P := 2; go_Q := 0 |}]).
Proof.
  apply (keyerror_fallback _ _ _ _ ["9"%string] _ _ _ _ [{| go_name := "sw"; go_phase := "A"; go_P := 1; go_Q := 0 |}; {| go_name := "sw"; go_phase := "B"; go_P := 2; go_Q := 0 |}]);
    [|reflexivity..|exact two_phase_fails|reflexivity]. constructor; [|constructor]. split; [left; exists "load"%string; reflexivity|reflexivity].
Qed.

(** ** C68 *)
(** The hours simulated are start, start + 1, ..., end - 1, each with the profiles of all hours up to it. *)
Theorem C68_hours : forall snap (gens : snap -> list gout) solve swing negatives, swing = None \/ negatives = None ->
  forall fuel a cols k loads s e, ta_file a = File cols -> hour_of (ta_start a) s -> hour_of (ta_end a) e ->
  (forall i, (i < Z.to_nat (e - s))%nat -> solve (k + i)%nat (after_hours loads cols (hours_from s (S i))) <> None) ->
  exists st r, main snap gens solve swing negatives fuel true a (k, loads) = Done st (Series r) /\
    length r = Z.to_nat (e - s) /\
    forall i h sn, nth_error r i = Some (h, sn) -> h = (s + Z.of_nat i)%Z /\
       solve (k + i)%nat (after_hours loads cols (hours_from s (S i))) = Some sn.
Proof. exact @series_hours. Qed.
Print Assumptions C68_hours.
(** With a full table of positive values these loads are those of the hour alone. *)
Theorem C68_hours_independent : forall base cols hs h, NoDup (map fst cols) ->
  (forall c k, In c cols -> In k (hs ++ [h]) -> exists m, snd c k = Some m /\ 0 < m) ->
  after_hours base cols (hs ++ [h]) = set_load_values (named base) cols h base.
Proof. exact hours_independent. Qed.
Print Assumptions C68_hours_independent.
Example C68_example : after_hours feeder col2 [0%Z; 1%Z] = [set_power (wye "3" "A" 5) (8, 0); wye "9" "A" 0].
Proof. exact feeder_hour1. Qed.
(** without --loadend no hour is simulated and an empty series is reported *)
Example C68_no_end : main (list gout) (fun s => s) balance None None 0 true {| ta_file := File col2; ta_start := Some 3%Z; ta_end := None |} (0%nat, feeder) = Done (0%nat, feeder) (Series []).
Proof. reflexivity. Qed.
