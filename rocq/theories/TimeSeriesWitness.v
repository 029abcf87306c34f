(** Concrete cases for C52, C53, C55, C67, C68. *)
From Coq Require Import String Ascii List Bool Arith ZArith Reals Lra Lia.
From Verif Require Import TimeSeries SpecTimeSeries TimeSeriesProofs TimeSeriesRun.
Import ListNotations.
Local Open Scope R_scope.

Lemma apparent_34 : apparent (3, 4) = 5.
Proof. unfold apparent; cbn [fst snd]. replace (3 * 3 + 4 * 4) with (5 * 5) by ring. apply sqrt_square; lra. Qed.
Lemma ten_of_34 : apply_magnitude (3, 4) 10 = (6, 8).
Proof. rewrite apply_scale by (intros E; injection E; lra). rewrite apparent_34. unfold times; cbn [fst snd]. f_equal; field. Qed.
Lemma zero_of_34 : through (3, 4) [0; 10] = (10, 0).
Proof. exact (after_zero (3, 4) [] [] 10 (fun m H => match H with end)). Qed.
Lemma negative_of_34 : through (3, 4) [-1; 10] = (-6, -8).
Proof.
  assert (positive []) as HP by (intros m []). assert ((3, 4) <> (0, 0)) as H by (intros E; injection E; lra).
  pose proof (after_negative (3, 4) [] (-1) [] 10 H HP ltac:(lra) HP) as E. cbn [app] in E. rewrite E, ten_of_34. unfold times; cbn [fst snd]. f_equal; ring.
Qed.

(** two loads of one triplex node *)
Definition tri (phase : string) : tload := {| tl_num := "7"; tl_phase := phase; tl_triplex := Some "A"%string; tl_P := 3; tl_Q := 4 |}.
Definition pair_of_loads : list tload := [tri "1"; tri "12"].
Lemma pair_names : map load_name pair_of_loads = ["rl_7_1"%string; "rl_7_1"%string]. Proof. reflexivity. Qed.
Definition one_column : list column := [("rl_7_1"%string, fun _ => Some 10)].
Lemma pair_after : set_load_values (named pair_of_loads) one_column 0 pair_of_loads = [tri "1"; set_power (tri "12") (6, 8)].
Proof. cbv -[apply_magnitude IZR Rmult Rplus]. rewrite ten_of_34. reflexivity. Qed.
Definition wye (num phase : string) (p : R) : tload := {| tl_num := num; tl_phase := phase; tl_triplex := None; tl_P := p; tl_Q := 0 |}.
Lemma wye_names : map load_name [wye "7" "A" 1; wye "7" "AB" 1; tri "12"; wye "7" "" 1] = ["cl_7A"; "cl_7AB"; "rl_7_1"; "7_"]%string. Proof. reflexivity. Qed.

(** a swing bus that supplies whatever is missing *)
Definition total (loads : list tload) : R := fold_right (fun l s => tl_P l + s) 0 loads.
Definition balance (_ : nat) (loads : list tload) : option (list gout) := Some [{| go_name := "sw"; go_phase := "A"; go_P := - total loads; go_Q := 0 |}].
Definition feeder : list tload := [wye "3" "A" 5; wye "9" "A" 0].
Lemma one_output_sum p : magnitude_sum (at_bus "sw" [{| go_name := "sw"; go_phase := "A"; go_P := p; go_Q := 0 |}]) = Rabs p.
Proof. unfold magnitude_sum; cbn. rewrite Rplus_0_r. replace (p * p + 0 * 0) with (p²) by (unfold Rsqr; ring). apply sqrt_Rsqr_abs. Qed.
Lemma feeder_settles : execute_powerflow (list gout) (fun s => s) balance (Some "sw"%string) (Some ["load_9"%string]) 1 (0%nat, feeder) =
  Done (2%nat, [wye "3" "A" 5; set_power (wye "9" "A" 0) (0 + - total feeder, 0 + 0)])
       [{| go_name := "sw"; go_phase := "A"; go_P := - total [wye "3" "A" 5; set_power (wye "9" "A" 0) (0 + - total feeder, 0 + 0)]; go_Q := 0 |}].
Proof.
  unfold execute_powerflow, power_flow; cbn [fst snd balance adjust_loop].
  assert (adjust (Some "sw"%string) (Some ["load_9"%string]) [{| go_name := "sw"; go_phase := "A"; go_P := - total feeder; go_Q := 0 |}] feeder =
    Again [wye "3" "A" 5; set_power (wye "9" "A" 0) (0 + - total feeder, 0 + 0)]) as ->.
  { unfold adjust. rewrite total_output_sum. fold (at_bus "sw" [{| go_name := "sw"; go_phase := "A"; go_P := - total feeder; go_Q := 0 |}]).
    destruct (Rlt_dec _ _) as [L|L]; [exfalso|reflexivity]. revert L. change (swing_outputs "sw") with (at_bus "sw"). rewrite one_output_sum. unfold feeder, total, wye; cbn [fold_right tl_P]. rewrite Rabs_left; lra. }
  unfold power_flow; cbn [balance fst snd adjust_loop]. rewrite (proj2 (adjust_settled _ _ _ _)); [reflexivity|]. rewrite one_output_sum. unfold feeder, total, wye, set_power; cbn [fold_right tl_P fst snd].
  rewrite Rabs_right; lra.
Qed.
(** a swing bus with a constant output *)
Definition stubborn (_ : nat) (_ : list tload) : option (list gout) := Some [{| go_name := "sw"; go_phase := "A"; go_P := 1; go_Q := 0 |}].
Lemma feeder_loops fuel : execute_powerflow (list gout) (fun s => s) stubborn (Some "sw"%string) (Some ["load_9"%string]) fuel (0%nat, feeder) = Looping.
Proof.
  apply (execute_forever (fun s => s) stubborn "sw" ["load_9"%string] ["9"%string]).
  - constructor; [|constructor]. split; [left; exists "load"%string; reflexivity|reflexivity].
  - intros k loads _. eexists; split; [reflexivity|]. split; [rewrite one_output_sum, Rabs_right; lra|]. cbn. intros g [<-|[]]. exists (wye "9" "A" 0); cbn; auto.
Qed.
(** the swing bus has a phase without a negative load *)
Definition two_phase (_ : nat) (_ : list tload) : option (list gout) :=
  Some [{| go_name := "sw"; go_phase := "A"; go_P := 1; go_Q := 0 |}; {| go_name := "sw"; go_phase := "B"; go_P := 2; go_Q := 0 |}].
Lemma two_phase_fails : adjust (Some "sw"%string) (Some ["load_9"%string]) [{| go_name := "sw"; go_phase := "A"; go_P := 1; go_Q := 0 |}; {| go_name := "sw"; go_phase := "B"; go_P := 2; go_Q := 0 |}] feeder =
  KeyError [wye "3" "A" 5; set_power (wye "9" "A" 0) (0 + 1, 0 + 0)].
Proof.
  unfold adjust. rewrite total_output_sum. destruct (Rlt_dec _ _) as [L|L]; [exfalso|reflexivity]. revert L. unfold magnitude_sum; cbn. rewrite Rplus_0_r.
  replace (1 * 1 + 0 * 0) with (1 * 1) by ring. replace (2 * 2 + 0 * 0) with (2 * 2) by ring. rewrite !sqrt_square by lra. lra.
Qed.
(** two hours *)
Definition col2 : list column := [("cl_3A"%string, fun h => if Z.eqb h 0 then Some 7 else if Z.eqb h 1 then Some 8 else None)].
Lemma feeder_hour1 : after_hours feeder col2 [0%Z; 1%Z] = [set_power (wye "3" "A" 5) (8, 0); wye "9" "A" 0].
Proof.
  change [0%Z; 1%Z] with ([0%Z] ++ [1%Z]). rewrite hours_independent.
  - cbv -[apply_magnitude IZR]. assert (apply_magnitude (5, 0) 8 = (8, 0)) as ->.
    { rewrite apply_scale by (intros E; injection E; lra). unfold times, apparent; cbn [fst snd]. replace (5 * 5 + 0 * 0) with (5 * 5) by ring. rewrite sqrt_square by lra. f_equal; field. }
    reflexivity.
  - repeat constructor. intros [].
  - intros c k [<-|[]] [<-|[<-|[]]]; cbn; eexists; (split; [reflexivity|lra]).
Qed.
