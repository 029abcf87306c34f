(** Witnesses for C153. *)
From Coq Require Import Reals ZArith String Ascii List Bool Lia Lra.
From Verif Require Import PyExc Components SpecComponents Results SpecResults TimeSeries Output SpecOutput OutputProofs.
Import ListNotations.
Local Open Scope R_scope.
Local Open Scope string_scope.

(** a source at 5 V on the imaginary axis, a load of 0.4 and -0.05, an interior bus that is not shown *)
Definition demo_result : result := {|
  or_success := true; or_violates := true; or_v := fun i => match i with 1%nat => 5 | 2%nat => 1 / 2 | _ => 0 end;
  or_buses := [{| ob_num := 7; ob_name := "n1"; ob_phase := "A"; ob_virtual := false; ob_V := (0, 1)%nat |};
               {| ob_num := 8; ob_name := "inside"; ob_phase := "A"; ob_virtual := true; ob_V := (3, 4)%nat |}];
  or_gens := []; or_slacks := [(7%Z, {| rs_bus := (0, 1)%nat; rs_I := (3, 2)%nat |})]; or_inf := None;
  or_loads := [{| ol_node := "n1"; ol_P := 4 / 10; ol_Q := - (5 / 100) |}] |}.
Lemma sign_yes x : x < 0 -> rltb x 0 = true. Proof. intros H. now apply rltb_spec. Qed.
Lemma sign_no x : 0 <= x -> rltb x 0 = false. Proof. intros H. destruct (rltb x 0) eqn:Q; [apply rltb_spec in Q; lra|reflexivity]. Qed.
Lemma fixed_pos k x n : 0 <= x -> x * 10 ^ k = IZR n -> fixed k x = show_nonneg (n / 10 ^ Z.of_nat k) ++ "." ++ last_digits k (n mod 10 ^ Z.of_nat k).
Proof. intros P E. rewrite (@fixed_exact k x n), sign_no; [reflexivity|exact P|rewrite Rabs_right; [exact E|lra]]. Qed.
Lemma fixed_neg k x n : x < 0 -> - x * 10 ^ k = IZR n -> fixed k x = "-" ++ show_nonneg (n / 10 ^ Z.of_nat k) ++ "." ++ last_digits k (n mod 10 ^ Z.of_nat k).
Proof. intros P E. rewrite (@fixed_exact k x n), sign_yes; [reflexivity|exact P|rewrite Rabs_left; [exact E|lra]]. Qed.
Lemma five : Results.modulus (0, 5) = 5.
Proof. unfold Results.modulus. cbn [fst snd]. replace (0 * 0 + 5 * 5) with (5 * 5) by ring. apply sqrt_square. lra. Qed.
Lemma ninety : degrees_of 0 5 = 90.
Proof.
  unfold degrees_of. rewrite five. assert (X : rltb 5 (1 / 100000000) = false) by (destruct (rltb 5 (1 / 100000000)) eqn:Q; [apply rltb_spec in Q; lra|reflexivity]).
  rewrite X. unfold atan2. destruct (Rlt_dec 0 0); [lra|]. destruct (Rlt_dec 0 0); [lra|]. destruct (Rlt_dec 0 5); [|lra]. field. pose proof PI_RGT_0. lra.
Qed.
Lemma demo_voltages : split line_end (voltage_file demo_result) = ["bus,name,v_magnitude,v_ang_degrees"; "7,n1:A,5.000,90.000"; "VIOLATED EQUIPMENT RATINGS"].
Proof.
  unfold voltage_file, demo_result, shown_buses, trailer. cbn [or_success or_v or_buses or_violates filter negb ob_virtual map]. unfold bus_row. cbn [fst snd ob_V ob_num ob_name ob_phase].
  rewrite five, ninety, (@fixed_pos 3 5 5000), (@fixed_pos 3 90 90000) by (cbn; lra). reflexivity.
Qed.
Lemma demo_powers : split line_end (power_file demo_result) = ["bus,name,P(MW),Q(MVar)"; "7,Slack,0.00,2.50"; "n1,PQ,0.40,-0.05"; "VIOLATED EQUIPMENT RATINGS"].
Proof.
  unfold power_file, demo_result, shown_gens, trailer, slack_res, gen_row, load_row. cbn [or_success or_v or_gens or_slacks or_inf or_loads or_violates map app fst snd rs_bus rs_I gr_P gr_Q gr_type ol_node ol_P ol_Q].
  rewrite (@fixed_pos 2 (0 * 0) 0), (@fixed_pos 2 (5 * (1 / 2)) 250), (@fixed_pos 2 (4 / 10) 40), (@fixed_neg 2 (- (5 / 100)) 5) by (cbn; lra). reflexivity.
Qed.
Lemma demo_plain : (forall b, In b (or_buses demo_result) -> plain (ob_name b) /\ plain (ob_phase b)) /\ (forall l, In l (or_loads demo_result) -> plain (ol_node l)).
Proof.
  split; [intros b [<- | [<- | []]]; split; apply plain_b; reflexivity | intros l [<- | []]; apply plain_b; reflexivity].
Qed.
(** a name with a comma spoils its row *)
Definition comma_bus : obus := {| ob_num := 7; ob_name := "a,b"; ob_phase := "A"; ob_virtual := false; ob_V := (0, 1)%nat |}.
Lemma comma_row : split comma (bus_row (or_v demo_result) comma_bus) = ["7"; "a"; "b:A"; "5.000"; "90.000" ++ newline].
Proof.
  unfold bus_row, comma_bus, demo_result. cbn [or_v ob_V ob_num ob_name ob_phase fst snd]. rewrite five, ninety, (@fixed_pos 3 5 5000), (@fixed_pos 3 90 90000) by (cbn; lra). reflexivity.
Qed.
