(** C153: the result files. *)
From Coq Require Import Reals ZArith String Ascii List Bool.
From Verif Require Import PyExc Components SpecComponents Results SpecResults Output SpecOutput OutputProofs OutputWitness.
Import ListNotations.
Local Open Scope R_scope.
Local Open Scope string_scope.

Theorem C153_voltages : forall r, or_success r = true -> (forall b, In b (or_buses r) -> plain (ob_name b) /\ plain (ob_phase b)) ->
  exists rows last, split line_end (voltage_file r) = ("bus,name,v_magnitude,v_ang_degrees" :: rows ++ [last])%list /\
    Forall2 (bus_line (or_v r)) rows (filter (fun b => negb (ob_virtual b)) (or_buses r)) /\ last_line (or_violates r) last.
Proof. exact voltage_table. Qed.
Print Assumptions C153_voltages.
Theorem C153_powers : forall r, or_success r = true -> (forall l, In l (or_loads r) -> plain (ol_node l)) ->
  exists gens loads last, split line_end (power_file r) = ("bus,name,P(MW),Q(MVar)" :: gens ++ loads ++ [last])%list /\
    Forall2 gen_line gens (map (fun g => (fst g, gen_res (or_v r) (snd g))) (or_gens r) ++ map (fun s => (fst s, slack_res (or_v r) (snd s))) (or_slacks r)
      ++ match or_inf r with Some l => map (fun i => (fst i, inf_res (or_v r) (snd i))) l | None => [] end)%list /\
    Forall2 load_line loads (or_loads r) /\ last_line (or_violates r) last.
Proof. exact power_table. Qed.
Print Assumptions C153_powers.
Theorem C153_failed : forall r, or_success r = false -> voltage_file r = "FAILURE" /\ power_file r = "FAILURE".
Proof. exact failed_files. Qed.
Print Assumptions C153_failed.
Theorem C153_files : forall path r d, path <> "" ->
  output path r d (path ++ "_voltage.csv") = Some (voltage_file r) /\ output path r d (path ++ "_power.csv") = Some (power_file r) /\
  forall f, f <> path ++ "_voltage.csv" -> f <> path ++ "_power.csv" -> output path r d f = d f.
Proof. exact output_writes. Qed.
Print Assumptions C153_files.
(** no hour overwrites the files of another *)
Theorem C153_series : forall p rs d, NoDup (map fst rs) ->
  (forall h r, In (h, r) rs -> output_series (Some p) rs d ((p ++ "_" ++ show_int h) ++ "_voltage.csv") = Some (voltage_file r) /\
                               output_series (Some p) rs d ((p ++ "_" ++ show_int h) ++ "_power.csv") = Some (power_file r)) /\
  (forall f, (forall h r, In (h, r) rs -> f <> (p ++ "_" ++ show_int h) ++ "_voltage.csv" /\ f <> (p ++ "_" ++ show_int h) ++ "_power.csv") ->
     output_series (Some p) rs d f = d f).
Proof. exact series_writes. Qed.
Print Assumptions C153_series.
(** texts of numbers: an integer has one value, and every number is shown by its text *)
Theorem C153_numbers : (forall s a b, integer s a -> integer s b -> a = b) /\ (forall z, integer (show_int z) z) /\ (forall k x, shows k x (fixed k x)).
Proof. split; [exact integer_unique | split; [exact show_int_ok | exact fixed_ok]]. Qed.
Print Assumptions C153_numbers.
Example C153_nonvacuous : or_success demo_result = true /\ (forall b, In b (or_buses demo_result) -> plain (ob_name b) /\ plain (ob_phase b)) /\
  (forall l, In l (or_loads demo_result) -> plain (ol_node l)) /\
  split line_end (voltage_file demo_result) = ["bus,name,v_magnitude,v_ang_degrees"; "7,n1:A,5.000,90.000"; "VIOLATED EQUIPMENT RATINGS"] /\
  split line_end (power_file demo_result) = ["bus,name,P(MW),Q(MVar)"; "7,Slack,0.00,2.50"; "n1,PQ,0.40,-0.05"; "VIOLATED EQUIPMENT RATINGS"].
Proof. split; [reflexivity | split; [exact (proj1 demo_plain) | split; [exact (proj2 demo_plain) | split; [exact demo_voltages | exact demo_powers]]]]. Qed.
(** names are not quoted: with a comma in it the row has five fields *)
Example C153_commas : split comma (bus_row (or_v demo_result) comma_bus) = ["7"; "a"; "b:A"; "5.000"; "90.000" ++ newline].
Proof. exact comma_row. Qed.
Example C153_hours : NoDup (map fst [(0%Z, demo_result); (1%Z, demo_result); (10%Z, demo_result)]).
Proof. repeat constructor; cbn; intuition discriminate. Qed.
