(** Command lines for C160, on the file of CommandWitness.v. *)
From Coq Require Import Reals ZArith String List Bool Lra.
From Verif Require Import PyExc Components Network Solver Devices PowerFlow NewtonGauss ThreePhase RawParser Loader LoaderWitness SolverNet Command SpecCommand CommandWitness SpecOptions OptionsProofs.
From Verif Require TimeSeries.
Import ListNotations.
Local Open Scope R_scope.

(** a load file that is missing, hours, a swing bus and negative loads *)
Definition lost_options (f : option R) : options :=
  {| op_case := "home.glm"; op_series := {| TimeSeries.ta_file := TimeSeries.Missing; TimeSeries.ta_start := Some 3%Z; TimeSeries.ta_end := Some 7%Z |}; op_swing := Some "N1"%string;
     op_negatives := Some ["load_1"%string]; op_debug := false; op_infeasibility := false; op_factor := f; op_tx_stepping := false |}.
Definition hour_options (cols : list TimeSeries.column) (a b : option Z) (swing : option string) (neg : option (list string)) (f : option R) : options :=
  {| op_case := "home.glm"; op_series := {| TimeSeries.ta_file := TimeSeries.File cols; TimeSeries.ta_start := a; TimeSeries.ta_end := b |}; op_swing := swing;
     op_negatives := neg; op_debug := false; op_infeasibility := false; op_factor := f; op_tx_stepping := false |}.
Lemma minus_one : same_request (home_options None) (home_options (Some (-1))).
Proof. repeat (split; [reflexivity|]). exists (-1). split; [right; split; reflexivity|left; reflexivity]. Qed.
Lemma asks_some o : exists f, asks_factor o f.
Proof. unfold asks_factor. destruct (op_factor o) as [f|]; [exists f|exists (-1)]; auto. Qed.
Lemma hour_idle cols a b f : same_request (hour_options cols a b (Some "N1"%string) None f) (hour_options cols a b None (Some ["load_1"%string]) f) /\
  same_file (hour_options cols a b (Some "N1"%string) None f) (hour_options cols a b None (Some ["load_1"%string]) f) /\
  idle (hour_options cols a b (Some "N1"%string) None f) /\ idle (hour_options cols a b None (Some ["load_1"%string]) f).
Proof.
  split; [repeat (split; [reflexivity|]); destruct (asks_some (hour_options cols a b None None f)) as [g G]; exists g; split; exact G|].
  split; [exists cols; split; reflexivity|]. split; [right|left]; reflexivity.
Qed.
Lemma lost_reports nm nan old later outputs fuel : exists it rd,
  reports (command unit feed_tools home_desk nm gauss nan old (fun l => l) later outputs fuel (lost_options (Some 0)) tt) (PFDone true home_point it 0 rd [] tt).
Proof.
  destruct (home_run nm old nan later outputs fuel) as [it [rd [H _]]]. exists it, rd. destruct H as [st H]. exists st. rewrite <- H. apply ignored.
  - repeat (split; [reflexivity|]). exists 0. split; left; reflexivity.
  - intros r E. cbn [op_case lost_options] in E. rewrite home_loads in E. injection E as <-. split; [right; left; reflexivity|apply home_plain].
Qed.
