(** Schedules in GridLAB-D files: C149. *)
From Coq Require Import String Ascii List Bool ZArith.
From Verif Require Import PyExc GlmText SpecGlm SpecSchedule GlmFinal GlmWitness ScheduleFinal ScheduleWitness.
Import ListNotations.
Local Open Scope string_scope.

(** C149 *)
Theorem C149_schedules : forall schema over12 mega hits files input rows more os1 os2 ss1 ss2 vs,
  files input = Some rows -> included files rows more -> full_file os1 ss1 rows -> full_file os2 ss2 more ->
  Forall (legal schema) (os1 ++ os2) -> valued hits (ss1 ++ ss2) vs ->
  exists objs scheds, read_glm schema over12 mega hits files input = Ok (objs, scheds)
    /\ dictionary (os1 ++ os2) (found objs) /\ schedule_dictionary vs scheds.
Proof. exact read_schedules. Qed.
Print Assumptions C149_schedules.
(** three objects and three schedules; the second schedule called day has no value and leaves that of the first *)
Example C149_nonvacuous :
  included (demo_files sched_rows []) sched_rows [] /\ full_file [n1; n2; l1] [day; june; night] sched_rows
  /\ Forall (legal demo_schema) [n1; n2; l1] /\ valued demo_hits [day; june; night] sched_values
  /\ match read_glm demo_schema no_conv no_conv demo_hits (demo_files sched_rows []) "main.glm" with
     | Ok (objs, scheds) => map fst objs = ["n1"; "node:2"; "n1-node:2"] /\ scheds = [("day", "0.9"); ("june", "0.2")]
     | Err _ => False
     end.
Proof.
  split; [exact sched_included|split; [exact sched_file|split; [exact demo_legal|split; [exact sched_valued|]]]].
  vm_compute. split; reflexivity.
Qed.

Theorem C149_bad_cron : forall schema over12 mega hits os ss vs rows1 name r0 cs body e more,
  full_file os ss rows1 -> Forall (legal schema) os -> valued hits ss vs ->
  schedule_row name r0 -> sched_body cs body -> breaks hits e cs ->
  read_rows schema over12 mega hits (rows1 ++ (r0 :: body) ++ more) g_start = Err e.
Proof. exact bad_cron. Qed.
Print Assumptions C149_bad_cron.
Example C149_bad_cron_nonvacuous :
  schedule_row "s" "schedule s {" /\ sched_body [("* 0-12 * * *", "0.4"); ("61 * * * *", "0.9")] bad_rows
  /\ breaks demo_hits ValueError [("* 0-12 * * *", "0.4"); ("61 * * * *", "0.9")]
  /\ read_glm demo_schema no_conv no_conv demo_hits (demo_files (sched_rows ++ "schedule s {" :: bad_rows) []) "main.glm" = Err ValueError.
Proof. split; [exact bad_open|split; [exact bad_body|split; [exact bad_breaks|vm_compute; reflexivity]]]. Qed.

Theorem C149_own_brace : forall schema over12 mega hits os ss vs rows1 sc b scs bs o,
  full_file os ss rows1 -> Forall (legal schema) os -> valued hits ss vs ->
  braced_schedule sc b -> Forall2 braced_schedule scs bs -> picks hits (snd sc ++ flat_map snd scs) o ->
  exists s', read_rows schema over12 mega hits (rows1 ++ b ++ List.concat bs) g_start = Ok s'
    /\ schedule_dictionary (vs ++ [(fst sc, o)]) (g_scheds s') /\ g_sched s' = Some (fst sc).
Proof. exact braced_merged. Qed.
Print Assumptions C149_own_brace.
(** schedule b hits and schedule a does not: the reader has a value for a and none for b *)
Example C149_own_brace_nonvacuous :
  braced_schedule ("a", [("* 0-12 * * *", "0.4")]) own1_rows /\ braced_schedule ("b", [("* * * * *", "0.6")]) own2_rows
  /\ read_glm demo_schema no_conv no_conv demo_hits (demo_files (own1_rows ++ own2_rows) []) "main.glm" = Ok ([], [("a", "0.6")]).
Proof. split; [exact own1_braced|split; [exact own2_braced|vm_compute; reflexivity]]. Qed.

Theorem C149_named_block : forall schema over12 mega hits files input rows name r0 cs1 a m cs2 b r1 c o,
  files input = Some rows -> included files rows [] -> rows = (r0 :: (a ++ m :: b) ++ r1 :: c)%list ->
  schedule_row name r0 -> sched_body cs1 a -> short_row m -> sched_body cs2 b -> block_close r1 -> Forall outside c ->
  picks hits (cs1 ++ cs2) o ->
  read_glm schema over12 mega hits files input = Ok ([], match o with Some v => [(name, v)] | None => [] end).
Proof. exact named_block. Qed.
Print Assumptions C149_named_block.
(** of the blocks weekdays and weekend only the first counts *)
Example C149_named_block_nonvacuous :
  short_row "weekdays {" /\ sched_body [("* 0-12 * * *", "0.4")] weekday_rows /\ block_close "}" /\ Forall outside named_rest
  /\ included (demo_files named_rows []) named_rows [] /\ picks demo_hits ([] ++ [("* 0-12 * * *", "0.4")]) None
  /\ In "  * * * * * 0.8;" named_rows /\ demo_hits "* * * * *" = Ok true
  /\ read_glm demo_schema no_conv no_conv demo_hits (demo_files named_rows []) "main.glm" = Ok ([], []).
Proof.
  split; [exact weekdays_short|split; [exact weekday_body|split; [exact plain_close|split; [exact rest_outside|split; [exact named_included|
    split; [exact named_picks|split; [cbn; tauto|split; [reflexivity|vm_compute; reflexivity]]]]]]]].
Qed.

Theorem C149_late_comment : forall schema over12 mega hits name r0 c v r r1,
  schedule_row name r0 -> late_comment_row c v r -> block_close r1 -> hits c = Ok true ->
  exists s', read_rows schema over12 mega hits [r0; r; r1] g_start = Ok s' /\ g_scheds s' = [(name, v ++ ";")].
Proof. exact late_comment. Qed.
Print Assumptions C149_late_comment.
Example C149_late_comment_nonvacuous :
  schedule_row "s" "schedule s {" /\ late_comment_row "* * * * *" "0.5" "  * * * * * 0.5; // all day" /\ block_close "}"
  /\ demo_hits "* * * * *" = Ok true
  /\ read_glm demo_schema no_conv no_conv demo_hits (demo_files ["schedule s {"; "  * * * * * 0.5; // all day"; "}"] []) "main.glm" = Ok ([], [("s", "0.5;")]).
Proof. split; [exact bad_open|split; [exact late_row|split; [exact plain_close|split; [reflexivity|vm_compute; reflexivity]]]]. Qed.
