(** Small files with schedules for the examples. *)
From Coq Require Import String Ascii List Bool Arith Lia ZArith.
From Verif Require Import PyExc GlmText SpecGlm SpecSchedule GlmBase GlmRowProofs GlmProofs GlmFinal GlmWitness ScheduleProofs ScheduleFinal.
Import ListNotations.
Local Open Scope string_scope.
Set Implicit Arguments.

(** croniter at 2 pm for the expressions used below; an impossible minute raises *)
Definition demo_hits (c : string) : pres bool :=
  if String.eqb c "61 * * * *" then Err ValueError
  else Ok (mem c ["* 13-18 * * *"; "* 13-18 * 6 *"; "* * * * *"]).

Lemma concat_spaced : forall w ws, spaced (w :: ws) (String.concat " " (w :: ws)).
Proof.
  intros w ws. revert w. induction ws as [|v ws IH]; intro w; [apply spaced_one|].
  change (String.concat " " (w :: v :: ws)) with (w ++ " " ++ String.concat " " (v :: ws)).
  apply spaced_more; [apply blank_b; reflexivity|discriminate|apply IH].
Qed.
Definition token_test (s : string) : bool :=
  negb (String.eqb s "") && forallb (fun c => negb (is_ws c)) (chars s) && forallb (fun d => negb (Ascii.eqb d ";")) (chars s)
  && forallb (fun d => negb (Ascii.eqb d "}")) (chars s) && String.eqb (cut_comment s) s && negb (ends_with "/" s).
Lemma token_test_ok : forall s, token_test s = true -> token s.
Proof.
  intros s H. unfold token_test in H. repeat (apply andb_prop in H; destruct H as [H ?]). apply token_b; try assumption.
  - apply andb_true_intro. split; assumption.
  - apply String.eqb_eq. assumption.
  - apply negb_true_iff. assumption.
Qed.
Definition head_test (s : string) : bool := negb (String.eqb s "object") && negb (String.eqb s "schedule") && negb (starts_with "{" s).
Lemma head_test_ok : forall s, head_test s = true -> s <> "object" /\ s <> "schedule" /\ forall a, s <> "{" ++ a.
Proof.
  intros s H. unfold head_test in H. repeat (apply andb_prop in H; destruct H as [H ?]). 
  repeat split; try (apply String.eqb_neq, negb_true_iff; assumption). intros a ->. discriminate.
Qed.
Lemma words_b : forall w1 w ws x e, forallb is_ws (chars w1) = true -> forallb is_ws (chars x) = true -> tail e ->
  forallb token_test (w :: ws) = true -> head_test w = true -> words_row (w :: ws) (w1 ++ String.concat " " (w :: ws) ++ x ++ e).
Proof.
  intros w1 w ws x e H1 Hx T Ht Hh. exists w1, (String.concat " " (w :: ws)), x, e. split; [reflexivity|]. split; [apply blank_b; exact H1|].
  split; [apply concat_spaced|]. split; [apply blank_b; exact Hx|]. split; [exact T|]. split.
  - apply Forall_forall. intros k I. apply token_test_ok. rewrite forallb_forall in Ht. apply Ht. exact I.
  - intros k l E. injection E as <- _. apply head_test_ok. exact Hh.
Qed.
Ltac tl s u := exists s, u; split; [reflexivity|split; [first [left; reflexivity|right; reflexivity]|first [left; apply blank_b; reflexivity|right; eexists; reflexivity]]].
Ltac cron w1 l s u := match goal with |- cron_row ?c ?v _ => exists l; split;
  [cbn [app]; match goal with |- words_row (?w :: ?ws) _ => refine (@words_b w1 w ws "" (s ++ u) eq_refl eq_refl _ eq_refl eq_refl) end; tl s u|split; [cbn; lia|reflexivity]] end.
Ltac sched_open w1 n t := exists w1, " ", t; split; [reflexivity|]; split; [apply blank_b; reflexivity|]; split; [apply blank_b; reflexivity|];
  split; [discriminate|]; split; [first [left; reflexivity | right; eexists; eexists; split; [reflexivity|apply is_ws_iff; reflexivity]]|];
  split; [apply word_b; reflexivity|apply no_comment_iff; reflexivity].
Ltac closing w s u := exists w, (s ++ u)%string; split; [reflexivity|]; split; [apply blank_b; reflexivity|]; tl s u.
Ltac opening w s u := exists w, "", (s ++ u)%string; split; [reflexivity|]; split; [apply blank_b; reflexivity|]; split; [apply blank_nil|]; tl s u.

(** hours of the day *)
Definition day_rows := ["schedule day {"; "  // by the hour"; "  * 0-12 * * * 0.4;"; "  * 13-18 * * * 0.9;// hot"; "  * * * * * 0.5"; "}"].
Definition day : schedule := ("day", [("* 0-12 * * *", "0.4"); ("* 13-18 * * *", "0.9"); ("* * * * *", "0.5")]).
(** the second row stands in a block without a name *)
Definition june_rows := ["schedule june {"; "  * 0-12 * 6 * 0.1;"; "  {"; "    * 13-18 * 6 * 0.2;"; "  };"; "  * 19-23 * 6 * 0.3;"; "}"].
Definition june : schedule := ("june", [("* 0-12 * 6 *", "0.1"); ("* 13-18 * 6 *", "0.2"); ("* 19-23 * 6 *", "0.3")]).
(** no row of this one hits *)
Definition night_rows := ["schedule day {"; "  * 0-5 * * * 0.7;"; "};"].
Definition night : schedule := ("day", [("* 0-5 * * *", "0.7")]).

Lemma day_one : one_schedule day day_rows.
Proof.
  exists "schedule day {", ["  // by the hour"; "  * 0-12 * * * 0.4;"; "  * 13-18 * * * 0.9;// hot"; "  * * * * * 0.5"], "}".
  split; [reflexivity|]. split; [sched_open "" "day" " {"|]. split; [|closing "" "" ""].
  apply sb_noise; [exists "  ", " by the hour"; split; [apply blank_b; reflexivity|right; reflexivity]|].
  apply sb_cron; [cron "  " ["*"; "0-12"; "*"; "*"; "*"] ";" ""|].
  apply sb_cron; [cron "  " ["*"; "13-18"; "*"; "*"; "*"] ";" "// hot"|].
  apply sb_cron; [cron "  " ["*"; "*"; "*"; "*"; "*"] "" ""|]. apply sb_nil.
Qed.
Lemma june_one : one_schedule june june_rows.
Proof.
  exists "schedule june {", ["  * 0-12 * 6 * 0.1;"; "  {"; "    * 13-18 * 6 * 0.2;"; "  };"; "  * 19-23 * 6 * 0.3;"], "}".
  split; [reflexivity|]. split; [sched_open "" "june" " {"|]. split; [|closing "" "" ""].
  apply sb_cron; [cron "  " ["*"; "0-12"; "*"; "6"; "*"] ";" ""|].
  apply (@sb_block "  {" [("* 13-18 * 6 *", "0.2")] ["    * 13-18 * 6 * 0.2;"] "  };" [("* 19-23 * 6 *", "0.3")] ["  * 19-23 * 6 * 0.3;"]).
  - opening "  " "" "".
  - apply sb_cron; [cron "    " ["*"; "13-18"; "*"; "6"; "*"] ";" ""|]. apply sb_nil.
  - closing "  " ";" "".
  - apply sb_cron; [cron "  " ["*"; "19-23"; "*"; "6"; "*"] ";" ""|]. apply sb_nil.
Qed.
Lemma night_one : one_schedule night night_rows.
Proof.
  exists "schedule day {", ["  * 0-5 * * * 0.7;"], "};".
  split; [reflexivity|]. split; [sched_open "" "day" " {"|]. split; [|closing "" ";" ""].
  apply sb_cron; [cron "  " ["*"; "0-5"; "*"; "*"; "*"] ";" ""|]. apply sb_nil.
Qed.
Definition sched_rows := (n1_rows ++ day_rows ++ "clock {" :: n2_rows ++ june_rows ++ night_rows ++ l1_rows)%list.
Lemma sched_file : full_file [n1; n2; l1] [day; june; night] sched_rows.
Proof.
  apply (full_object n1_object). apply (full_schedule day_one). apply full_outside; [split; not_starts|].
  apply (full_object n2_object). apply (full_schedule june_one). apply (full_schedule night_one).
  rewrite <- (app_nil_r l1_rows). apply (full_object l1_object). apply full_nil.
Qed.
Definition sched_values := [("day", Some "0.9"); ("june", Some "0.2"); ("day", None)].
Lemma sched_valued : valued demo_hits [day; june; night] sched_values.
Proof.
  repeat apply Forall2_cons; try apply Forall2_nil; (split; [reflexivity|]).
  - apply picks_miss; [reflexivity|]. apply picks_hit. reflexivity.
  - apply picks_miss; [reflexivity|]. apply picks_hit. reflexivity.
  - apply picks_miss; [reflexivity|]. apply picks_none.
Qed.
Lemma sched_no_include : Forall (fun r => forall t, r <> "#include" ++ t) sched_rows.
Proof. repeat (constructor; [intros t; discriminate|]). constructor. Qed.
Lemma sched_included : included (demo_files sched_rows []) sched_rows [].
Proof. apply included_none. exact sched_no_include. Qed.

(** a schedule with an impossible minute *)
Definition bad_rows := ["  * 0-12 * * * 0.4;"; "  61 * * * * 0.9;"].
Lemma bad_body : sched_body [("* 0-12 * * *", "0.4"); ("61 * * * *", "0.9")] bad_rows.
Proof.
  apply sb_cron; [cron "  " ["*"; "0-12"; "*"; "*"; "*"] ";" ""|]. apply sb_cron; [cron "  " ["61"; "*"; "*"; "*"; "*"] ";" ""|]. apply sb_nil.
Qed.
Lemma bad_breaks : breaks demo_hits ValueError [("* 0-12 * * *", "0.4"); ("61 * * * *", "0.9")].
Proof. apply breaks_later; [reflexivity|]. apply breaks_here. reflexivity. Qed.
Lemma bad_open : schedule_row "s" "schedule s {".
Proof. sched_open "" "s" " {". Qed.

(** braces on rows of their own *)
Definition own1_rows := ["schedule a"; "{"; "  * 0-12 * * * 0.4;"; "}"].
Definition own2_rows := ["schedule b"; "{"; "  * * * * * 0.6;"; "}"].
Lemma own1_braced : braced_schedule ("a", [("* 0-12 * * *", "0.4")]) own1_rows.
Proof.
  exists "schedule a", "{", ["  * 0-12 * * * 0.4;"], "}". split; [reflexivity|]. split; [sched_open "" "a" ""|]. split; [opening "" "" ""|].
  split; [|closing "" "" ""]. apply sb_cron; [cron "  " ["*"; "0-12"; "*"; "*"; "*"] ";" ""|]. apply sb_nil.
Qed.
Lemma own2_braced : braced_schedule ("b", [("* * * * *", "0.6")]) own2_rows.
Proof.
  exists "schedule b", "{", ["  * * * * * 0.6;"], "}". split; [reflexivity|]. split; [sched_open "" "b" ""|]. split; [opening "" "" ""|].
  split; [|closing "" "" ""]. apply sb_cron; [cron "  " ["*"; "*"; "*"; "*"; "*"] ";" ""|]. apply sb_nil.
Qed.

(** a schedule with two named blocks *)
Definition weekday_rows := ["  * 0-12 * * * 0.4;"].
Definition named_rest := ["weekend {"; "  * * * * * 0.8;"; "}"; "}"].
Definition named_rows := ("schedule s {" :: ([] ++ "weekdays {" :: weekday_rows) ++ "}" :: named_rest)%list.
Lemma weekday_body : sched_body [("* 0-12 * * *", "0.4")] weekday_rows.
Proof. apply sb_cron; [cron "  " ["*"; "0-12"; "*"; "*"; "*"] ";" ""|]. apply sb_nil. Qed.
Lemma weekdays_short : short_row "weekdays {".
Proof.
  exists ["weekdays"; "{"]. split; [|cbn; lia]. refine (@words_b "" "weekdays" ["{"] "" ("" ++ "") eq_refl eq_refl _ eq_refl eq_refl). tl "" "".
Qed.
Lemma plain_close : block_close "}".
Proof. closing "" "" "". Qed.
Lemma rest_outside : Forall outside named_rest.
Proof.
  apply Forall_cons; [split; not_starts|]. apply Forall_cons; [|apply Forall_cons; [split; not_starts|apply Forall_cons; [split; not_starts|apply Forall_nil]]].
  split; (intros (w & t & B & E & _); destruct w as [|d1 [|d2 [|d3 w]]]; try discriminate E; injection E as <- <- <- _;
    apply blank_cons in B; destruct B as [_ B]; apply blank_cons in B; destruct B as [_ B]; apply blank_cons in B; destruct B as [B _];
    unfold white in B; vm_compute in B; lia).
Qed.
Lemma named_included : included (demo_files named_rows []) named_rows [].
Proof. apply included_none. repeat (constructor; [intros t; discriminate|]). constructor. Qed.
Lemma named_picks : picks demo_hits ([] ++ [("* 0-12 * * *", "0.4")]) None.
Proof. apply picks_miss; [reflexivity|apply picks_none]. Qed.

(** a comment behind the semicolon *)
Lemma late_row : late_comment_row "* * * * *" "0.5" "  * * * * * 0.5; // all day".
Proof.
  exists ["*"; "*"; "*"; "*"; "*"], "  ", "* * * * * 0.5", " ", " all day". split; [reflexivity|]. split; [apply blank_b; reflexivity|].
  split; [exact (concat_spaced "*" ["*"; "*"; "*"; "*"; "0.5"])|]. split; [apply blank_b; reflexivity|]. split; [discriminate|]. split.
  - repeat (constructor; [apply token_test_ok; reflexivity|]). constructor.
  - split; [cbn; lia|]. split; [reflexivity|]. intros k l E. injection E as <- _. apply head_test_ok. reflexivity.
Qed.
