(** Concrete names, texts and networks. *)
From Coq Require Import Reals ZArith String Ascii List Bool Lia Lra Arith.
From Verif Require Import PyExc SpecUnbalanced Components Devices UnbalancedLine GlmText SpecGlm GlmBase GlmRowProofs LineImpedance ThreePhase GlmReader RawParser RawText SpecReader SpecReader2 SpecFile FileWitness Loader SpecLoader LoaderProofs.
From Verif Require UnbalancedWitness ThreeWitness ReaderWitness ReaderWitness3 RawTextWitness GlmWitness SpecThreePhase.
Import GlmWitness.
Import ListNotations.
Local Open Scope string_scope.

Definition feed_schema (c : string) : option (list string) :=
  if String.eqb c "switch" then Some ["name"; "phases"; "from"; "to"; "phase_A_state"; "phase_B_state"] else demo_schema c.
Definition feed_tools : tools :=
  Tools feed_schema no_conv no_conv no_cron feed_prims UnbalancedWitness.half_inv false RawTextWitness.wint RawTextWitness.wfloat.
(** one text, and the same objects spread over two files *)
Definition ra := ["object node {"; " name a;"; " phases ABCN;"; " bustype SWING;"; " nominal_voltage 2401;"; "}"].
Definition rb := ["object node {"; " name b;"; " phases ABCN;"; " nominal_voltage 2401;"; "}"].
Definition rs := ["object switch {"; " name s;"; " phases AB;"; " from a;"; " to b;"; " phase_A_state OPEN;"; " phase_B_state CLOSED;"; "}"].
Definition rb2 := ["object node { // the other end"; "name ""b"""; ""; "  phases  ABCN ; "; "nominal_voltage 2401 // volts"; "};"].
Definition da : described := ("node", [("name", "a"); ("phases", "ABCN"); ("bustype", "SWING"); ("nominal_voltage", "2401")]).
Definition db : described := ("node", [("name", "b"); ("phases", "ABCN"); ("nominal_voltage", "2401")]).
Definition ds : described := ("switch", [("name", "s"); ("phases", "AB"); ("from", "a"); ("to", "b"); ("phase_A_state", "OPEN"); ("phase_B_state", "CLOSED")]).
Ltac plain q := apply attrs_attr; [attr " " " " q "" ";" |].
Ltac closed := exists "", ""; split; [reflexivity | split; [apply blank_nil | left; apply blank_nil]].
Lemma a_object : one_object (fst da) (snd da) ra.
Proof.
  exists "object node {", [], (snd da), [" name a;"; " phases ABCN;"; " bustype SWING;"; " nominal_voltage 2401;"], "}".
  split; [reflexivity |]. split; [reflexivity |]. split; [opened "node" " {"; left; split; reflexivity |]. split; [| closed].
  plain "a". plain "ABCN". plain "SWING". plain "2401". apply attrs_nil.
Qed.
Lemma b_object : one_object (fst db) (snd db) rb.
Proof.
  exists "object node {", [], (snd db), [" name b;"; " phases ABCN;"; " nominal_voltage 2401;"], "}".
  split; [reflexivity |]. split; [reflexivity |]. split; [opened "node" " {"; left; split; reflexivity |]. split; [| closed].
  plain "b". plain "ABCN". plain "2401". apply attrs_nil.
Qed.
Lemma b2_object : one_object (fst db) (snd db) rb2.
Proof.
  exists "object node { // the other end", [], (snd db), ["name ""b"""; ""; "  phases  ABCN ; "; "nominal_voltage 2401 // volts"], "};".
  split; [reflexivity |]. split; [reflexivity |]. split; [opened "node" " { // the other end"; left; split; reflexivity |]. split.
  - apply attrs_attr; [attr "" " " """b""" "" "" |]. apply attrs_noise; [exists "", ""; split; [apply blank_nil | left; reflexivity] |].
    apply attrs_attr; [attr "  " "  " "ABCN" " " "; " |]. apply attrs_attr; [attr "" " " "2401" " " "// volts" |]. apply attrs_nil.
  - exists "", ";". split; [reflexivity | split; [apply blank_nil | right; fin]].
Qed.
Lemma s_object : one_object (fst ds) (snd ds) rs.
Proof.
  exists "object switch {", [], (snd ds), [" name s;"; " phases AB;"; " from a;"; " to b;"; " phase_A_state OPEN;"; " phase_B_state CLOSED;"], "}".
  split; [reflexivity |]. split; [reflexivity |]. split; [opened "switch" " {"; left; split; reflexivity |]. split; [| closed].
  plain "s". plain "AB". plain "a". plain "b". plain "OPEN". plain "CLOSED". apply attrs_nil.
Qed.
Definition inc := "#include ""more.glm""".
Definition disk (f : string) : option (list string) :=
  if String.eqb f "/cases/feeder.glm" then Some (ra ++ rb ++ rs)%list
  else if String.eqb f "split.glm" then Some (inc :: ra)%list
  else if String.eqb f "more.glm" then Some ("// more" :: rb2 ++ rs)%list
  else if String.eqb f "/data/case.RAW" then Some RawTextWitness.wfile
  else if String.eqb f "/data.glm/case.RAW" then Some RawTextWitness.wfile
  else if String.eqb f "/data/case.raw" then Some RawTextWitness.wfile
  else None.
Definition site : string := "https://example.org/grids/feeder.glm".
Definition desk : world :=
  World disk (fun u => if String.eqb u site then Some 200%Z else None) (fun u => if String.eqb u site then Some (ra ++ rb ++ rs)%list else None) "/tmp".
Lemma no_includes : forall rows file, forallb (fun r => negb (prefix "#include" r)) rows = true -> included file rows [].
Proof.
  intros rows file H. induction rows as [| r rows IH]; [constructor |]. cbn [forallb] in H. apply andb_true_iff in H. destruct H as [H1 H2].
  apply inc_other; [| now apply IH]. intros t ->. assert (X : prefix "#include" ("#include" ++ t) = true) by (apply prefix_iff; now exists t). now rewrite X in H1.
Qed.
Lemma one_text : describes disk "/cases/feeder.glm" [da; db; ds].
Proof.
  exists (ra ++ rb ++ rs)%list, [], [da; db; ds], []. split; [reflexivity |]. split; [now apply no_includes |]. split; [| split; [constructor | reflexivity]].
  apply (file_object a_object). apply (file_object b_object). rewrite <- (app_nil_r rs). apply (file_object s_object). apply file_nil.
Qed.
Lemma two_texts : describes disk "split.glm" [da; db; ds].
Proof.
  exists (inc :: ra)%list, ("// more" :: rb2 ++ rs)%list, [da], [db; ds]. split; [reflexivity |]. split.
  { rewrite <- (app_nil_r ("// more" :: rb2 ++ rs)%list). apply inc_file with (f := "more.glm"); [| reflexivity | now apply no_includes].
    exists " ", "", "". split; [reflexivity |]. split; [apply blank_b; reflexivity |]. split; [discriminate |]. split; [now left |]. split; [now left |].
    split; [apply word_b; reflexivity |]. split; apply free_b; reflexivity. }
  split; [| split; [| reflexivity]].
  - apply file_outside; [split; not_starts |]. rewrite <- (app_nil_r ra). apply (file_object a_object). apply file_nil.
  - apply file_outside; [split; not_starts |]. apply (file_object b2_object). rewrite <- (app_nil_r rs). apply (file_object s_object). apply file_nil.
Qed.
Lemma feed_legal : Forall (legal feed_schema) [da; db; ds].
Proof.
  repeat constructor.
  - cbn. intuition discriminate.
  - exists node_props. split; [reflexivity | split; [left; reflexivity | incl_tac]].
  - discriminate.
  - cbn. intuition discriminate.
  - exists node_props. split; [reflexivity | split; [left; reflexivity | incl_tac]].
  - discriminate.
  - cbn. intuition discriminate.
  - eexists. split; [reflexivity | split; [left; reflexivity | incl_tac]].
  - discriminate.
Qed.
Lemma core_of : forall (c : string) (l : list (string * string)) (ph : string), dget "phases" l = Some ph -> ph <> "" -> forallb plain_char (chars ph) = true -> wrapped ph ph.
Proof.
  intros c l ph S N P. destruct (@core_text c l ph S N P) as (t & Ht & Hw). apply says_get in Ht. cbn in Ht. rewrite S in Ht. now injection Ht as <-.
Qed.
Lemma feed_text : clean_text [da; db; ds].
Proof.
  split; [repeat constructor; cbn; intuition discriminate |].
  assert (W1 : wrapped "ABCN" "ABCN") by (apply (@core_of "x" [("phases", "ABCN")]); [reflexivity | discriminate | reflexivity]).
  assert (W2 : wrapped "AB" "AB") by (apply (@core_of "x" [("phases", "AB")]); [reflexivity | discriminate | reflexivity]).
  apply Forall_cons; [| apply Forall_cons; [| apply Forall_cons; [| apply Forall_nil]]]; right; [exists "ABCN", "ABCN" | exists "ABCN", "ABCN" | exists "AB", "AB"]; (split; [reflexivity |]); (split; [assumption |]);
    (split; [apply nodupb_ok; reflexivity | repeat constructor; cbn; tauto]).
Qed.
Lemma feed_glm : told_format "/cases/feeder.glm" GLM /\ told_format "split.glm" GLM.
Proof. split; [exists "/cases/feeder", "" | exists "split", ""]; reflexivity. Qed.
Definition switched (n : net) : Prop := map ts_open (nt_switches n) = [true; false] /\ map sk_v (nt_slack n) = [2401; 2401; 2401]%R.
Definition feed_objs : list (string * gobj) :=
  [("a", ReaderWitness.obj "node" (snd da)); ("b", ReaderWitness.obj "node" (snd db)); ("s", ReaderWitness.obj "switch" (snd ds))].
Lemma feed_read : read_glm feed_schema no_conv no_conv no_cron disk "/cases/feeder.glm" = Ok (feed_objs, []).
Proof. lazy. reflexivity. Qed.
Lemma feed_parses : loads feed_prims UnbalancedWitness.half_inv feed_objs switched.
Proof. eexists. split; [ReaderWitness.run; reflexivity |]. go Q. intros <-. eexists. split; [reflexivity |]. split; reflexivity. Qed.
Lemma feed_loads : exists n, from_file feed_tools desk "/cases/feeder.glm" = Ok (Three n) /\ switched n.
Proof.
  destruct feed_parses as (ms & S & n & P & H). exists n. split; [| exact H].
  apply (proj1 (@local_glm feed_tools desk "/cases/feeder.glm" _ eq_refl (proj1 feed_glm))). exists feed_objs, [], ms. split; [exact feed_read |]. split; assumption.
Qed.
Lemma split_loads : exists n, from_file feed_tools desk "split.glm" = Ok (Three n) /\ switched n.
Proof.
  destruct feed_loads as (n & E & H). exists n. split; [| exact H].
  rewrite <- E. symmetry. exact (@same_text feed_tools desk desk _ _ _ one_text two_texts feed_legal (proj1 feed_glm) (proj2 feed_glm)).
Qed.
Lemma site_web : web site /\ last_of site "feeder.glm".
Proof. split; [exists "example.org/grids/feeder.glm"; now right |]. exists "https://example.org/grids". split; [reflexivity | apply free_b; reflexivity]. Qed.
Lemma site_loads : exists n, from_file feed_tools desk site = Ok (Three n) /\ switched n.
Proof.
  destruct feed_loads as (n & E & H). exists n. split; [| exact H]. apply (@web_file feed_tools desk site eq_refl (proj1 site_web)). split; [reflexivity |].
  exists "feeder.glm", "/tmp/feeder.glm", (ra ++ rb ++ rs)%list. split; [exact (proj2 site_web) |]. split; [repeat split; discriminate |].
  split; [right; split; [discriminate |]; split; [| reflexivity]; intros (a & Q); apply (f_equal (fun s => GlmText.ends_with "/" s)) in Q; rewrite ends_app in Q by discriminate; discriminate Q |].
  split; [reflexivity |]. rewrite <- E. symmetry.
  apply (@same_text feed_tools desk (written desk "/tmp/feeder.glm" (ra ++ rb ++ rs)) _ _ _ one_text); [| exact feed_legal | exact (proj1 feed_glm) | exists "/tmp/feeder", ""; reflexivity].
  exists (ra ++ rb ++ rs)%list, [], [da; db; ds], []. split; [reflexivity |]. split; [now apply no_includes |]. split; [| split; [constructor | reflexivity]].
  apply (file_object a_object). apply (file_object b_object). rewrite <- (app_nil_r rs). apply (file_object s_object). apply file_nil.
Qed.
(** *** where the name misleads *)
Lemma raw_told : told_format "/data/case.RAW" RAW.
Proof. split; [apply LineFile.contains_not; reflexivity | apply LineFile.contains_part; reflexivity]. Qed.
Lemma raw_loads : exists o, from_file feed_tools desk "/data/case.RAW" = Ok (Single o).
Proof.
  destruct RawTextWitness.wfile_loads as (o & H). exists o. now apply (proj1 (@local_raw feed_tools desk "/data/case.RAW" _ eq_refl raw_told)).
Qed.
Lemma raw_as_glm : exists n, from_file feed_tools desk "/data.glm/case.RAW" = Ok (Three n) /\ nt_buses n = [] /\ nt_slack n = [].
Proof.
  assert (G : told_format "/data.glm/case.RAW" GLM) by (exists "/data", "/case.RAW"; reflexivity).
  eexists. split; [apply (proj1 (@local_glm feed_tools desk "/data.glm/case.RAW" _ eq_refl G)); exists [], [], []; split; [lazy; reflexivity |]; split; reflexivity |].
  split; reflexivity.
Qed.
Lemma raw_small : w_file desk "/data/case.raw" = Some RawTextWitness.wfile /\ from_file feed_tools desk "/data/case.raw" = Err Raised.
Proof. split; [reflexivity |]. apply (@local_unknown feed_tools desk "/data/case.raw" _ eq_refl). split; apply LineFile.contains_not; reflexivity. Qed.
