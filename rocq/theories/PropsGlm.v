(** The GridLAB-D text reader: C90 - C96. *)
From Coq Require Import String Ascii List Bool ZArith.
From Verif Require Import PyExc GlmText SpecGlm GlmFinal GlmWitness.
Import ListNotations.
Local Open Scope string_scope.

Notation RS := read_rows.

(** C90 *)
Theorem C90_objects_read : forall schema over12 mega cron files input rows os,
  files input = Some rows -> Forall (fun r => forall t, r <> "#include" ++ t) rows ->
  glm_file os rows -> Forall (legal schema) os ->
  exists objs, read_glm schema over12 mega cron files input = Ok (objs, []) /\ dictionary os (found objs)
    /\ (NoDup (map (fun o => name_of (snd o)) os) ->
        map (fun o => Some (fst o)) objs = map (fun o => name_of (snd o)) os).
Proof. exact read_objects. Qed.
Print Assumptions C90_objects_read.
Example C90_nonvacuous :
  glm_file [n1; n2; l1] demo_rows /\ Forall (legal demo_schema) [n1; n2; l1]
  /\ Forall (fun r => forall t, r <> "#include" ++ t) demo_rows
  /\ read_glm demo_schema no_conv no_conv no_cron (demo_files demo_rows []) "main.glm"
     = Ok ([("n1", {| go_class := "node"; go_attrs := [("name", "n1"); ("phases", "ABCN"); ("nominal_voltage", "7200")] |});
            ("node:2", {| go_class := "node"; go_attrs := [("name", "node:2"); ("phases", "AN")] |});
            ("n1-node:2", {| go_class := "overhead_line";
                             go_attrs := [("from", "n1"); ("to", "node:2"); ("length", "100"); ("name", "n1-node:2")] |})], []).
Proof. split; [exact demo_file|split; [exact demo_legal|split; [exact demo_no_include|vm_compute; reflexivity]]]. Qed.

(** C91 *)
Theorem C91_noise : forall schema over12 mega cron a b, noisier a b ->
  forall s, RS schema over12 mega cron b s = RS schema over12 mega cron a s.
Proof. exact noisier_same. Qed.
Print Assumptions C91_noise.
Theorem C91_indentation : forall schema over12 mega cron a b, Forall2 reindented a b ->
  forall s, RS schema over12 mega cron b s = RS schema over12 mega cron a s.
Proof. exact reindented_same. Qed.
Print Assumptions C91_indentation.
Theorem C91_trailing_comment : forall schema over12 mega cron a b, Forall2 commented a b ->
  Forall (fun r => ~ starts_as "schedule" r) a ->
  forall s, g_sched s = None -> RS schema over12 mega cron b s = RS schema over12 mega cron a s.
Proof. exact commented_same. Qed.
Print Assumptions C91_trailing_comment.
Example C91_nonvacuous :
  noisier ["object node {"; "name a;"; "}"] ["// top"; "object node {"; "   "; "name a;"; "}"]
  /\ reindented "  name a;" "name a; " /\ commented "}" "}//end" /\ commented "name a;" "name a;  // n".
Proof.
  assert (S : forall s, forallb is_ws (chars s) = true -> blank s) by exact blank_b.
  split; [|split; [|split]].
  - apply noisier_add; [exists "", " top"; split; [apply S; reflexivity|right; reflexivity]|]. apply noisier_keep.
    apply noisier_add; [exists "   ", ""; split; [apply S; reflexivity|left; reflexivity]|]. do 2 apply noisier_keep. apply noisier_nil.
  - exists "name a;", "  ", "", "", " ". repeat split; apply S; reflexivity.
  - right. exists "}", "", "", "end". repeat split; try (apply S; reflexivity).
    + apply GlmRowProofs.no_comment_iff. reflexivity.
    + apply (@no_slash_b "/"). reflexivity.
    + left. split; [reflexivity|]. exists "", "}"%char. split; [reflexivity|]. apply GlmBase.nw. tauto.
  - right. exists "name a;", "", "  ", " n". repeat split; try (apply S; reflexivity).
    + apply GlmRowProofs.no_comment_iff. reflexivity.
    + apply (@no_slash_b "/"). reflexivity.
    + right. intros a y B E. assert (I : In "}"%char (chars "name a;")).
      { rewrite E, !GlmBase.chars_app. apply in_or_app. right. left. reflexivity. }
      cbn in I. intuition discriminate.
Qed.

(** C92 *)
Theorem C92_unclosed_object : forall schema over12 mega cron os1 rows1 cls kvs rows2 os3 rows3 s',
  glm_file os1 rows1 -> Forall (legal schema) os1 -> unclosed_object cls kvs rows2 -> ~ In cls unused_classes ->
  objects_only os3 rows3 -> RS schema over12 mega cron (rows1 ++ rows2 ++ rows3) g_start = Ok s' ->
  dictionary os1 (found (g_objs s')).
Proof. exact unclosed_lost. Qed.
Print Assumptions C92_unclosed_object.
(** a comment after the closing brace of n1: neither n1 nor node:2 is in the network *)
Example C92_nonvacuous :
  unclosed_object "node" [("name", "n1")] n1_unclosed /\ objects_only [n2] n2_rows
  /\ read_glm demo_schema no_conv no_conv no_cron (demo_files (n1_unclosed ++ n2_rows) []) "main.glm" = Ok ([], []).
Proof.
  split; [exact n1_unclosed_is|split].
  - rewrite <- (app_nil_r n2_rows). apply (@oo_object (fst n2) (snd n2)); [exact n2_object|apply oo_nil].
  - vm_compute. reflexivity.
Qed.

(** C93 *)
Theorem C93_nested_merged : forall schema over12 mega cron os1 rows1 cls kvs rows2 os3 rows3,
  glm_file os1 rows1 -> nesting_object cls kvs rows2 -> glm_file os3 rows3 ->
  Forall (legal schema) (os1 ++ (cls, kvs) :: os3) ->
  exists s', RS schema over12 mega cron (rows1 ++ rows2 ++ rows3) g_start = Ok s'
    /\ dictionary (os1 ++ (cls, kvs) :: os3) (found (g_objs s')).
Proof. exact nested_merged. Qed.
Print Assumptions C93_nested_merged.
(** the meter m1 with a node ld1 nested in it becomes one meter named ld1 *)
Example C93_nonvacuous :
  nesting_object "meter" [("name", "m1"); ("phases", "AN"); ("name", "ld1"); ("nominal_voltage", "120")] nest_rows
  /\ Forall (legal demo_schema) ([] ++ ("meter", [("name", "m1"); ("phases", "AN"); ("name", "ld1"); ("nominal_voltage", "120")]) :: [])
  /\ read_glm demo_schema no_conv no_conv no_cron (demo_files nest_rows []) "main.glm"
     = Ok ([("ld1", {| go_class := "meter"; go_attrs := [("name", "ld1"); ("phases", "AN"); ("nominal_voltage", "120")] |})], []).
Proof. split; [exact nest_is|split; [exact nest_legal|vm_compute; reflexivity]]. Qed.

(** C94 *)
Theorem C94_unit_dropped : forall schema over12 mega cron a b r r' k v u s,
  unit_row k v u r -> attr_row k v r' -> u <> "in" -> u <> "MVAr" -> g_sched s = None ->
  Forall (fun r => ~ starts_as "schedule" r) a ->
  RS schema over12 mega cron (a ++ r :: b) s = RS schema over12 mega cron (a ++ r' :: b) s.
Proof. exact unit_same. Qed.
Print Assumptions C94_unit_dropped.
(** "length 1 mile;" (test/data/three_phase/case_300/node.glm:3422) is "length 1;", that is one foot *)
Example C94_nonvacuous : unit_row "length" "1" "mile" "	length 1 mile;" /\ attr_row "length" "1" "length 1;".
Proof. split; [exact mile_row|exact one_row]. Qed.

(** C95 *)
Theorem C95_include : forall schema over12 mega cron files input rows more os1 os2,
  files input = Some rows -> included files rows more -> glm_file os1 rows -> glm_file os2 more ->
  Forall (legal schema) (os1 ++ os2) ->
  exists objs, read_glm schema over12 mega cron files input = Ok (objs, []) /\ dictionary (os1 ++ os2) (found objs)
    /\ (NoDup (map (fun o => name_of (snd o)) (os1 ++ os2)) ->
        map (fun o => Some (fst o)) objs = map (fun o => name_of (snd o)) (os1 ++ os2)).
Proof. exact read_included. Qed.
Print Assumptions C95_include.
(** the #include row comes first, the included objects come last *)
Example C95_nonvacuous :
  included (demo_files main_rows n2_rows) main_rows n2_rows /\ glm_file [n1] main_rows /\ glm_file [n2] n2_rows
  /\ Forall (legal demo_schema) ([n1] ++ [n2])
  /\ match read_glm demo_schema no_conv no_conv no_cron (demo_files main_rows n2_rows) "main.glm" with
     | Ok (objs, _) => map fst objs = ["n1"; "node:2"]
     | Err _ => False
     end.
Proof.
  split; [exact main_included|split; [exact main_file|split; [exact more_file|split; [exact two_legal|vm_compute; reflexivity]]]].
Qed.

(** C96 *)
Theorem C96_unused_class : forall schema over12 mega cron os1 rows1 cls kvs rows2 rows3,
  glm_file os1 rows1 -> Forall (legal schema) os1 -> one_object cls kvs rows2 -> In cls unused_classes ->
  RS schema over12 mega cron (rows1 ++ rows2 ++ rows3) g_start = RS schema over12 mega cron (rows1 ++ rows3) g_start.
Proof. exact unused_skipped_file. Qed.
Print Assumptions C96_unused_class.
Theorem C96_unknown_class : forall schema over12 mega cron os1 rows1 cls kvs r rows3,
  glm_file os1 rows1 -> Forall (legal schema) os1 -> open_row cls kvs r -> ~ In cls unused_classes -> schema cls = None ->
  RS schema over12 mega cron (rows1 ++ r :: rows3) g_start = Err AttributeError.
Proof. exact unknown_class. Qed.
Print Assumptions C96_unknown_class.
Theorem C96_unknown_attribute : forall schema over12 mega cron os1 rows1 cls kvs0 r0 kvs body k v r rows3 ps,
  glm_file os1 rows1 -> Forall (legal schema) os1 -> open_row cls kvs0 r0 -> ~ In cls unused_classes -> schema cls = Some ps ->
  In "name" ps -> attrs kvs body -> incl (map fst kvs) ps -> attr_row k v r -> ~ In k ps ->
  RS schema over12 mega cron (rows1 ++ (r0 :: body) ++ r :: rows3) g_start = Err AttributeError.
Proof. exact unknown_attribute. Qed.
Print Assumptions C96_unknown_attribute.
Theorem C96_nameless : forall schema over12 mega cron os1 rows1 cls kvs rows2 rows3 ps,
  glm_file os1 rows1 -> Forall (legal schema) os1 -> one_object cls kvs rows2 -> ~ In cls unused_classes ->
  schema cls = Some ps -> incl (map fst kvs) ps -> name_of kvs = None ->
  RS schema over12 mega cron (rows1 ++ rows2 ++ rows3) g_start = Err AttributeError.
Proof. exact nameless. Qed.
Print Assumptions C96_nameless.
Example C96_nonvacuous :
  one_object "house" [("name", "h1")] house_rows
  /\ read_glm demo_schema no_conv no_conv no_cron (demo_files house_rows []) "main.glm" = Ok ([], [])
  /\ read_glm demo_schema no_conv no_conv no_cron (demo_files ["object windturbine {"; "}"] []) "main.glm" = Err AttributeError
  /\ read_glm demo_schema no_conv no_conv no_cron (demo_files ["object node {"; " wheels 4;"; "}"] []) "main.glm" = Err AttributeError
  /\ read_glm demo_schema no_conv no_conv no_cron (demo_files ["object node {"; " phases A;"; "}"] []) "main.glm" = Err AttributeError.
Proof. split; [exact house_object|]. repeat split; vm_compute; reflexivity. Qed.
