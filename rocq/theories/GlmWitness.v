(** Small GridLAB-D files for the examples. *)
From Coq Require Import String Ascii List Bool Arith Lia ZArith.
From Verif Require Import PyExc GlmText SpecGlm GlmBase GlmRowProofs GlmProofs GlmFinal.
Import ListNotations.
Local Open Scope string_scope.
Set Implicit Arguments.

Lemma blank_b : forall s, forallb is_ws (chars s) = true -> blank s.
Proof. intros s H c I. rewrite forallb_forall in H. apply is_ws_iff, H, I. Qed.
Lemma word_b : forall s, negb (String.eqb s "") && forallb (fun c => negb (is_ws c)) (chars s) = true -> word s.
Proof.
  intros s H. apply andb_prop in H. destruct H as [H1 H2]. apply negb_true_iff, String.eqb_neq in H1. split; [exact H1|].
  rewrite forallb_forall in H2. intros c I. specialize (H2 c I). apply negb_true_iff in H2. apply is_ws_false. exact H2.
Qed.
Lemma free_b : forall c s, forallb (fun d => negb (Ascii.eqb d c)) (chars s) = true -> free c s.
Proof. intros c s H I. rewrite forallb_forall in H. specialize (H c I). rewrite Ascii.eqb_refl in H. discriminate. Qed.
Lemma no_slash_b : forall c s, ends_with c s = false -> forall a, s <> a ++ String c "".
Proof. intros c s H a ->. rewrite ends_app in H by discriminate. cbn in H. rewrite Ascii.eqb_refl in H. discriminate. Qed.
Lemma token_b : forall s, negb (String.eqb s "") && forallb (fun c => negb (is_ws c)) (chars s) = true ->
  forallb (fun d => negb (Ascii.eqb d ";")) (chars s) = true -> forallb (fun d => negb (Ascii.eqb d "}")) (chars s) = true ->
  cut_comment s = s -> ends_with "/" s = false -> token s.
Proof.
  intros s H1 H2 H3 H4 H5. split; [apply word_b; exact H1|]. split; [apply free_b; exact H2|]. split; [apply free_b; exact H3|].
  split; [apply no_comment_iff; exact H4|]. apply no_slash_b. exact H5.
Qed.
Lemma attr_row_b : forall w1 k w2 q x t v, forallb is_ws (chars w1) = true -> forallb is_ws (chars w2) = true -> w2 <> "" ->
  forallb is_ws (chars x) = true -> ending t -> token k -> k <> "object" -> k <> "schedule" -> token q -> unquote q = v ->
  attr_row k v (w1 ++ k ++ w2 ++ q ++ x ++ t).
Proof.
  intros w1 k w2 q x t v H1 H2 N Hx T Tk No Ns Tq U. exists w1, w2, q, x, t.
  repeat split; try (apply blank_b; assumption); try assumption; try apply Tk; try apply Tq.
  rewrite <- U. clear. unfold unquoted. induction q as [|c q IH]; [reflexivity|]. cbn [unquote chars list_ascii_of_string filter].
  destruct (Ascii.eqb c """"); cbn [negb]; [exact IH|]. cbn. f_equal. exact IH.
Qed.
Ltac tok := apply token_b; reflexivity.
Ltac fin := first [left; reflexivity | right; eexists; left; reflexivity | right; eexists; right; reflexivity].
Ltac attr w1 w2 q x t := 
  match goal with |- attr_row ?k ?v _ =>
    refine (@attr_row_b w1 k w2 q x t v eq_refl eq_refl _ eq_refl _ _ _ _ _ eq_refl);
    [discriminate|fin|tok|discriminate|discriminate|tok] end.
Ltac not_starts :=
  let w := fresh "w" in let t := fresh "t" in let B := fresh "B" in let E := fresh "E" in
  intros (w & t & B & E & _);
  destruct w as [|? w]; [discriminate E|injection E as <- _; apply blank_cons in B; destruct B as [B _]; unfold white in B; vm_compute in B; lia].

Definition node_props := ["name"; "phases"; "nominal_voltage"; "bustype"; "parent"].
Definition line_props := ["name"; "from"; "to"; "length"; "configuration"; "phases"].
Definition demo_schema (c : string) : option (list string) :=
  if String.eqb c "node" then Some node_props
  else if String.eqb c "overhead_line" then Some line_props
  else if String.eqb c "meter" then Some node_props
  else if String.eqb c "load" then Some ("constant_power_A" :: node_props)%list
  else None.
Definition no_conv (v : string) : pres string := Err ValueError.
Definition no_cron (c : string) : pres bool := Ok false.

Definition n1_rows := ["object node {"; "  name n1; // the source"; "  phases ""ABCN"";"; ""; "  nominal_voltage 7200;"; "}"].
Definition n1 : described := ("node", [("name", "n1"); ("phases", "ABCN"); ("nominal_voltage", "7200")]).
Definition n2_rows := ["object node:2 {"; "  phases ABCN"; "  phases AN;"; "};"].
Definition n2 : described := ("node", [("name", "node:2"); ("phases", "ABCN"); ("phases", "AN")]).
Definition l1_rows := ["object overhead_line {"; "  from n1;"; "  to node:2;"; "  length 100;"; "}"].
Definition l1 : described := ("overhead_line", [("from", "n1"); ("to", "node:2"); ("length", "100")]).
Definition demo_rows := (["module powerflow;"; "// a comment"] ++ n1_rows ++ n2_rows ++ l1_rows)%list.

Ltac opened h t := 
  match goal with |- open_row ?c ?kvs _ =>
    exists "", " ", t, h; repeat split;
    [apply blank_b; reflexivity|apply blank_b; reflexivity|discriminate
    |first [left; reflexivity | right; eexists; eexists; split; [reflexivity|apply is_ws_iff; reflexivity]]
    |discriminate|apply word_b; reflexivity|apply no_comment_iff; reflexivity|apply free_b; reflexivity|] end.
Lemma n1_object : one_object (fst n1) (snd n1) n1_rows.
Proof.
  exists "object node {", [], (snd n1), ["  name n1; // the source"; "  phases ""ABCN"";"; ""; "  nominal_voltage 7200;"], "}".
  split; [reflexivity|]. split; [reflexivity|]. split; [opened "node" " {"; left; split; reflexivity|]. split.
  - apply attrs_attr; [attr "  " " " "n1" "" "; // the source"|]. apply attrs_attr; [attr "  " " " """ABCN""" "" ";"|].
    apply attrs_noise; [exists "", ""; split; [apply blank_nil|left; reflexivity]|].
    apply attrs_attr; [attr "  " " " "7200" "" ";"|]. apply attrs_nil.
  - exists "", "". split; [reflexivity|split; [apply blank_nil|left; apply blank_nil]].
Qed.
Lemma n2_object : one_object (fst n2) (snd n2) n2_rows.
Proof.
  exists "object node:2 {", [("name", "node:2")], [("phases", "ABCN"); ("phases", "AN")], ["  phases ABCN"; "  phases AN;"], "};".
  split; [reflexivity|]. split; [reflexivity|]. split.
  { opened "node:2" " {". right. exists "2". repeat split. apply free_b. reflexivity. } split.
  - apply attrs_attr; [attr "  " " " "ABCN" "" ""|]. apply attrs_attr; [attr "  " " " "AN" "" ";"|]. apply attrs_nil.
  - exists "", ";". split; [reflexivity|split; [apply blank_nil|right; fin]].
Qed.
Lemma l1_object : one_object (fst l1) (snd l1) l1_rows.
Proof.
  exists "object overhead_line {", [], (snd l1), ["  from n1;"; "  to node:2;"; "  length 100;"], "}".
  split; [reflexivity|]. split; [reflexivity|]. split; [opened "overhead_line" " {"; left; split; reflexivity|]. split.
  - apply attrs_attr; [attr "  " " " "n1" "" ";"|]. apply attrs_attr; [attr "  " " " "node:2" "" ";"|].
    apply attrs_attr; [attr "  " " " "100" "" ";"|]. apply attrs_nil.
  - exists "", "". split; [reflexivity|split; [apply blank_nil|left; apply blank_nil]].
Qed.
Lemma demo_file : glm_file [n1; n2; l1] demo_rows.
Proof.
  apply file_outside; [split; not_starts|]. apply file_outside; [split; not_starts|].
  apply (file_object n1_object). apply (file_object n2_object). 
  rewrite <- (app_nil_r l1_rows). apply (file_object l1_object). apply file_nil.
Qed.
Ltac incl_tac := let x := fresh in let H := fresh in intros x H; cbn in H; cbn; tauto.
Lemma demo_legal : Forall (legal demo_schema) [n1; n2; l1].
Proof.
  repeat constructor.
  - cbn. intuition discriminate.
  - exists node_props. split; [reflexivity|split; [left; reflexivity|incl_tac]].
  - discriminate.
  - cbn. intuition discriminate.
  - exists node_props. split; [reflexivity|split; [left; reflexivity|incl_tac]].
  - discriminate.
  - cbn. intuition discriminate.
  - exists line_props. split; [reflexivity|split; [left; reflexivity|incl_tac]].
  - discriminate.
Qed.
Definition demo_files (main more : list string) (f : string) : option (list string) :=
  if String.eqb f "main.glm" then Some main else if String.eqb f "more.glm" then Some more else None.
Lemma demo_no_include : Forall (fun r => forall t, r <> "#include" ++ t) demo_rows.
Proof. repeat (constructor; [intros t; discriminate|]). constructor. Qed.

(** an object whose closing brace is followed by a blank and a comment *)
Definition n1_unclosed := ["object node {"; "  name n1;"; "} // end of n1"].
Lemma n1_unclosed_is : unclosed_object "node" [("name", "n1")] n1_unclosed.
Proof.
  exists "object node {", [], [("name", "n1")], ["  name n1;"], "} // end of n1".
  split; [reflexivity|]. split; [reflexivity|]. split; [opened "node" " {"; left; split; reflexivity|]. split.
  - apply attrs_attr; [attr "  " " " "n1" "" ";"|]. apply attrs_nil.
  - exists "", " ", " end of n1". repeat split; [apply blank_nil|apply blank_b; reflexivity|discriminate].
Qed.
(** a load nested in a meter *)
Definition nest_rows := ["object meter {"; "  name m1;"; "  phases AN;"; "  object node {"; "    name ld1;"; "    nominal_voltage 120;"; "  };"; "}"].
Lemma nest_is : nesting_object "meter" [("name", "m1"); ("phases", "AN"); ("name", "ld1"); ("nominal_voltage", "120")] nest_rows.
Proof.
  exists "object meter {", [], [("name", "m1"); ("phases", "AN"); ("name", "ld1"); ("nominal_voltage", "120")],
    ["  name m1;"; "  phases AN;"; "  object node {"; "    name ld1;"; "    nominal_voltage 120;"; "  };"], "}".
  split; [reflexivity|]. split; [reflexivity|]. split; [opened "meter" " {"; left; split; reflexivity|]. split.
  - apply nested_attr; [attr "  " " " "m1" "" ";"|]. apply nested_attr; [attr "  " " " "AN" "" ";"|].
    apply (@nested_object "node" "  object node {" [] [("name", "ld1"); ("nominal_voltage", "120")] ["    name ld1;"; "    nominal_voltage 120;"] "  };" [] []).
    + exists "  ", " ", " {", "node". repeat split; try (apply blank_b; reflexivity); try discriminate.
      * right. eexists. eexists. split; [reflexivity|apply is_ws_iff; reflexivity].
      * apply word_b. reflexivity.
      * apply no_comment_iff. reflexivity.
      * apply free_b. reflexivity.
      * left. split; reflexivity.
    + apply attrs_attr; [attr "    " " " "ld1" "" ";"|]. apply attrs_attr; [attr "    " " " "120" "" ";"|]. apply attrs_nil.
    + exists "  ", ";". split; [reflexivity|split; [apply blank_b; reflexivity|right; fin]].
    + apply nested_nil.
  - exists "", "". split; [reflexivity|split; [apply blank_nil|left; apply blank_nil]].
Qed.
Lemma nest_legal : Forall (legal demo_schema) ([] ++ ("meter", [("name", "m1"); ("phases", "AN"); ("name", "ld1"); ("nominal_voltage", "120")]) :: [])%list.
Proof.
  repeat constructor.
  - cbn. intuition discriminate.
  - exists node_props. split; [reflexivity|split; [left; reflexivity|incl_tac]].
  - discriminate.
Qed.
(** a length in miles *)
Lemma mile_row : unit_row "length" "1" "mile" "	length 1 mile;".
Proof.
  exists "	", " ", " ", "1", "", ";". repeat split; try (apply blank_b; reflexivity); try discriminate; try fin; try (apply word_b; reflexivity);
    try (apply free_b; reflexivity); try (apply no_comment_iff; reflexivity); try (apply no_slash_b; reflexivity).
Qed.
Lemma one_row : attr_row "length" "1" "length 1;".
Proof. attr "" " " "1" "" ";". Qed.

(** the two-file example *)
Definition main_rows := ("#include ""more.glm"";" :: n1_rows)%list.
Lemma main_include : include_row "more.glm" "#include ""more.glm"";".
Proof.
  exists " ", ";", "". repeat split; try (apply blank_b; reflexivity); try discriminate; try (right; reflexivity); try (left; reflexivity);
   try (apply free_b; reflexivity). intros c I. apply is_ws_false. revert c I. cbn. intros c I.
  repeat (destruct I as [<-|I]; [reflexivity|]). destruct I.
Qed.
Lemma main_included : included (demo_files main_rows n2_rows) main_rows n2_rows.
Proof.
  rewrite <- (app_nil_r n2_rows) at 2. apply (@inc_file _ "more.glm" n2_rows); [exact main_include|reflexivity|].
  repeat (apply inc_other; [intros t; discriminate|]). apply inc_nil.
Qed.
Lemma main_file : glm_file [n1] main_rows.
Proof.
  apply file_outside; [exact (sharp_outside main_include)|]. rewrite <- (app_nil_r n1_rows). apply (file_object n1_object). apply file_nil.
Qed.
Lemma more_file : glm_file [n2] n2_rows.
Proof. rewrite <- (app_nil_r n2_rows). apply (file_object n2_object). apply file_nil. Qed.
Lemma two_legal : Forall (legal demo_schema) ([n1] ++ [n2])%list.
Proof. pose proof demo_legal as H. inversion H as [|? ? H1 H2]; subst. inversion H2; subst. constructor; [assumption|constructor; [assumption|constructor]]. Qed.
(** a house, which the simulator does not use *)
Definition house_rows := ["object house {"; "  name h1;"; "}"].
Lemma house_object : one_object "house" [("name", "h1")] house_rows.
Proof.
  exists "object house {", [], [("name", "h1")], ["  name h1;"], "}".
  split; [reflexivity|]. split; [reflexivity|]. split; [opened "house" " {"; left; split; reflexivity|]. split.
  - apply attrs_attr; [attr "  " " " "h1" "" ";"|]. apply attrs_nil.
  - exists "", "". split; [reflexivity|split; [apply blank_nil|left; apply blank_nil]].
Qed.
