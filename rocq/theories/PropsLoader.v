(** C140-C141: from the name of a file to the network. *)
From Coq Require Import Reals ZArith String Ascii List Bool.
From Verif Require Import PyExc UnbalancedLine GlmText SpecGlm LineImpedance ThreePhase SpecThreePhase GlmReader RawParser RawText SpecReader SpecReader2 SpecReader3 SpecFile Loader SpecLoader LoaderProofs LoaderNet LoaderWitness.
From Verif Require RawTextWitness.
Import ListNotations.
Local Open Scope string_scope.

(** C140: which parser reads the file *)
Theorem C140_gridlab : forall T W uri l, w_file W uri = Some l -> told_format uri GLM ->
  (forall n, from_file T W uri = Ok (Three n) <->
     exists objs sch ms, read_glm (t_schema T) (t_over12 T) (t_mega T) (t_cron T) (w_file W) uri = Ok (objs, sch) /\
       read_store (t_prims T) sch objs = Ok ms /\ parse_three (t_inv T) (t_cap T) ms = Ok n) /\
  (forall o, from_file T W uri <> Ok (Single o)).
Proof. exact local_glm. Qed.
Print Assumptions C140_gridlab.
Theorem C140_raw : forall T W uri l, w_file W uri = Some l -> told_format uri RAW ->
  (forall o, from_file T W uri = Ok (Single o) <-> load_raw (t_int T) (t_float T) l = Ok o) /\ (forall n, from_file T W uri <> Ok (Three n)).
Proof. exact local_raw. Qed.
Print Assumptions C140_raw.
Theorem C140_unknown : forall T W uri l, w_file W uri = Some l -> told_format uri Unknown -> from_file T W uri = Err Raised.
Proof. exact local_unknown. Qed.
Print Assumptions C140_unknown.
Theorem C140_web : forall T W uri, w_file W uri = None -> web uri -> forall r,
  from_file T W uri = Ok r <->
  w_status W uri = Some 200%Z /\ exists name f l, last_of uri name /\ file_name name /\ in_folder (w_temp W) name f /\ w_remote W uri = Some l /\
    from_file T (written W f l) f = Ok r.
Proof. exact web_file. Qed.
Print Assumptions C140_web.
Theorem C140_elsewhere : forall T W uri, w_file W uri = None -> ~ web uri -> from_file T W uri = Err Raised.
Proof. exact elsewhere. Qed.
Print Assumptions C140_elsewhere.
Example C140_loads :
  (exists n, from_file feed_tools desk "/cases/feeder.glm" = Ok (Three n) /\ switched n) /\
  (exists o, from_file feed_tools desk "/data/case.RAW" = Ok (Single o)) /\
  (web site /\ exists n, from_file feed_tools desk site = Ok (Three n) /\ switched n).
Proof. exact (conj feed_loads (conj raw_loads (conj (proj1 site_web) site_loads))). Qed.
(** the same RAW file in a directory whose name contains .glm becomes an empty three-phase network; with a
    name in small letters it is refused *)
Theorem C140_directory_refuted : exists T W lines,
  w_file W "/data/case.RAW" = Some lines /\ w_file W "/data.glm/case.RAW" = Some lines /\ w_file W "/data/case.raw" = Some lines /\
  (exists o, from_file T W "/data/case.RAW" = Ok (Single o)) /\
  (exists n, from_file T W "/data.glm/case.RAW" = Ok (Three n) /\ nt_buses n = [] /\ nt_slack n = []) /\
  from_file T W "/data/case.raw" = Err Raised.
Proof. exact (ex_intro _ feed_tools (ex_intro _ desk (ex_intro _ RawTextWitness.wfile (conj eq_refl (conj eq_refl (conj eq_refl (conj raw_loads (conj raw_as_glm (proj2 raw_small))))))))). Qed.
Print Assumptions C140_directory_refuted.

(** C141: from the text to the network *)
Theorem C141_layout : forall T W1 W2 f1 f2 os, describes (w_file W1) f1 os -> describes (w_file W2) f2 os -> Forall (legal (t_schema T)) os ->
  told_format f1 GLM -> told_format f2 GLM -> from_file T W1 f1 = from_file T W2 f2.
Proof. exact same_text. Qed.
Print Assumptions C141_layout.
Theorem C141_text : forall T W f os, describes (w_file W) f os -> Forall (legal (t_schema T)) os -> clean_text os -> told_format f GLM ->
  exists objs, Forall2 stands_for os objs /\ clean_file objs /\
    forall r, from_file T W f = Ok r <-> exists ms n, read_store (t_prims T) [] objs = Ok ms /\ parse_three (t_inv T) (t_cap T) ms = Ok n /\ r = Three n.
Proof. exact text_net. Qed.
Print Assumptions C141_text.
Theorem C141_network : forall T W f os r, describes (w_file W) f os -> Forall (legal (t_schema T)) os -> clean_text os -> told_format f GLM ->
  from_file T W f = Ok r ->
  exists n objs, r = Three n /\ Forall2 stands_for os objs /\
    grouped objs (fun o => go_class o = "fuse") (fun _ _ o g => fuse_group (t_prims T) n o g) (nt_fuses n) /\
    grouped objs (fun o => go_class o = "switch" \/ go_class o = "recloser") (fun _ _ o g => switch_group n o g) (nt_switches n) /\
    grouped objs (fun o => go_class o = "regulator") (fun _ _ o g => reg_group (t_prims T) objs n o g) (nt_regs n) /\
    grouped objs (fun o => go_class o = "transformer") (fun _ name o g => xfmr_group (t_prims T) objs n name o g) (nt_xfmrs n) /\
    grouped objs load_object (fun _ name o g => load_group (t_prims T) [] n name o g) (nt_loads n) /\
    grouped objs (fun o => go_class o = "capacitor") (fun _ _ o g => cap_group (t_prims T) n o g) (nt_caps n) /\
    grouped objs (fun o => In (go_class o) line_classes) (fun i _ o g => line_group (t_prims T) objs i o g) (nt_lines n) /\
    grouped objs (fun o => (go_class o = "node" \/ go_class o = "meter") /\ says o "bustype" "SWING") (fun i name o g => source_group (t_prims T) objs n i name o g) (nt_slack n).
Proof. exact text_network. Qed.
Print Assumptions C141_network.
(** one file, and the same objects in two files with other blanks, comments and quotes *)
Example C141_split : describes (w_file desk) "/cases/feeder.glm" [da; db; ds] /\ describes (w_file desk) "split.glm" [da; db; ds] /\
  Forall (legal (t_schema feed_tools)) [da; db; ds] /\ clean_text [da; db; ds] /\
  exists n, from_file feed_tools desk "split.glm" = Ok (Three n) /\ switched n.
Proof. exact (conj one_text (conj two_texts (conj feed_legal (conj feed_text split_loads)))). Qed.
