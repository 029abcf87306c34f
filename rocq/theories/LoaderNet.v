From Coq Require Import Reals ZArith String Ascii List Bool.
From Verif Require Import PyExc UnbalancedLine GlmText SpecGlm LineImpedance ThreePhase SpecThreePhase GlmReader SpecReader SpecReader2 SpecReader3 SpecFile FileNet FileElems FileUnits FileBuses FileTap Loader SpecLoader LoaderProofs.
Import ListNotations.
Local Open Scope string_scope.
Set Implicit Arguments.

Lemma text_network : forall T W f os r, describes (w_file W) f os -> Forall (legal (t_schema T)) os -> clean_text os -> told_format f GLM ->
  from_file T W f = Ok r ->
  exists n objs, r = Three n /\ Forall2 stands_for os objs /\
    grouped objs (fun o => go_class o = "fuse") (fun _ _ o g => fuse_group (t_prims T) n o g) (nt_fuses n) /\
    grouped objs (fun o => go_class o = "switch" \/ go_class o = "recloser") (fun _ _ o g => switch_group n o g) (nt_switches n) /\
    grouped objs (fun o => go_class o = "regulator") (fun _ _ o g => reg_group (t_prims T) objs n o g) (nt_regs n) /\
    grouped objs (fun o => go_class o = "transformer") (fun _ name o g => xfmr_group (t_prims T) objs n name o g) (nt_xfmrs n) /\
    grouped objs load_object (fun _ name o g => load_group (t_prims T) [] n name o g) (nt_loads n) /\
    grouped objs (fun o => go_class o = "capacitor") (fun _ _ o g => cap_group (t_prims T) n o g) (nt_caps n) /\
    grouped objs (fun o => In (go_class o) line_classes) (fun i _ o g => line_group (t_prims T) objs i o g) (nt_lines n) /\
    grouped objs (fun o => (go_class o = "node" \/ go_class o = "meter") /\ says o "bustype" "SWING") (fun i name o g => source_group (t_prims T) objs n i name o g) (nt_slack n).
Proof.
  intros T W f os r D L C G Q. destruct (text_net T W D L C G) as (objs & F & K & X). apply X in Q. destruct Q as (ms & n & S & P & ->).
  exists n, objs. split; [reflexivity |]. split; [exact F |].
  split; [eapply file_fuses; eassumption |]. split; [eapply file_switches; eassumption |]. split; [eapply file_regulators; eassumption |]. split; [eapply file_transformers; eassumption |].
  split; [eapply file_loads; eassumption |]. split; [eapply file_capacitors; eassumption |]. split; [eapply file_netlines; eassumption |]. eapply file_sources; eassumption.
Qed.
