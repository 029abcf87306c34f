(** Concrete files that are read and parsed. *)
From Coq Require Import Reals ZArith String Ascii List Bool Lia Lra Arith.
From Verif Require Import PyExc SpecComponents SpecUnbalanced Components Devices UnbalancedLine GlmText SpecGlm GlmBase LineImpedance ThreePhase SpecThreePhase SpecThreeElems ThreePhaseBase ThreePhaseBusProofs GlmReader SpecReader ReaderBase ReaderWitness SpecLineZ SpecReader2 SpecReader3 SpecFile.
From Verif Require ReaderWitness2 ReaderWitness3 UnbalancedWitness ThreeWitness.
Import ListNotations.
Local Open Scope string_scope.
Set Implicit Arguments.

(** *** clean files *)
Definition plain_char (c : ascii) : bool := negb (Ascii.eqb c """") && negb (Ascii.eqb c "|").
Fixpoint nodupb (l : list string) : bool := match l with [] => true | x :: r => negb (existsb (String.eqb x) r) && nodupb r end.
Lemma nodupb_ok : forall l, nodupb l = true -> NoDup l.
Proof.
  induction l as [| x l IH]; intros H; constructor; cbn in H; apply andb_true_iff in H; destruct H as [H1 H2]; [| now apply IH].
  intros I. assert (X : existsb (String.eqb x) l = true) by (apply existsb_exists; exists x; split; [exact I | apply String.eqb_refl]). rewrite X in H1. discriminate H1.
Qed.
Lemma last_plain : forall ph, ph <> "" -> forallb plain_char (chars ph) = true -> exists a c, ph = a ++ String c "" /\ plain_char c = true.
Proof.
  induction ph as [| d ph IH]; intros N H; [now destruct N |]. cbn in H. apply andb_true_iff in H. destruct H as [H1 H2].
  destruct ph as [| e ph]; [exists "", d; split; [reflexivity | exact H1] |]. destruct IH as (a & c & Q & P); [discriminate | exact H2 |].
  exists (String d a), c. split; [cbn; now rewrite Q | exact P].
Qed.
Lemma plain_neq : forall c, plain_char c = true -> c <> "|"%char /\ c <> """"%char.
Proof. intros c H. unfold plain_char in H. apply andb_true_iff in H. destruct H as [H1 H2]. split; intros ->; discriminate. Qed.
Lemma core_text : forall c l ph, dget "phases" l = Some ph -> ph <> "" -> forallb plain_char (chars ph) = true -> phase_core (obj c l) ph.
Proof.
  intros c l ph S N P. apply ReaderWitness3.core_says.
  - now apply says_dget.
  - destruct (last_plain N P) as (a & d & Q & R). apply plain_neq in R. exists a, d. tauto.
  - destruct ph as [| d ph]; [now destruct N |]. cbn in P. apply andb_true_iff in P. destruct P as [P _]. apply plain_neq in P. tauto.
Qed.
Definition clean_text (no : string * gobj) : bool :=
  existsb (String.eqb (go_class (snd no))) config_classes ||
  match dget "phases" (go_attrs (snd no)) with
  | Some ph => negb (String.eqb ph "") && forallb plain_char (chars ph) && nodupb (phase_letters ph) && forallb knownb (phase_letters ph)
  | None => false
  end.
Lemma clean_run : forall objs, nodupb (map fst objs) && forallb clean_text objs = true -> clean_file objs.
Proof.
  intros objs H. apply andb_true_iff in H. destruct H as [H1 H2]. split; [now apply nodupb_ok |]. rewrite forallb_forall in H2. apply Forall_forall. intros [name [c l]] I.
  specialize (H2 _ I). unfold clean_text in H2. cbn [snd go_class go_attrs] in *. apply orb_true_iff in H2. destruct H2 as [H2 | H2].
  - left. apply existsb_exists in H2. destruct H2 as (x & Ix & Q). apply String.eqb_eq in Q. cbn [go_class]. now rewrite Q.
  - right. destruct (dget "phases" l) as [ph |] eqn:G; [| discriminate H2]. apply andb_true_iff in H2. destruct H2 as [H2 H3]. apply andb_true_iff in H2. destruct H2 as [H2 H4].
    apply andb_true_iff in H2. destruct H2 as [H5 H6]. exists ph. split.
    + apply (@core_text c l ph G); [| exact H6]. intros ->. discriminate H5.
    + split; [now apply nodupb_ok |]. rewrite forallb_forall in H3. apply Forall_forall. intros p Ip. apply knownb_spec. auto.
Qed.

(** *** fuses, switches, loads, capacitors *)
Definition feed_prims : prims :=
  {| p_float := table [("2401", 2401); ("2300", 2300); ("480", 480); ("120", 120); ("100", 100); ("10", 10); ("2", 2); ("0.1", 1 / 10); ("7.2", 72 / 10); ("0.12", 12 / 100)]%R;
     p_complex := table [("3+4j", (3, 4)); ("2402+1j", (2402, 1))]%R;
     p_int := table [("16", 16%Z); ("5", 5%Z); ("20", 20%Z)];
     p_polar := fun c => c; p_inv := fun m => Some m; p_ugz := fun _ _ => Ok []; p_ocap := fun _ _ => Ok None; p_ucap := fun _ => Ok [] |}.
Definition bus_a : gobj := obj "node" [("phases", "ABCN"); ("bustype", "SWING"); ("nominal_voltage", "2401"); ("voltage_B", "2402+1j")].
Definition bus_b : gobj := obj "node" [("phases", "ABCN"); ("nominal_voltage", "2401")].
Definition bus_c : gobj := obj "meter" [("phases", "A"); ("parent", "b"); ("nominal_voltage", "2300")].
Definition blown : gobj := obj "fuse" [("phases", "AB"); ("from", "a"); ("to", "b"); ("phase_A_status", "BLOWN"); ("phase_B_status", "GOOD"); ("current_limit", "10 A")].
Definition open_switch : gobj := obj "switch" [("phases", "AB"); ("from", "a"); ("to", "b"); ("phase_A_state", "OPEN"); ("phase_B_state", "CLOSED")].
Definition pq_load : gobj := obj "load" [("phases", "AN"); ("parent", "b"); ("constant_power_A", "3+4j")].
Definition bank : gobj :=
  obj "capacitor" [("phases", "AB"); ("phases_connected", "A"); ("parent", "b"); ("capacitor_A", "100"); ("capacitor_B", "100"); ("cap_nominal_voltage", "2401");
                   ("control", "MANUAL"); ("switchA", "CLOSED")].
Definition feed1 : list (string * gobj) :=
  [("a", bus_a); ("b", bus_b); ("c", bus_c); ("f", blown); ("s", open_switch); ("ld", pq_load); ("cp", bank)].
Lemma feed1_clean : clean_file feed1.
Proof. apply clean_run. reflexivity. Qed.
Ltac both_nz := repeat (match goal with |- context [both0 ?a ?b] => rewrite (@ThreeWitness.both0_false a b) by (left; lra) end; ReaderWitness.run).
Ltac go Q := match goal with |- exists n, ?t = Ok n /\ _ => assert (exists r, t = r) as [r Q] by eauto end; setoid_rewrite Q; revert Q; repeat ThreeWitness.advance; ThreeWitness.run.
Definition loads E inv objs (P : net -> Prop) : Prop := exists ms, read_store E [] objs = Ok ms /\ exists n, parse_three inv false ms = Ok n /\ P n.
Lemma feed1_loads : loads feed_prims UnbalancedWitness.half_inv feed1 (fun n =>
  map tf_status (nt_fuses n) = [GOOD; GOOD] /\ map ts_open (nt_switches n) = [true; false] /\ map tl_phase (nt_loads n) = ["A"] /\
  map tc_mode (nt_caps n) = [C_MANUAL] /\ map tc_switch (nt_caps n) = [CLOSED] /\ map sk_v (nt_slack n) = [2401; 2402; 2401]%R /\
  exists b, nth_error (nt_buses n) 3 = Some b /\ tb_name b = "b" /\ tb_phase b = "A" /\ tb_vnom b = 2300%R /\ found n "c" "A" 3).
Proof.
  eexists. split; [ReaderWitness.run; both_nz; reflexivity |]. go Q. intros <-. eexists. split; [reflexivity |]. repeat (split; [reflexivity |]).
  eexists. split; [reflexivity |]. repeat split; reflexivity.
Qed.
(** *** a wye-wye transformer and a regulator *)
Definition reg_c : gobj :=
  obj "regulator_configuration" [("connect_type", "WYE_WYE"); ("band_center", "120"); ("band_width", "2"); ("regulation", "0.1"); ("raise_taps", "16"); ("lower_taps", "16");
                                 ("Control", "MANUAL"); ("tap_pos_A", "5"); ("tap_pos_B", "20"); ("tap_pos_C", "5")].
Definition vreg : gobj := obj "regulator" [("phases", "ABCN"); ("from", "a"); ("to", "b"); ("configuration", "rc")].
Definition feed2 : list (string * gobj) :=
  [("a", bus_a); ("b", bus_b); ("wc", ReaderWitness3.wye_cfg); ("t3", ReaderWitness3.trafo "ABCN" "wc"); ("rc", reg_c); ("vr", vreg)].
Lemma feed2_clean : clean_file feed2.
Proof. apply clean_run. reflexivity. Qed.
Lemma feed2_loads : loads feed_prims UnbalancedWitness.half_inv feed2 (fun n =>
  List.length (nt_xfmrs n) = 3%nat /\ map (fun t => r_tap (tr_dev t)) (nt_regs n) = [5; 16; 5]%Z /\ map tr_vlow (nt_regs n) = [120 - 2 / 2; 120 - 2 / 2; 120 - 2 / 2]%R).
Proof.
  eexists. split; [ReaderWitness.run; reflexivity |]. go Q. intros <-. eexists. split; [reflexivity |]. repeat (split; [reflexivity |]). reflexivity.
Qed.
(** *** a center tap whose voltages are in kV *)
Definition bus_t : gobj := obj "triplex_meter" [("phases", "AS"); ("nominal_voltage", "120")].
Definition feed3 : list (string * gobj) :=
  [("a", bus_a); ("b", bus_t); ("tc", ReaderWitness3.tap_cfg); ("t1", ReaderWitness3.trafo "AS" "tc")].
Lemma feed3_clean : clean_file feed3.
Proof. apply clean_run. reflexivity. Qed.
Lemma feed3_loads : loads feed_prims UnbalancedWitness.half_inv feed3 (fun n => List.length (nt_xfmrs n) = 1%nat).
Proof.
  eexists. split; [ReaderWitness.run; reflexivity |]. go Q. intros <-. eexists. split; [reflexivity |]. reflexivity.
Qed.
