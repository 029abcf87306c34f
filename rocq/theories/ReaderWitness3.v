(** Concrete files with transformers, a regulator and child nodes. *)
From Coq Require Import Reals ZArith String Ascii List Bool Lia Lra Arith.
From Verif Require Import PyExc SpecComponents SpecUnbalanced Components UnbalancedLine GlmText SpecGlm GlmBase LineImpedance ThreePhase GlmReader SpecReader ReaderBase ReaderLoadProofs ReaderFrame ReaderStore ReaderFile ReaderWitness SpecLineZ SpecReader2 SpecReader3 LineFile.
From Verif Require ReaderWitness2.
Import ListNotations.
Local Open Scope string_scope.
Set Implicit Arguments.

Definition unit_prims : prims :=
  {| p_float := table [("7.2", 72 / 10); ("0.12", 12 / 100); ("10", 10); ("2401", 2401); ("480", 480); ("2", 2); ("120", 120); ("0.1", 1 / 10)]%R;
     p_complex := table [("3+4j", (3, 4))]%R;
     p_int := table [("16", 16%Z); ("5", 5%Z)];
     p_polar := fun c => c; p_inv := fun m => Some m; p_ugz := fun _ _ => Ok []; p_ocap := fun _ _ => Ok None; p_ucap := fun _ => Ok [] |}.
(** a center-tapped transformer with kV in its texts, and the same configuration used twice *)
Definition tap_cfg : gobj :=
  obj "transformer_configuration" [("connect_type", "SINGLE_PHASE_CENTER_TAPPED"); ("primary_voltage", "7.2kV"); ("secondary_voltage", "0.12kV");
                                   ("power_rating", "10kVA"); ("impedance", "3+4j")].
Definition wye_cfg : gobj :=
  obj "transformer_configuration" [("connect_type", "1"); ("primary_voltage", "2401"); ("secondary_voltage", "480");
                                   ("powerA_rating", "10"); ("powerC_rating", "2kVA"); ("resistance", "2"); ("reactance", "10")].
Definition trafo (ph cfg : string) : gobj := obj "transformer" [("phases", ph); ("from", "a"); ("to", "b"); ("configuration", cfg)].
Definition tap_objs : list (string * gobj) := [("t1", trafo "AS" "tc"); ("tc", tap_cfg); ("t2", trafo "AS" "tc"); ("wc", wye_cfg); ("t3", trafo "ABC" "wc")].
Lemma tap_keys : NoDup (map fst tap_objs).
Proof. repeat constructor; cbn; intuition discriminate. Qed.
Lemma tap_reads : exists ms, read_store unit_prims [] tap_objs = Ok ms /\ exists x1 x2 x3, ms = [MXfmr x1; MXfmr x2; MXfmr x3] /\
  dx_windings x1 = dx_windings x2 /\ exists w1 w2 w3, dx_windings x1 = [w1; w2; w3] /\
  dw_nom w2 = Some (12 / 100 * 1000)%R /\ dw_nom w3 = Some (- (12 / 100))%R.
Proof. eexists. split; [run; reflexivity |]. do 3 eexists. split; [reflexivity |]. split; [reflexivity |]. do 3 eexists. split; [reflexivity |]. split; reflexivity. Qed.
Lemma core_says : forall o ph, says o "phases" ph -> (exists a c, ph = (a ++ String c "")%string /\ c <> "|"%char /\ c <> """"%char) ->
  (match ph with String d _ => d <> """"%char /\ d <> "|"%char | "" => False end) -> phase_core o ph.
Proof.
  intros o ph S (a & c & Q & N1 & N2) M. exists ph. split; [exact S |]. exists 0%nat, 0%nat, 0%nat, 0%nat.
  split; [cbn; clear; induction ph as [| x ph IH]; [reflexivity | cbn; now rewrite <- IH] |].
  destruct ph as [| d ph]; [destruct M |]. destruct M as (M1 & M2). split; intros r; split; intros H;
    try (injection H as -> _; congruence); rewrite Q in H; apply snoc_inj in H; destruct H; congruence.
Qed.
Ltac core := apply core_says; [now apply says_dget | | cbn; split; discriminate].
Lemma among_run : forall E t x d, digits t = d -> p_float E d = Some x -> among E t x.
Proof. intros E t x d <- H. now apply among_digits. Qed.
Lemma silent_dget : forall c l k, dget k l = None -> silent (obj c l) k.
Proof. intros c l k H. now apply gattr_silent. Qed.
Lemma tap_says : phase_core (trafo "AS" "tc") "AS" /\ configured tap_objs (trafo "AS" "tc") tap_cfg /\ wiring tap_cfg None None true /\
  opt_complex unit_prims tap_cfg "shunt_impedance" None /\
  winding_volts unit_prims tap_cfg "primary_voltage" (Some (72 / 10 * 1000)%R) (Some (72 / 10)%R) /\
  winding_volts unit_prims tap_cfg "secondary_voltage" (Some (12 / 100 * 1000)%R) (Some (12 / 100)%R) /\
  ohms unit_prims tap_cfg true (Some 3%R) (tap_reactances 4) /\ rated_power unit_prims tap_cfg (Some (10 * 1000)%R).
Proof.
  split; [core; exists "A", "S"%char; repeat split; discriminate |].
  split; [exists "tc"; split; [now apply says_dget |]; apply named_dget; reflexivity |].
  split; [do 3 right; left; split; [| reflexivity]; exists "SINGLE_PHASE_CENTER_TAPPED"; split; [now apply says_dget | cbn; tauto] |].
  split; [left; split; [now apply silent_dget | reflexivity] |].
  split; [right; exists "7.2kV", (72 / 10)%R; split; [now apply says_dget |]; split; [eapply among_run; reflexivity |]; split; [reflexivity |]; left; split; [exists "7.2", ""; reflexivity | reflexivity] |].
  split; [right; exists "0.12kV", (12 / 100)%R; split; [now apply says_dget |]; split; [eapply among_run; reflexivity |]; split; [reflexivity |]; left; split; [exists "0.12", ""; reflexivity | reflexivity] |].
  split.
  - right. left. split; [now apply silent_dget |]. exists (3, 4)%R. split; [exists "3+4j"; split; [now apply says_dget | reflexivity] |]. split; [reflexivity |]. right. split; reflexivity.
  - left. exists "10kVA", 10%R. split; [now apply says_dget |]. split; [eapply among_run; reflexivity | reflexivity].
Qed.
(** a wye transformer rated phase by phase *)
Lemma wye_says : phase_core (trafo "ABC" "wc") "ABC" /\ configured tap_objs (trafo "ABC" "wc") wye_cfg /\ wiring wye_cfg (Some "Y") (Some "Y") false /\
  winding_volts unit_prims wye_cfg "secondary_voltage" (Some 480%R) (Some 480%R) /\
  ohms unit_prims wye_cfg false (Some 2%R) [10%R] /\ rated_power unit_prims wye_cfg (Some (10 * 1000 + (2 * 1000 + 0))%R).
Proof.
  split; [core; exists "AB", "C"%char; repeat split; discriminate |].
  split; [exists "wc"; split; [now apply says_dget |]; apply named_dget; reflexivity |].
  split; [left; split; [| reflexivity]; exists "1"; split; [now apply says_dget | cbn; tauto] |].
  split; [right; exists "480", 480%R; split; [now apply says_dget |]; split; [eapply among_run; reflexivity |]; split; [reflexivity |]; right; split; [now apply ReaderWitness2.not_part | reflexivity] |].
  split.
  - left. exists 10%R. split; [exists "10"; split; [now apply says_dget | reflexivity] |]. split; [| left; split; reflexivity].
    right. exists 2%R. split; [| reflexivity]. exists "2". split; [now apply says_dget |]. split; [now apply ReaderWitness2.not_part | reflexivity].
  - right. split; [now apply silent_dget |]. exists (Some (10 * 1000)%R), None, (Some (2 * 1000)%R).
    split; [right; exists "10", 10%R; split; [now apply says_dget |]; split; [right; split; [now apply ReaderWitness2.not_part | reflexivity] | reflexivity] |].
    split; [left; split; [now apply silent_dget | reflexivity] |].
    split; [right; exists "2kVA", 2%R; split; [now apply says_dget |]; split; [left; split; [exists "2", ""; reflexivity | eapply among_run; reflexivity] | reflexivity] | reflexivity].
Qed.
(** a regulator on phases A and B whose configuration also has a tap for C *)
Definition reg_cfg : gobj :=
  obj "regulator_configuration" [("connect_type", "WYE_WYE"); ("band_center", "120"); ("band_width", "2"); ("regulation", "0.1");
                                 ("raise_taps", "16"); ("lower_taps", "16"); ("Control", "MANUAL"); ("tap_pos_C", "5")].
Definition reg_objs : list (string * gobj) :=
  [("a", obj "node" [("phases", "ABC"); ("nominal_voltage", "2401")]); ("rc", reg_cfg);
   ("r", obj "regulator" [("phases", "AB"); ("from", "a"); ("to", "b"); ("configuration", "rc")])].
Lemma reg_keys : NoDup (map fst reg_objs).
Proof. repeat constructor; cbn; intuition discriminate. Qed.
Lemma reg_reads : exists ms n r, read_store unit_prims [] reg_objs = Ok ms /\ ms = [MNode n; MReg r] /\ dr_phases1 r = ["A"; "B"; "C"] /\ dr_tap r "C" = Some 5%Z /\
  dr_tap r "A" = None /\ dr_width r = 2%R /\ dr_raise r = 16%Z /\ dr_type r = "B".
Proof. do 3 eexists. split; [run; reflexivity |]. split; [reflexivity |]. repeat split; reflexivity. Qed.
(** the voltage of a node is overwritten by its child, even if the child has none *)
Definition kids : list (string * gobj) :=
  [("p", obj "node" [("phases", "ABC"); ("nominal_voltage", "2401")]);
   ("q", obj "node" [("phases", "ABC"); ("nominal_voltage", "480")]);
   ("c1", obj "meter" [("phases", "A"); ("parent", "p"); ("nominal_voltage", "120")]);
   ("c2", obj "node" [("phases", "A"); ("parent", "q")])].
Lemma kids_keys : NoDup (map fst kids).
Proof. repeat constructor; cbn; intuition discriminate. Qed.
Lemma kids_read : exists ms np nq nc nd, read_store unit_prims [] kids = Ok ms /\ ms = [MNode np; MNode nq; MNode nc; MNode nd] /\ dn_name np = "p" /\ dn_name nq = "q" /\
  dn_vnom np = Some 120%R /\ dn_vnom nq = None.
Proof. do 5 eexists. split; [run; reflexivity |]. split; [reflexivity |]. repeat split; reflexivity. Qed.
Lemma kids_child : child_of "p" (obj "meter" [("phases", "A"); ("parent", "p"); ("nominal_voltage", "120")]) /\ child_of "q" (obj "node" [("phases", "A"); ("parent", "q")]).
Proof. split; (split; [cbn; tauto | now apply says_dget]). Qed.
