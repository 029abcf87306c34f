(** Concrete objects for the theorems about Reader.parse. *)
From Coq Require Import Reals ZArith String Ascii List Bool Lia Lra Arith.
From Verif Require Import PyExc Components UnbalancedLine GlmText SpecGlm GlmBase LineImpedance ThreePhase GlmReader SpecReader ReaderBase ReaderLoadProofs ReaderFrame ReaderStore ReaderFile.
Import ListNotations.
Local Open Scope string_scope.
Set Implicit Arguments.

(** a reader of a few numbers *)
Definition table A (l : list (string * A)) (s : string) : option A := dget s l.
Definition demo_prims : prims :=
  {| p_float := table [("2401", 2401); ("1", 1); ("0", 0); ("0.5", 1 / 2); ("10", 10); ("120", 120)]%R;
     p_complex := table [("3+4j", (3, 4)); ("5", (5, 0)); ("0+0j", (0, 0))]%R;
     p_int := table [("1", 1%Z)];
     p_polar := fun c => c; p_inv := fun m => Some m; p_ugz := fun _ _ => Ok []; p_ocap := fun _ _ => Ok None; p_ucap := fun _ => Ok [] |}.
Definition obj (c : string) (l : list (string * string)) : gobj := {| go_class := c; go_attrs := l |}.
Definition demo_objs : list (string * gobj) :=
  [("n1", obj "node" [("phases", "ABCN"); ("bustype", "SWING"); ("nominal_voltage", "2401")]);
   ("cfg", obj "line_spacing" [("distance_AB", "2.5ft")]);
   ("ld", obj "load" [("phases", """ABCD|"""); ("parent", "n1"); ("constant_power_A", "3+4j"); ("power_A", "5");
                      ("base_power_A", "sun*10"); ("current_fraction_A", "0"); ("current_pf_A", "1"); ("power_fraction_A", "0.5");
                      ("power_pf_A", "1"); ("impedance_fraction_A", "0.5"); ("impedance_pf_A", "1")]);
   ("tn", obj "triplex_node" [("phases", "AS"); ("nominal_voltage", "120"); ("power_12", "3+4j")]);
   ("fu", obj "fuse" [("phases", "A"); ("from", "n1"); ("to", "x"); ("phase_A_status", "BLOWN"); ("current_limit", "10 A")])].
Definition demo_sch : list (string * string) := [("sun", "0.5")].
Lemma nz_34 : both0 3 4 = false.
Proof. destruct (both0 3 4) eqn:B; [| reflexivity]. apply both0_iff in B. lra. Qed.
Lemma nz_50 : both0 5 0 = false.
Proof. destruct (both0 5 0) eqn:B; [| reflexivity]. apply both0_iff in B. lra. Qed.
Definition demo_store : list dmodel :=
  [MNode {| dn_name := "n1"; dn_phases := ["A"; "B"; "C"]; dn_source := true; dn_parent := None; dn_conn := None; dn_vnom := Some 2401%R;
            dn_volt := fun p => if String.eqb p "A" then None else if String.eqb p "B" then None else if String.eqb p "C" then None else None |};
   MLoad {| do_name := Some "ld"; do_conn := Some "n1"; do_triplex := None;
            do_loads := [{| dp_phase := Some "AB"; dp_p := 5; dp_q := 0; dp_z := (0, 0); dp_i := (0, 0) |};
                         {| dp_phase := Some "AB"; dp_p := 3; dp_q := 4; dp_z := (0, 0); dp_i := (0, 0) |};
                         {| dp_phase := Some "AB"; dp_p := 1 / 2 * 10; dp_q := 0; dp_z := (0, 0); dp_i := (0, 0) |}] |}%R;
   MLoad {| do_name := Some "load_tn"; do_conn := Some "tn"; do_triplex := Some "A";
            do_loads := [{| dp_phase := Some "12"; dp_p := 3; dp_q := 4; dp_z := (0, 0); dp_i := (0, 0) |}] |}%R;
   MNode {| dn_name := "tn"; dn_phases := ["1"; "2"]; dn_source := false; dn_parent := None; dn_conn := None; dn_vnom := Some 120%R;
            dn_volt := no_volt |};
   MLine {| dl_fuse := true; dl_switch := false; dl_from := Some "n1"; dl_to := Some "x"; dl_phases := Some ["A"];
            dl_wires := [{| wi_phase := "A"; wi_open := true; wi_amp := None |}]; dl_limit := Some 10%R; dl_status := fun _ => None;
            dl_z := []; dl_shunt := None; dl_len := 0 |}].
Ltac run := cbv -[both0 IZR Rmult Rdiv Rplus Ropp Rminus Rinv].
Lemma demo_reads : read_store demo_prims demo_sch demo_objs = Ok demo_store.
Proof. run. rewrite !nz_50, !nz_34. run. rewrite ?nz_50, ?nz_34. run. reflexivity. Qed.
Lemma demo_keys : NoDup (map fst demo_objs).
Proof. repeat constructor; cbn; intuition discriminate. Qed.
Lemma demo_phases : wrapped "ABCD" """ABCD|""" /\ phase_letters "ABCD" = ["A"; "B"; "C"].
Proof.
  split; [| reflexivity]. exists 1%nat, 0%nat, 1%nat, 1%nat. split; [reflexivity |]. split; intros r; split; try discriminate;
  intros H; change "ABCD" with ("ABC" ++ String "D" "") in H; apply snoc_inj in H; destruct H; discriminate.
Qed.
(** a delta load given between phases *)
Definition delta_objs : list (string * gobj) :=
  [("n1", obj "node" [("phases", "ABCN"); ("bustype", "SWING"); ("nominal_voltage", "2401")]);
   ("ld", obj "load" [("phases", "ABCD"); ("parent", "n1"); ("constant_power_AB", "3+4j")])].
Lemma delta_reads : exists ms, read_store demo_prims [] delta_objs = Ok ms.
Proof. eexists. run. rewrite !nz_34. run. reflexivity. Qed.
Lemma says_dget : forall c l k t, dget k l = Some t -> says (obj c l) k t.
Proof. intros c l k t H. now apply gattr_says. Qed.
Lemma demo_load : read_store demo_prims demo_sch demo_objs = Ok demo_store
  /\ exists o, In ("ld", o) demo_objs /\ load_object o
  /\ complex demo_prims o "constant_power_A" (3, 4)%R /\ complex demo_prims o "power_A" (5, 0)%R
  /\ zip_power demo_prims demo_sch o "A" (1 / 2 * 10)%R /\ lands true "A" "AB".
Proof.
  split; [exact demo_reads |]. eexists. split; [cbn; right; right; left; reflexivity |]. split; [left; reflexivity |].
  split; [exists "3+4j"; split; [now apply says_dget | reflexivity] |]. split; [exists "5"; split; [now apply says_dget | reflexivity] |].
  split; [| cbn; tauto]. right. split.
  - intros k I S. apply gattr_silent in S. cbn in I. repeat (destruct I as [<- | I]; [discriminate S |]). destruct I.
  - exists "sun*10". split; [now apply says_dget |]. apply base_left with (a := "sun") (b := "10").
    + reflexivity.
    + reflexivity.
    + unfold free, no_sched; cbn; intuition discriminate.
    + unfold free, no_sched; cbn; intuition discriminate.
    + exists [], [], "0.5". cbn. tauto.
    + reflexivity.
    + unfold free, no_sched; cbn; intuition discriminate.
Qed.
Definition zip_demo (a b : string) : gobj :=
  obj "load" [("phases", "AN"); ("parent", "n1"); ("base_power_A", "10"); ("current_fraction_A", a); ("current_pf_A", "1"); ("power_fraction_A", b);
              ("power_pf_A", "1"); ("impedance_fraction_A", "0"); ("impedance_pf_A", "1")].
Lemma zip_demo_reads : read_load demo_prims [] "z" (zip_demo "0" "1")
     = Ok [MLoad {| do_name := Some "z"; do_conn := Some "n1"; do_triplex := None;
                    do_loads := [{| dp_phase := Some "A"; dp_p := 10; dp_q := 0; dp_z := (0, 0); dp_i := (0, 0) |}]%R |}].
Proof. run. reflexivity. Qed.
Lemma zip_demo_same : same_but_fractions demo_prims (zip_demo "0" "1") (zip_demo "1" "0").
Proof.
  split; [reflexivity |]. intros k. destruct (string_dec k "current_fraction_A") as [-> | n1].
  - right. split; [exists "current_fraction_", "A"; cbn; tauto |].
    split; [exists 0%R, "0" | exists 1%R, "1"]; (split; [now apply says_dget | reflexivity]).
  - destruct (string_dec k "power_fraction_A") as [-> | n2].
    + right. split; [exists "power_fraction_", "A"; cbn; tauto |].
      split; [exists 1%R, "1" | exists 0%R, "0"]; (split; [now apply says_dget | reflexivity]).
    + left. intros t. rewrite <- !gattr_says. unfold gattr, zip_demo, obj. cbn [go_attrs dget].
      apply String.eqb_neq in n1, n2. rewrite n1, n2. reflexivity.
Qed.
Lemma delta_demo : (exists ms, read_store demo_prims [] delta_objs = Ok ms) /\ NoDup (map fst delta_objs)
  /\ exists o, In ("ld", o) delta_objs /\ load_object o /\ phase_core o "ABCD" /\ complex demo_prims o ("constant_power_" ++ "AB") (3, 4)%R.
Proof.
  split; [exact delta_reads |]. split; [repeat constructor; cbn; intuition discriminate |].
  eexists. split; [cbn; right; left; reflexivity |]. split; [left; reflexivity |]. split.
  - exists "ABCD". split; [now apply says_dget |]. exists 0%nat, 0%nat, 0%nat, 0%nat. split; [reflexivity |].
    split; intros r; split; try discriminate; intros H; change "ABCD" with ("ABC" ++ String "D" "") in H; apply snoc_inj in H; destruct H; discriminate.
  - exists "3+4j". split; [now apply says_dget | reflexivity].
Qed.
(** a configuration whose rating carries a unit *)
Definition line_objs : list (string * gobj) :=
  [("tr", obj "transformer_configuration" [("power_rating", "10kVA"); ("connect_type", "WYE_WYE")]);
   ("x1", obj "transformer" [("phases", "ABC"); ("from", "a"); ("to", "b"); ("configuration", "tr")])].
Lemma line_demo : exists s, mfold (read_object demo_prims []) (map fst line_objs) (start line_objs) = Ok s
  /\ NoDup (map fst line_objs) /\ exists o o', In ("tr", o) line_objs /\ In ("tr", o') (r_objs s) /\ says o "power_rating" "10kVA" /\ says o' "power_rating" "10".
Proof.
  eexists. split; [run; reflexivity |]. split; [repeat constructor; cbn; intuition discriminate |].
  do 2 eexists. split; [left; reflexivity |]. split; [cbn; left; reflexivity |]. split; [now apply says_dget | now apply says_dget].
Qed.
