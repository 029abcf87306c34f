(** A concrete feeder for the three-phase parser. *)
From Coq Require Import Reals ZArith String Ascii Bool Lia Lra Arith List.
From Verif Require Import PyExc Components Devices UnbalancedLine UnbalancedWitness ThreePhase SpecThreePhase SpecThreeElems ThreePhaseBase ThreePhaseBusProofs ThreePhaseElemProofs ThreePhaseXfmrProofs ThreePhaseInitProofs ThreePhaseFinal.
Import ListNotations.
Local Open Scope R_scope.
Local Open Scope string_scope.

Definition abc : list string := ["A"; "B"; "C"].
Definition node (name : string) (ps : list string) (src : bool) (par : option string) (v : R) : dmodel :=
  MNode {| dn_name := name; dn_phases := ps; dn_source := src; dn_parent := par; dn_conn := None; dn_vnom := Some v; dn_volt := fun _ => None |}.
Definition coil (v s : R) (conn : option string) (r : R) (ps : list string) : dwinding :=
  {| dw_nom := Some v; dw_rated := Some s; dw_conn := conn; dw_res := Some r; dw_phases := ps |}.
Definition demo_xfmr : dxfmr :=
  {| dx_name := "x1"; dx_from := Some "src"; dx_to := Some "mid"; dx_phases := abc; dx_tap := false;
     dx_windings := [coil 4000 1000 (Some "D") 1 abc; coil 2400 1000 (Some "Y") 1 abc];
     dx_reactances := [6]; dx_shift := None; dx_shunt := Some (3, 4) |}.
Definition demo_tap : dxfmr :=
  {| dx_name := "x2"; dx_from := Some "met"; dx_to := Some "tri"; dx_phases := ["A"]; dx_tap := true;
     dx_windings := [coil 2400 50 None 1 ["A"]; coil 120 25 None 2 []; coil 120 25 None 2 []];
     dx_reactances := [8; 4; 4]; dx_shift := None; dx_shunt := None |}.
Definition demo_load : dload :=
  {| do_name := Some "load_7"; do_conn := Some "met"; do_triplex := None;
     do_loads := [{| dp_phase := Some "A"; dp_p := 5; dp_q := 2; dp_z := (0, 0); dp_i := (0, 0) |};
                  {| dp_phase := Some "BC"; dp_p := 7; dp_q := 0; dp_z := (0, 0); dp_i := (1, 0) |}] |}.
Definition demo_cap : dcap :=
  {| dc_phases := [("A", 100); ("B", 100)]; dc_connected := ["A"]; dc_high := None; dc_low := None; dc_control := Some "VOLT";
     dc_parent := Some "met"; dc_vnom := Some 2400; dc_switch := fun p => if String.eqb p "A" then Some "CLOSED" else None |}.
Definition demo_reg : dreg :=
  {| dr_nwindings := 2; dr_phases1 := abc; dr_phases2 := abc; dr_conn1 := Some "Y"; dr_conn2 := Some "Y";
     dr_from := Some "mid"; dr_to := Some "end"; dr_regulation := 1; dr_high := 16; dr_low := 16; dr_type := "B";
     dr_ctrl := "MANUAL"; dr_center := 2400; dr_width := 40; dr_raise := 16; dr_lower := 16; dr_creg := 1;
     dr_tap := fun p => if String.eqb p "A" then Some 20%Z else Some 3%Z |}.
Definition wire (p : string) (o : bool) : dwire := {| wi_phase := p; wi_open := o; wi_amp := None |}.
Definition demo_line (f s : bool) (ws : list dwire) (ps : option (list string)) : dline :=
  {| dl_fuse := f; dl_switch := s; dl_from := Some "mid"; dl_to := Some "end"; dl_phases := ps; dl_wires := ws; dl_limit := Some 100;
     dl_status := fun p => if String.eqb p "B" then Some "BLOWN" else None; dl_z := [[Some (1, 0)]]; dl_shunt := None; dl_len := 2 |}.
Definition demo_fuse := demo_line true false [wire "A" true; wire "B" false] None.
Definition demo_switch := demo_line false true [wire "A" true; wire "B" false; wire "C" false] (Some ["A"; "C"]).
Definition demo_plain := demo_line false false [wire "A" false; wire "N" false] None.
Definition demo_nodes : list dmodel :=
  [ node "src" abc true None 4000; node "mid" abc false None 2400; node "met" abc false (Some "mid") 2400;
    node "end" abc false None 2400; node "tri" ["1"; "2"] false None 120 ].
Definition demo1 : list dmodel := (demo_nodes ++ [MXfmr demo_xfmr; MIgnored])%list.
Definition demo2 : list dmodel := (demo_nodes ++ [MXfmr demo_tap])%list.
Definition demo3 : list dmodel := (demo_nodes ++ [MLoad demo_load; MCap demo_cap])%list.
Definition demo4 : list dmodel := MReg demo_reg :: demo_nodes.
Definition demo5 : list dmodel := (demo_nodes ++ [MLine demo_fuse; MLine demo_switch; MLine demo_plain])%list.

Fixpoint nodupb (l : list string) : bool := match l with [] => true | x :: r => negb (mem x r) && nodupb r end.
Lemma nodupb_ok l : nodupb l = true -> NoDup l.
Proof.
  induction l as [|x l IH]; cbn; intros H; constructor; apply andb_true_iff in H as [H1 H2]; [|now apply IH].
  intros I. apply mem_in in I. rewrite I in H1. discriminate.
Qed.
Lemma tidy_ok ms : (nodupb (map dn_name (nodes_of ms)) && forallb (fun nd => nodupb (dn_phases nd)) (nodes_of ms))%bool = true -> tidy ms.
Proof.
  intros H. apply andb_true_iff in H as [H1 H2]. split; [now apply nodupb_ok|].
  rewrite forallb_forall in H2. apply Forall_forall. intros nd Hn. apply nodupb_ok. auto.
Qed.
Lemma known_ok ms : forallb (fun m => forallb knownb (element_phases m)) ms = true -> Forall (fun m => Forall known (element_phases m)) ms.
Proof.
  intros H. rewrite forallb_forall in H. apply Forall_forall. intros m Hm. specialize (H m Hm). rewrite forallb_forall in H.
  apply Forall_forall. intros p Hp. apply knownb_spec. auto.
Qed.
Lemma demo_tidy : Forall tidy [demo1; demo2; demo3; demo4; demo5].
Proof. repeat (constructor; [apply tidy_ok; reflexivity|]). constructor. Qed.
Lemma demo_known : Forall (Forall (fun m => Forall known (element_phases m))) [demo1; demo2; demo3; demo4; demo5].
Proof. repeat (constructor; [apply known_ok; reflexivity|]). constructor. Qed.

Ltac run := lazy -[IZR Rplus Rmult Rminus Ropp Rinv Rdiv cos sin PI sqrt Rabs pdiv both0 reqb new_transformer new_center_tap new_unbalanced series_admittance].
Lemma demo_buses : exists n, create_buses demo_nodes = Ok n.
Proof. eexists. run. reflexivity. Qed.
Lemma both0_false a b : a <> 0 \/ b <> 0 -> both0 a b = false.
Proof. intros H. destruct (both0 a b) eqn:E; [|reflexivity]. apply both0_spec in E. tauto. Qed.
Lemma new_transformer_some r x tr a : r <> 0 \/ x <> 0 -> exists d, new_transformer r x tr a = Some d.
Proof. intros H. unfold new_transformer. rewrite both0_false by exact H. eauto. Qed.
Lemma series_admittance_some r x : r <> 0 -> exists gb, series_admittance r x = Ok gb.
Proof.
  intros H. unfold series_admittance. assert (NZ : r * r + x * x <> 0) by (apply sum_sq_nz; tauto).
  rewrite !pdiv_some by exact NZ. cbn. eauto.
Qed.
Lemma sq3 : sqrt 3 <> 0.
Proof. apply Rgt_not_eq, sqrt_lt_R0. lra. Qed.
Lemma mul_nz a b : a <> 0 -> b <> 0 -> a * b <> 0.
Proof. intros. apply Rmult_integral_contrapositive_currified; assumption. Qed.
Lemma div_nz a b : a <> 0 -> b <> 0 -> a / b <> 0.
Proof. intros. apply mul_nz; [assumption|now apply Rinv_neq_0_compat]. Qed.
Lemma center_tap_some ratio s res rea v : s <> 0 -> exists c, new_center_tap ratio s res rea v = Some c.
Proof. intros H. unfold new_center_tap, is0. destruct (Req_EM_T s 0); [contradiction|eauto]. Qed.
Lemma reqb_false a b : a <> b -> reqb a b = false.
Proof. intros H. unfold reqb. destruct (Req_EM_T a b); [contradiction|reflexivity]. Qed.
Ltac nz := lazymatch goal with
  | |- sqrt 3 <> 0 => exact sq3
  | |- _ * _ <> 0 => apply mul_nz; nz
  | |- _ / _ <> 0 => apply div_nz; nz
  | |- _ => try lra
  end.
Ltac advance := run; first
  [ match goal with |- context [pdiv ?a ?b] => rewrite (pdiv_some a b) by nz end
  | match goal with |- context [both0 ?a ?b] => rewrite (both0_false a b) by (left; nz) end
  | match goal with |- context [reqb ?a ?b] => rewrite (reqb_false a b) by nz end
  | match goal with |- context [series_admittance ?a ?b] => let H := fresh in let g := fresh "g" in let b' := fresh "b" in
      destruct (series_admittance_some a b) as [[g b'] H]; [nz|rewrite H] end
  | match goal with |- context [new_transformer ?a ?b ?c ?d] => let H := fresh in let dd := fresh "d" in destruct (new_transformer_some a b c d) as [dd H]; [left; nz|rewrite H] end
  | match goal with |- context [new_center_tap ?a ?b ?c ?d ?e] => let H := fresh in let dd := fresh "c" in destruct (center_tap_some a b c d e) as [dd H]; [nz|rewrite H] end
  | match goal with |- context [new_unbalanced ?a ?b ?c ?d] => let H := fresh in let dd := fresh "y" in destruct one_phase_accepted as [dd H]; change (new_unbalanced a b c d) with (new_unbalanced half_inv [[Some (1, 0)]] 2 1); rewrite H end ].
Lemma demo1_parses : exists n, parse_three half_inv false demo1 = Ok n.
Proof.
  unfold half_inv. assert (exists r, parse_three (fun _ => Some [[Some (1 / 2, 0)]]) false demo1 = r) as [r E] by eauto.
  rewrite E. revert E. repeat advance. run. intros <-. eexists. reflexivity.
Qed.
Lemma demo2_parses : exists n, parse_three half_inv false demo2 = Ok n.
Proof.
  unfold half_inv. assert (exists r, parse_three (fun _ => Some [[Some (1 / 2, 0)]]) false demo2 = r) as [r E] by eauto.
  rewrite E. revert E. repeat advance. run. intros <-. eexists. reflexivity.
Qed.
Lemma demo3_parses : exists n, parse_three half_inv false demo3 = Ok n.
Proof.
  unfold half_inv. assert (exists r, parse_three (fun _ => Some [[Some (1 / 2, 0)]]) false demo3 = r) as [r E] by eauto.
  rewrite E. revert E. repeat advance. run. intros <-. eexists. reflexivity.
Qed.
Lemma demo4_parses : exists n, parse_three half_inv false demo4 = Ok n.
Proof.
  unfold half_inv. assert (exists r, parse_three (fun _ => Some [[Some (1 / 2, 0)]]) false demo4 = r) as [r E] by eauto.
  rewrite E. revert E. repeat advance. run. intros <-. eexists. reflexivity.
Qed.
Lemma demo5_parses : exists n, parse_three half_inv false demo5 = Ok n.
Proof.
  unfold half_inv. assert (exists r, parse_three (fun _ => Some [[Some (1 / 2, 0)]]) false demo5 = r) as [r E] by eauto.
  rewrite E. revert E. repeat advance. run. intros <-. eexists. reflexivity.
Qed.

(** a swing node that is a child of "r", met after the node "q": its source carries q's voltage *)
Definition swing_child : list dmodel :=
  [ node "r" ["A"] false None 100; node "q" ["A"] false None 200; node "c" ["A"] true (Some "r") 300 ].
Lemma swing_child_takes_other : exists n, create_buses swing_child = Ok n /\ found n "r" "A" 0 /\
  nt_slack n = [{| sk_bus := 0; sk_v := 200; sk_ang := 0 |}].
Proof. eexists. run. split; [reflexivity|]. split; reflexivity. Qed.
(** a parent that comes after its child *)
Lemma late_parent : create_buses [node "c" ["A"] false (Some "r") 100; node "r" ["A"] false None 100] = Err KeyError.
Proof. run. reflexivity. Qed.
(** a delta with a single phase connects the coil's two ends to the same bus *)
Lemma one_phase_delta : get_phase_list true false ["A"] = ["AAAN"].
Proof. reflexivity. Qed.
Lemma two_phase_delta : get_phase_list true false ["A"; "B"] = ["ABAN"; "BABN"].
Proof. reflexivity. Qed.
(** load names that collide *)
Lemma load_names_collide : last_token "north_load_7" = "7" /\ last_token "south_load_7" = "7".
Proof. split; reflexivity. Qed.
Lemma demo_voltage : coil_voltage (coil 4000 1000 (Some "D") 1 abc) (4000 * sqrt 3).
Proof. exists 4000. split; [reflexivity|]. split; [reflexivity|]. intros H. exfalso. apply H. reflexivity. Qed.
Lemma demo_shunt_wrong n : parse_three half_inv false demo1 = Ok n ->
  exists fp fn tp tn d g b rt, In (TX fp fn tp tn d g b rt) (nt_xfmrs n) /\
    ~ inverse_of g b (3 * (4000 * sqrt 3 * (4000 * sqrt 3) / 1000)) (4 * (4000 * sqrt 3 * (4000 * sqrt 3) / 1000)).
Proof.
  intros E. assert (K : known_elements demo1) by (pose proof demo_known as H; now inversion H).
  destruct (p_shunt half_inv false demo1 n K E demo_xfmr (coil 4000 1000 (Some "D") 1 abc) (coil 2400 1000 (Some "Y") 1 abc) "A" 3 4 (4000 * sqrt 3) 1000) as (fp & fn & tp & tn & d & g & b & rt & I & _ & _ & H);
    try reflexivity; try lra.
  - right. right. right. right. right. left. reflexivity.
  - left. reflexivity.
  - apply demo_voltage.
  - exists fp, fn, tp, tn, d, g, b, rt. split; [exact I|]. intros Q. apply H in Q.
    assert (S : sqrt 3 * sqrt 3 = 3) by (apply sqrt_sqrt; lra). nra.
Qed.

Lemma three_demos : Forall (fun ms => tidy ms /\ known_elements ms /\ exists n, parse_three half_inv false ms = Ok n) [demo1; demo2; demo3; demo4; demo5].
Proof.
  pose proof demo_tidy as T. pose proof demo_known as K. rewrite Forall_forall in *.
  intros ms H. split; [exact (T ms H)|]. split; [exact (K ms H)|].
  destruct H as [<-|[<-|[<-|[<-|[<-|[]]]]]].
  - exact demo1_parses. - exact demo2_parses. - exact demo3_parses. - exact demo4_parses. - exact demo5_parses.
Qed.
Lemma demo_bus_count : tidy demo_nodes /\ exists n, create_buses demo_nodes = Ok n /\ List.length (nt_buses n) = 11%nat.
Proof. split; [apply tidy_ok; reflexivity|]. eexists. run. split; reflexivity. Qed.
Lemma demo_alias : exists n, create_buses demo_nodes = Ok n /\ found n "mid" "B" 4 /\ found n "met" "B" 4.
Proof. eexists. run. split; [reflexivity|]. split; reflexivity. Qed.
