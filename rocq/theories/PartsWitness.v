(** Concrete circuits for C156. *)
From Coq Require Import String Reals ZArith List Bool Arith Lia Lra.
From Verif Require Import PyExc Components SpecComponents SpecUnbalanced Devices Network SpecNetwork SpecKirchhoff KirchhoffWitness ThreePhase RawParser SpecRaw SolverNet CommandWitness SpecParts PartsFinal PartsFile.
Import ListNotations.
Local Open Scope R_scope.

(** the house of CommandWitness with voltage x at its only bus *)
Definition house_at (x : R) (b : bref) : C := match b with None => C0 | Some _ => (x, 0) end.
Definition house_current (x : R) : C := (3 / x, - (4 / x)).
Lemma house_circuit : circuit home_net (house_at 2401) (fun x => x = 0).
Proof.
  split; [reflexivity|]. set (I := Cadd (house_current 2401) (Cadd (0, 0) C0)).
  exists [(PSlack {| sk_bus := 0; sk_v := 2401; sk_ang := 0 |}, [(Some 0%nat, Copp I)], re_im (Csub (2401, 0) (Cpolar 2401 0)));
          (PLoad home_load, [(Some 0%nat, I); (None, Copp I)], [])].
  split; [reflexivity|]. split; [|split].
  - repeat apply Forall_cons; cbn [fst snd]; try apply Forall_nil.
    + exact (law_slack home_net (house_at 2401) {| sk_bus := 0; sk_v := 2401; sk_ang := 0 |} (Copp I)).
    + apply (law_load home_net (house_at 2401) home_load (house_current 2401) C0).
      * right. split; [unfold home_load, house_at, Csub, C0; cbn; intros H; injection H; intros; lra|].
        unfold power, home_load, house_at, house_current, Csub, Cmul, Cconj, C0; cbn. f_equal; field.
      * left. split; reflexivity.
  - cbn [flat_map app snd re_im fst]. unfold Cpolar. rewrite cos_0, sin_0. unfold Csub; cbn. repeat constructor; lra.
  - intros b [<-|[]]. cbn. unfold I, Cadd, Copp, house_current, C0; cbn. split; lra.
Qed.
(** no other voltage is possible *)
Lemma house_only x : circuit home_net (house_at x) (fun y => y = 0) -> x = 2401.
Proof.
  intros (_ & ac & E & L & Z & _). destruct ac as [|[[p i] m] ac]; [discriminate|]. cbn in E. injection E as -> E. inversion L as [|? ? L1 L2]. subst. cbn [fst snd] in L1.
  inversion L1; subst. cbn [flat_map snd re_im app sk_bus sk_v sk_ang house_at] in Z. inversion Z as [|? ? Z1 Z2]; subst. unfold Csub, Cpolar in Z1. cbn in Z1. rewrite cos_0 in Z1. lra.
Qed.

(** two buses with the numbers 101 and 7 *)
Definition pair_net : onet :=
  {| n_buses := [{| ob_num := 101; ob_type := 0; ob_vm := 1; ob_va := 0 |}; {| ob_num := 7; ob_type := 1; ob_vm := 1; ob_va := 0 |}];
     n_slack := [{| RawParser.sl_bus := 101; sl_vset := 1; RawParser.sl_ang := 0; sl_pinit := 3; sl_qinit := 4 |}]; n_gens := []; n_loads := [(7%Z, far_load)]; n_shunts := [];
     n_lines := [((101, 7)%Z, {| ln_G := 1; ln_B := 0; ln_Bsh := 0 |})]; n_xfmrs := [] |}.
Definition pair_at (x : R) (z : Z) : C := if Z.eqb z 101 then (1, 0) else (x, 0).
Lemma pair_fits : well_attached pair_net /\ NoDup (map RawParser.ob_num (n_buses pair_net)).
Proof. split; [unfold well_attached, attached; cbn; repeat split; repeat (apply Forall_cons || apply Forall_nil || split); cbn; auto|repeat constructor; cbn; intuition discriminate]. Qed.
Lemma pair_sequence x : x * (1 - x) = 2 / 9 -> sequence pair_net (pair_at x) (fun y => y = 0).
Proof.
  intros E. assert (x <> 0) as NZ by (intros ->; lra). set (l := {| ln_G := 1; ln_B := 0; ln_Bsh := 0 |}).
  pose (I := Cmul (ln_G l, ln_B l) (Csub (pair_at x 101) (pair_at x 7))).
  exists [(QLine ((101, 7)%Z, l), [(101%Z, Cadd I (Cmul (0, ln_Bsh l) (pair_at x 101))); (7%Z, Csub (Cmul (0, ln_Bsh l) (pair_at x 7)) I)], []);
          (QSlack {| RawParser.sl_bus := 101; sl_vset := 1; RawParser.sl_ang := 0; sl_pinit := 3; sl_qinit := 4 |}, [(101%Z, (x - 1, 0))], re_im (Csub (pair_at x 101) (Cpolar 1 0)));
          (QLoad (7%Z, far_load), [(7%Z, Cadd (1 - x, 0) (Cadd (0, 0) C0))], [])].
  split; [reflexivity|]. split; [|split].
  - repeat apply Forall_cons; cbn [fst snd]; try apply Forall_nil.
    + exact (ob_line (pair_at x) 101 7 l).
    + exact (ob_slack (pair_at x) {| RawParser.sl_bus := 101; sl_vset := 1; RawParser.sl_ang := 0; sl_pinit := 3; sl_qinit := 4 |} (x - 1, 0)).
    + apply (ob_load (pair_at x) 7 far_load (1 - x, 0) C0).
      * right. split; [unfold pair_at, C0; cbn; intros H; injection H; intros; lra|]. unfold power, pair_at, Cmul, Cconj, far_load; cbn. f_equal; nra.
      * left. split; reflexivity.
  - cbn [flat_map app snd re_im fst pair_at Z.eqb]. rewrite polar1. unfold pair_at, Csub; cbn. repeat constructor; lra.
  - intros b [<-|[<-|[]]]; unfold I, l; cbn; unfold pair_at, Cadd, Csub, Cmul, C0; cbn; split; lra.
Qed.
Lemma pair_both : sequence pair_net (pair_at (1 / 3)) (fun y => y = 0) /\ powered pair_net (pair_at (1 / 3)) /\ by_number pair_net (fun b => match b with None => C0 | Some 0%nat => (1, 0) | Some _ => (1 / 3, 0) end) (pair_at (1 / 3)).
Proof.
  split; [apply pair_sequence; lra|]. split.
  - split; [|intros g []]. intros z l [H|[]] _. injection H as <- <-. unfold pair_at, C0; cbn. intros H; injection H; intros; lra.
  - intros [|[|k]] b H; cbn in H; [injection H as <-; reflexivity|injection H as <-; reflexivity|]. destruct k; discriminate.
Qed.
(** a net with a fuse and a capacitor *)
Definition guarded_net : net :=
  {| nt_next := 1; nt_buses := [home_bus]; nt_map := []; nt_slack := []; nt_loads := []; nt_xfmrs := [];
     nt_caps := [{| tc_bus := 0; tc_B := 1; tc_mode := C_VOLT; tc_high := Some 2500; tc_low := Some 2300; tc_switch := OPEN |}]; nt_regs := [];
     nt_fuses := [{| tf_from := 0; tf_to := 0; tf_mid := 0; tf_limit := 100; tf_status := GOOD; tf_phase := "A"%string |}]; nt_switches := []; nt_lines := [] |}.
Lemma guarded : exists n, nt_fuses n <> [] /\ nt_caps n <> [] /\ exists hi lo, option_map tc_high (nth_error (nt_caps n) 0) = Some (Some hi) /\ option_map tc_low (nth_error (nt_caps n) 0) = Some (Some lo).
Proof. exists guarded_net. split; [discriminate|]. split; [discriminate|]. exists 2500, 2300. split; reflexivity. Qed.
