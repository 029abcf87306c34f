(** Concrete networks for C143. *)
From Coq Require Import String List Bool Arith ZArith Reals Lia Lra.
From Verif Require Import Expr Collect SpecSystem Components SpecComponents Network SpecNetwork NetworkAssign Solver Homotopy SpecKirchhoff KirchhoffWitness SpecNetStamper NetStamper NetStart.
Import ListNotations.
Local Open Scope R_scope.

(** the network of KirchhoffWitness.v, with a solver that answers with the right hand side *)
Definition echo (so : unit) (es : list (nat * nat * R)) (J : list R) : unit * option (list R) := (so, Some J).
Lemma echo_answers : always_answers echo.
Proof. intros so es J. exists so, J. auto. Qed.
Lemma echo_sized : sized echo.
Proof. intros so es J so' v H. now injection H as _ <-. Qed.
Lemma feeder_ends : ends_on_buses feeder.
Proof. split; cbn; intros; intuition discriminate. Qed.
Lemma feeder_live x : x <> 0 -> live feeder (far x).
Proof. intros H. split; [now apply far_energised|]. cbn. intros. intuition discriminate. Qed.
Definition short := {| set_tolerance := 1 / 100; set_max_iters := 3; set_debug := false |}.
Lemma feeder_solved old : let a := assign_matrix old feeder in exists ms v0, matrix_stamper 0 feeder a = Some ms /\ length v0 = as_size a /\
  voltages a (vec v0) (Some 8%nat) = (2 / 3, 0) /\
  exists r s', net_homotopy echo None short true ms tt v0 = HOk r s' /\ h_ok r = true.
Proof.
  intros a. destruct (physical_found old feeder feeder_ok feeder_ends 0 unit echo None short true (far (2 / 3))) as [ms [v0 [A [B [C D]]]]]; try reflexivity.
  - apply far_both.
  - exact echo_answers.
  - cbn. lia.
  - rewrite total_size by apply feeder_ok. unfold expected_size, unknowns. cbn. lia.
  - cbn. lra.
  - exists ms, v0. split; [exact A|]. split; [exact B|]. split; [apply (C {| bus_id := 8; bus_Vm := 1; bus_Va := 0 |}); cbn; auto|].
    destruct (D tt) as [r [s' [H1 [H2 _]]]]. eauto.
Qed.

(** the first element is a center tapped transformer whose inner nodes are all grounded *)
Definition grounded (misc : list elem) : network :=
  {| nw_three_phase := true; nw_buses := [{| bus_id := 4; bus_Vm := 1; bus_Va := 0 |}; {| bus_id := 8; bus_Vm := 1; bus_Va := 0 |}; {| bus_id := 9; bus_Vm := 1; bus_Va := 0 |}];
     nw_lines := misc; nw_transformers := [ECt {| ct_ratio := 60; ct_g0 := 1; ct_b0 := 0; ct_g1 := 1; ct_b1 := 0; ct_g2 := 1; ct_b2 := 0 |} (Some 4%nat) None None (Some 8%nat) None (Some 9%nat)];
     nw_slack := []; nw_switches := []; nw_generators := []; nw_loads := []; nw_misc := []; nw_sources := []; nw_shunts := [];
     nw_regulators := []; nw_fuses := []; nw_capacitors := []; nw_optimization := None |}.
Lemma grounded_ok : network_ok (grounded []).
Proof.
  split.
  - cbn. repeat constructor; cbn; lia.
  - cbn. intros e [<-|[]] k Hk. cbn in Hk. intuition (try discriminate); match goal with H : Some _ = Some k |- _ => injection H as <- end; auto.
Qed.
Lemma grounded_refused old nan : matrix_stamper nan (grounded []) (assign_matrix old (grounded [])) = None.
Proof. vm_compute. reflexivity. Qed.
