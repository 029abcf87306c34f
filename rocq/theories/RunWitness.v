(** The house of CommandWitness in the terms of its file. *)
From Coq Require Import String Reals ZArith List Bool Arith Lia Lra.
From Verif Require Import PyExc Components SpecComponents SpecSystem Devices Network Solver SpecKirchhoff NetStamper SpecNetStamper PowerFlow SpecPowerFlow NewtonGauss SpecNewton
  ThreePhase RawParser Loader LoaderWitness SolverNet Command SpecCommand CommandWitness SpecParts PartsFile PartsWitness SpecRun RunFinal.
From Verif Require KirchhoffWitness.
From Verif Require TimeSeries.
Import ListNotations.
Local Open Scope R_scope.

Lemma home_unique old nw' : scaled 0 home_nw nw' -> one_solution (equations (assign_matrix old nw')) (as_size (assign_matrix old nw')).
Proof.
  intros SC. destruct (home_scaled _ _ SC) as (d & -> & D1 & D2 & D3 & D4 & D5). destruct (home_assigned old d D1 D2 D3 D4 D5) as [EQ SZ]. cbv zeta in *. rewrite EQ, SZ.
  destruct home_solution as [HS HU]. exists home_point. split; [reflexivity|]. split; assumption.
Qed.
(** with factor -1 the house gives what it was meant to take *)
Definition house_again : net :=
  {| nt_next := 1; nt_buses := nt_buses home_net; nt_map := nt_map home_net; nt_slack := nt_slack home_net;
     nt_loads := [{| tl_from := Some 0%nat; tl_to := None; tl_p := -3; tl_q := -4; tl_z := (0, 0); tl_ip := 0; tl_iq := 0; tl_name := "7"%string; tl_phase := "A"%string; tl_triplex := None |}];
     nt_xfmrs := []; nt_caps := []; nt_regs := []; nt_fuses := []; nt_switches := []; nt_lines := [] |}.
Lemma house_reversed : net_again (-1) home_net house_again /\ lit house_again (house_at 2401).
Proof.
  split.
  - unfold net_again. cbn. repeat split; repeat constructor. cbn. unfold Cscale. cbn. f_equal; lra.
  - intros l [<-|[]] _. cbn. unfold Csub, C0. cbn. intros H. injection H. lra.
Qed.
Lemma house_reads : reads home_net (vec home_point) (house_at 2401).
Proof. split; [reflexivity|]. intros [|[|k]] b H; try discriminate. injection H as <-. reflexivity. Qed.
Lemma gauss_sized : sized gauss.
Proof. intros so es J so' v E. injection E as _ <-. now rewrite map_length, seq_length. Qed.
(** the two buses of PartsWitness *)
Definition pair_again : onet :=
  {| n_buses := n_buses pair_net; n_slack := n_slack pair_net; n_gens := []; n_loads := [(7%Z, {| ld_P := - (2 / 9); ld_Q := 0; ld_Zr := 0; ld_Zi := 0; ld_IP := 0; ld_IQ := 0 |})];
     n_shunts := []; n_lines := n_lines pair_net; n_xfmrs := [] |}.
Lemma pair_reversed : onet_again (-1) pair_net pair_again /\ reads_raw pair_net (vec [1; 0; 1 / 3; 0]) (pair_at (1 / 3)) /\ powered pair_again (pair_at (1 / 3)).
Proof.
  split; [|split].
  - unfold onet_again. cbn. repeat split. constructor; [|constructor]. cbn. unfold Cscale, KirchhoffWitness.far_load. cbn. repeat split. f_equal; lra.
  - intros [|[|k]] b H; cbn in H; [injection H as <-; reflexivity|injection H as <-; reflexivity|]. destruct k; discriminate.
  - split; [|intros g []]. intros z l [H|[]] _. injection H as <- <-. unfold pair_at, C0; cbn. intros H; injection H; intros; lra.
Qed.
