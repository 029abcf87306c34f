(** Concrete networks for C42-C44. *)
From Coq Require Import String List Bool Arith ZArith Reals Lia Lra.
From Verif Require Import Expr Segment Collect SpecSystem Components SpecComponents UnbalancedLine Network SpecNetwork.
Import ListNotations.
Local Open Scope R_scope.

Definition bus7 := {| bus_id := 7; bus_Vm := 1; bus_Va := 0 |}.
Definition bus3 := {| bus_id := 3; bus_Vm := 2; bus_Va := 0 |}.
Definition bus9 := {| bus_id := 9; bus_Vm := 3; bus_Va := 0 |}.
Definition slack7 := {| sl_bus := Some 7%nat; sl_V := 1; sl_ang := 0; sl_Pinit := 50; sl_Qinit := 20 |}.
Definition gen3 := {| gen_bus := Some 3%nat; gen_P := 1; gen_Vset := 1; gen_Qmin := -1; gen_Qmax := 5; gen_Qinit := 1 |}.
(** slack and generator joined by a line and a transformer; bus 9 has nothing *)
Definition small (opt : option bool) : network :=
  {| nw_three_phase := false; nw_buses := [bus7; bus3; bus9];
     nw_lines := [ELine {| ln_G := 1; ln_B := 2; ln_Bsh := 0 |} (Some 7%nat) (Some 3%nat)];
     nw_transformers := [EXf {| xf_tr := 1; xf_ang := 0; xf_G := 1; xf_B := 1 |} (Some 7%nat) None (Some 3%nat) None];
     nw_slack := [slack7]; nw_switches := [ESwitch true (Some 7%nat) (Some 3%nat); ESwitch false (Some 7%nat) (Some 3%nat)];
     nw_generators := [gen3]; nw_loads := [ELoad {| ld_P := 1; ld_Q := 0; ld_Zr := 0; ld_Zi := 0; ld_IP := 0; ld_IQ := 0 |} (Some 3%nat) None];
     nw_misc := []; nw_sources := []; nw_shunts := [EShunt 1 1 (Some 3%nat)];
     nw_regulators := []; nw_fuses := []; nw_capacitors := []; nw_optimization := opt |}.
(** what an earlier assignment may have left on the buses *)
Definition stale : table := fun k => {| n_Vr := Some 0%nat; n_Vi := Some k; n_Lr := Some 5%nat; n_Li := None |}.
Lemma small_ok opt : network_ok (small opt).
Proof.
  split.
  - cbn. repeat constructor; cbn; lia.
  - cbn. intros e H k Hk. assert (k = 7 \/ k = 3)%nat as [->| ->]; [|auto|auto].
    repeat match type of H with _ \/ _ => destruct H as [<-|H]; [cbn in Hk; repeat match type of Hk with _ \/ _ => destruct Hk as [Hk|Hk] | False => destruct Hk end; try discriminate; injection Hk; auto|] | False => destruct H end.
Qed.
Lemma small_sizes : as_size (assign_matrix stale (small None)) = 15%nat /\ as_size (assign_matrix stale (small (Some false))) = 36%nat /\
  as_size (assign_matrix stale (small (Some true))) = 42%nat.
Proof.
  unfold assign_matrix, small; cbn -[Nat.add load_stampers]. unfold load_stampers. cbn [ld_P ld_Q ld_Zr ld_Zi ld_IP ld_IQ].
  destruct (both0 1 0), (both0 0 0); cbn; auto.
Qed.
Lemma small_isolated opt : isolated (small opt) 9%nat.
Proof.
  intros e H Hk. cbn in H.
  repeat match type of H with _ \/ _ => destruct H as [<-|H]; [cbn in Hk; repeat match type of Hk with _ \/ _ => destruct Hk as [Hk|Hk] | False => destruct Hk end; discriminate|] | False => destruct H end.
Qed.
Lemma small_indexes :
  as_table (assign_matrix stale (small None)) 3%nat = {| n_Vr := Some 2%nat; n_Vi := Some 3%nat; n_Lr := None; n_Li := None |} /\
  as_table (assign_matrix stale (small (Some true))) 3%nat = {| n_Vr := Some 4%nat; n_Vi := Some 5%nat; n_Lr := Some 6%nat; n_Li := Some 7%nat |} /\
  unknown_at (assign_matrix stale (small None)) 5%nat "Q"%string 14%nat /\ unknown_at (assign_matrix stale (small None)) 2%nat "I_Sr"%string 10%nat.
Proof.
  unfold unknown_at, assign_matrix, small; cbn -[Nat.add load_stampers]. unfold load_stampers. cbn [ld_P ld_Q ld_Zr ld_Zi ld_IP ld_IQ].
  destruct (both0 1 0), (both0 0 0); cbn; repeat split; try (do 3 eexists; split; reflexivity).
Qed.
(** reactive power of the generator: stored values are negated, so the start is -1 (given) or -2 (flat) *)
Lemma small_entries :
  tx_entry false (small None) (assign_matrix stale (small None)) 14%nat (-1) /\ tx_entry true (small None) (assign_matrix stale (small None)) 14%nat (-2) /\
  tx_entry false (small None) (assign_matrix stale (small None)) 10%nat (50 / 100) /\ tx_entry true (small None) (assign_matrix stale (small None)) 2%nat 1.
Proof.
  destruct small_indexes as [H1 [_ [H3 H4]]]. split; [|split; [|split]].
  - apply entry_generator with 0%nat gen3; [reflexivity|]. left; split; [exact H3|]. cbn; lra.
  - apply entry_generator with 0%nat gen3; [reflexivity|]. left; split; [exact H3|]. cbn; lra.
  - apply entry_slack with 0%nat slack7; [reflexivity|]. left; split; [exact H4|reflexivity].
  - apply entry_bus with bus3; [cbn; auto|]. left. change (bus_id bus3) with 3%nat. rewrite H1. auto.
Qed.
