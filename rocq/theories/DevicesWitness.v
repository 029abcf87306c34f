(** Concrete devices and power flows for the examples of C26, C27 and C29. *)
From Coq Require Import List Bool Arith ZArith Reals Lra Lia.
From Verif Require Import Devices SpecDevices DevicesProofs.
Import ListNotations.
Local Open Scope R_scope.

Definition hunting_cap : capacitor := new_capacitor C_VOLT 5 1 0 1.
(** the k-th power flow answers vector k; even vectors have no voltage, odd ones 10 *)
Definition hunting_flow (h : nat) (ds : list device) (v : nat) : nat * ((bool * nat * unit) + unit) := (S h, inl (true, S h, tt)).
Definition hunting_read (v : nat) (i : nat) : R := if Nat.even v then 0 else match i with O => 10 | _ => 0 end.
Lemma cabs00 : cabs 0 0 = 0.
Proof. unfold cabs. replace (0*0+0*0) with 0 by ring. apply sqrt_0. Qed.
Lemma cabs10 : cabs 10 0 = 10.
Proof. unfold cabs. replace (10*10+0*0) with (10*10) by ring. apply sqrt_square. lra. Qed.

Lemma adj_low : forall v, v 0%nat = 0 -> v 1%nat = 0 -> try_adjust_devices true v [DCap hunting_cap] = Some ([DCap (set_switch hunting_cap OPEN)], true).
Proof.
  intros v A B. simpl. unfold cap_adjust, hunting_cap. simpl. rewrite A, B, cabs00. unfold gtb, ltb.
  destruct (Rlt_dec 5 0); [lra|]. destruct (Rlt_dec 0 1); [|lra]. reflexivity.
Qed.
Lemma adj_low' : forall v, v 0%nat = 0 -> v 1%nat = 0 ->
  try_adjust_devices true v [DCap (set_switch hunting_cap OPEN)] = Some ([DCap (set_switch hunting_cap OPEN)], false).
Proof.
  intros v A B. simpl. unfold cap_adjust, hunting_cap. simpl. rewrite A, B, cabs00. unfold gtb, ltb.
  destruct (Rlt_dec 5 0); [lra|]. destruct (Rlt_dec 0 1); [|lra]. reflexivity.
Qed.
Lemma adj_high : forall v, v 0%nat = 10 -> v 1%nat = 0 -> try_adjust_devices true v [DCap (set_switch hunting_cap OPEN)] = Some ([DCap hunting_cap], true).
Proof.
  intros v A B. simpl. unfold cap_adjust, hunting_cap. simpl. rewrite A, B, cabs10. unfold gtb, ltb.
  destruct (Rlt_dec 5 10); [|lra]. destruct (Rlt_dec 10 1); [lra|]. reflexivity.
Qed.

Lemma hunting_gives_up : exists ds' h', device_run hunting_flow hunting_read true true 0%nat [DCap hunting_cap] 0%nat = DErr DENotSettled ds' h'.
Proof.
  exists [DCap (set_switch hunting_cap OPEN)], 10%nat. apply run_gives_up.
  exists [DCap (set_switch hunting_cap OPEN)], true. split; [apply adj_low; reflexivity|].
  exists (fun i => i), (fun i => if Nat.even i then [DCap (set_switch hunting_cap OPEN)] else [DCap hunting_cap]), (fun i => S i).
  do 4 (split; [reflexivity|]). intros i Hi. split; [destruct (Nat.even i); reflexivity|].
  split; [exists tt; reflexivity|]. rewrite Nat.even_succ, <- Nat.negb_even. destruct (Nat.even i) eqn:Ei; simpl negb; cbn iota.
  - apply adj_high; unfold hunting_read; now rewrite Nat.even_succ, <- Nat.negb_even, Ei.
  - apply adj_low; unfold hunting_read; now rewrite Nat.even_succ, <- Nat.negb_even, Ei.
Qed.

(** vectors: 1 inside the band, 2 and 3 without voltage; the first power flow answers 2, later ones 3 *)
Definition settling_flow (h : nat) (ds : list device) (v : nat) : nat * ((bool * nat * unit) + unit) :=
  (S h, inl (true, match h with O => 2%nat | _ => 3%nat end, tt)).
Definition settling_read (v : nat) (i : nat) : R := match v, i with 1%nat, O => 3 | _, _ => 0 end.
Lemma settling_settles : device_run settling_flow settling_read true true 0%nat [DCap hunting_cap] 1%nat = DOk true 3%nat tt [DCap (set_switch hunting_cap OPEN)] 2%nat.
Proof.
  unfold device_run.
  assert (E0 : try_adjust_devices true (settling_read 1) [DCap hunting_cap] = Some ([DCap hunting_cap], false)).
  { simpl. unfold cap_adjust, hunting_cap. simpl. replace (cabs 3 0) with 3.
    2:{ unfold cabs. replace (3*3+0*0) with (3*3) by ring. symmetry. apply sqrt_square. lra. }
    unfold gtb, ltb. destruct (Rlt_dec 5 3); [lra|]. destruct (Rlt_dec 3 1); [lra|]. reflexivity. }
  rewrite E0. unfold MAX_DEVICE_ITERATIONS. cbn [device_loop]. unfold solve at 1. cbn [any_blown existsb orb]. unfold settling_flow at 1.
  cbn [negb]. rewrite adj_low by reflexivity. unfold solve at 1. cbn [any_blown existsb orb]. unfold settling_flow at 1. cbn [negb].
  rewrite adj_low' by reflexivity. reflexivity.
Qed.

Definition overload_fuse : fuse := {| f_limit := 5; f_status := GOOD; f_Ir := 0; f_Ii := 1 |}.
Definition overload_flow (h : nat) (ds : list device) (v : nat) : nat * ((bool * nat * unit) + unit) := (S h, inl (true, 1%nat, tt)).
Definition overload_read (v : nat) (i : nat) : R := match v, i with 1%nat, O => 10 | _, _ => 0 end.
Lemma overload_raises : exists ds' h', device_run overload_flow overload_read true true 0%nat [DFuse overload_fuse] 0%nat = DErr DEBlown ds' h'.
Proof.
  exists [DFuse (set_status overload_fuse BLOWN)], 1%nat. unfold device_run.
  assert (E0 : try_adjust_devices true (overload_read 0) [DFuse overload_fuse] = Some ([DFuse overload_fuse], false)).
  { simpl. unfold fuse_adjust, overload_fuse. simpl. rewrite cabs00. unfold gtb. destruct (Rlt_dec 5 0); [lra|reflexivity]. }
  assert (E1 : try_adjust_devices true (overload_read 1) [DFuse overload_fuse] = Some ([DFuse (set_status overload_fuse BLOWN)], true)).
  { simpl. unfold fuse_adjust, overload_fuse. simpl. rewrite cabs10. unfold gtb. destruct (Rlt_dec 5 10); [reflexivity|lra]. }
  rewrite E0. unfold MAX_DEVICE_ITERATIONS. cbn [device_loop]. unfold solve at 1. cbn [any_blown existsb orb fuse_stamps_raise overload_fuse f_status].
  unfold overload_flow at 1. cbn [negb]. fold overload_fuse. rewrite E1. reflexivity.
Qed.

Lemma low_voltage_opens : exists c', cap_adjust (fun _ => 0) hunting_cap = Some (c', true) /\ c_switch c' = OPEN.
Proof.
  exists (set_switch hunting_cap OPEN). split; [|reflexivity]. unfold cap_adjust, hunting_cap. simpl. rewrite cabs00. unfold gtb, ltb.
  destruct (Rlt_dec 5 0); [lra|]. destruct (Rlt_dec 0 1); [|lra]. reflexivity.
Qed.
Lemma sides : last_side 1 5 [3; 0; 2] = Some true /\ last_side 1 5 [0; 6; 3] = Some false /\ last_side 1 5 [2; 3] = None.
Proof. unfold last_side. cbn [fold_left]. repeat destruct (Rlt_dec _ _); try (exfalso; lra); auto. Qed.
