(** A network for C144: a slack, a fuse and a capacitor without load.  The capacitor is opened before the first run because its initial
    voltage 1 is below its band. *)
From Coq Require Import String List Bool Arith ZArith Reals Permutation Lia Lra.
From Verif Require Import Expr Collect SpecSystem Components SpecComponents Network SpecNetwork NetworkAssign NetworkInit Solver SpecSolver Homotopy Devices SpecDevices DevicesProofs Graph SpecGraph GraphProofs
  SpecKirchhoff KirchhoffProofs KirchhoffNet SpecNetStamper NetStamper NetRun NetStart PowerFlow SpecPowerFlow PowerFlowProofs PowerFlowGraph PowerFlowDevices PowerFlowRun.
Import ListNotations.
Local Open Scope R_scope.

Definition quiet (closed : bool) : network :=
  {| nw_three_phase := true; nw_buses := [{| bus_id := 1; bus_Vm := 1; bus_Va := 0 |}; {| bus_id := 2; bus_Vm := 1; bus_Va := 0 |}; {| bus_id := 3; bus_Vm := 1; bus_Va := 0 |}];
     nw_lines := []; nw_transformers := []; nw_slack := [{| sl_bus := Some 1%nat; sl_V := 1; sl_ang := 0; sl_Pinit := 0; sl_Qinit := 0 |}]; nw_switches := [];
     nw_generators := []; nw_loads := []; nw_misc := []; nw_sources := []; nw_shunts := [];
     nw_regulators := []; nw_fuses := [EFuse (Some 1%nat) (Some 2%nat) (Some 3%nat)]; nw_capacitors := [ECap 1 closed (Some 2%nat) None]; nw_optimization := None |}.
(** places 10 and 20, the bus inside the fuse is virtual *)
Definition quiet_details : details_of :=
  {| of_bus := fun k => {| gb_ground := false; gb_name := 10 * k; gb_phase := 0; gb_virtual := Nat.eqb k 3; gb_vnom := 1 |};
     of_fuse := fun _ => (1, GOOD); of_cap := fun _ => (C_VOLT, 5, 2) |}.
Definition quiet_settings := {| pf_nr := {| set_tolerance := 1 / 100; set_max_iters := 3; set_debug := false |}; pf_limiting := false; pf_flat := false; pf_tx_stepping := false; pf_device_control := true |}.
Definition zeros (so : nat) (es : list (nat * nat * R)) (J : list R) : nat * option (list R) := (S so, Some (repeat 0 (length J))).
Lemma zeros_answers : always_answers zeros.
Proof. intros so es J. exists (S so), (repeat 0 (length J)). split; [reflexivity|apply repeat_length]. Qed.
Lemma zeros_sized : sized zeros.
Proof. intros so es J so' v H. injection H as _ <-. apply repeat_length. Qed.
Ltac in_cases H := repeat match type of H with _ \/ _ => destruct H as [<-|H] | False => destruct H end.
Lemma quiet_ok c : network_ok (quiet c).
Proof.
  split; [cbn; repeat constructor; cbn; lia|]. cbn. intros e H k Hk. in_cases H; cbn in Hk; repeat match type of Hk with _ \/ _ => destruct Hk as [Hk|Hk] | False => destruct Hk end; try discriminate; injection Hk as <-; auto.
Qed.
Lemma quiet_ends c : ends_on_buses (quiet c).
Proof. split; cbn; intros; intuition discriminate. Qed.
Lemma quiet_sorted c : sorted (quiet c).
Proof. split; cbn; intros e H; in_cases H; eauto 10. Qed.
Lemma quiet_proper c : proper quiet_details (quiet c).
Proof.
  split; [reflexivity|]. split.
  - cbn. intros e f t k H J E. in_cases H; inversion J; subst; destruct E as [E|E]; try discriminate; injection E as <-; reflexivity.
  - cbn. intros s k H E. repeat match type of H with _ \/ _ => destruct H as [H|H] | False => destruct H end; try discriminate. injection H as <-. injection E as <-. reflexivity.
Qed.
Lemma quiet_energised c V : energised (quiet c) V.
Proof. split; cbn; intros; intuition discriminate. Qed.
Lemma quiet_accepted c : accepted (fun l => l) (graph_of quiet_details (quiet c)) = true.
Proof.
  unfold accepted. apply andb_true_iff. split; [vm_compute; reflexivity|].
  apply close_validate; [exact (graph_ends quiet_details (quiet c) (quiet_ok c) (quiet_proper c))|intros; apply Permutation_refl|].
  assert (forall n b, first_bus (graph_of quiet_details (quiet c)) n b -> gb_vnom b = 1) as G.
  { intros n b [l [r [E [_ _]]]]. assert (In b (filter (fun b => negb (gb_virtual b)) (gn_buses (graph_of quiet_details (quiet c))))) as I by (rewrite E; apply in_elt).
    apply filter_In in I as [I _]. cbn in I. in_cases I; reflexivity. }
  intros u v bu bv _ Hu Hv. rewrite (G _ _ Hu), (G _ _ Hv). rewrite Rminus_diag_eq, Rabs_R0 by reflexivity. lra.
Qed.

(** *** the vectors *)
Section Vectors.
Variable old : table.
Let a c := assign_matrix old (quiet c).
Lemma quiet_size c : as_size (a c) = 10%nat.
Proof. unfold a. rewrite total_size by apply quiet_ok. reflexivity. Qed.
Lemma quiet_init i : (i < 10)%nat -> vec (v_init quiet_settings (quiet true) (a true)) i = if (Nat.even i && (i <? 6))%bool then 1 else 0.
Proof.
  intros Hi. unfold vec, v_init. rewrite quiet_size. cbn [nw_three_phase quiet].
  rewrite (nth_indep _ 0 (dx_init (quiet true) (a true) 0%nat)) by (rewrite map_length, seq_length; lia). rewrite map_nth, seq_nth by lia. rewrite Nat.add_0_l.
  destruct (dx_init_values old (quiet true) (quiet_ok true)) as [D1 [D2 D3]]. fold (a true) in D1, D2, D3.
  assert (forall k b, nth_error (nw_buses (quiet true)) k = Some b -> as_table (a true) (bus_id b) = new_nodes (2 * k) false) as T.
  { intros k b Hk. exact (table_at old (quiet true) (quiet_ok true) eq_refl k b Hk). }
  assert (forall k b, nth_error (nw_buses (quiet true)) k = Some b -> dx_init (quiet true) (a true) (2 * k)%nat = 1 /\ dx_init (quiet true) (a true) (2 * k + 1)%nat = 0) as B.
  { intros k b Hk. pose proof (T k b Hk) as E. assert (bus_Vm b = 1 /\ bus_Va b = 0) as [V1 V2] by (destruct k as [|[|[|[|]]]]; cbn in Hk; try discriminate; injection Hk as <-; auto).
    split; [rewrite (D1 b _ (nth_error_In _ _ Hk)) by (rewrite E; reflexivity)|rewrite (D2 b _ (nth_error_In _ _ Hk)) by (rewrite E; reflexivity)];
    rewrite V1, V2, ?cos_0, ?sin_0; ring. }
  destruct (le_lt_dec 6 i) as [L|L].
  - replace (i <? 6)%nat with false by (symmetry; apply Nat.ltb_ge; lia). rewrite andb_false_r. apply D3. intros b Hb.
    apply In_nth_error in Hb as [k Hk]. rewrite (T k b Hk). assert (k < 3)%nat by (change 3%nat with (length (nw_buses (quiet true))); apply nth_error_Some; congruence).
    cbn [new_nodes n_Vr n_Vi]. split; intros E; injection E; lia.
  - destruct i as [|[|[|[|[|[|]]]]]]; cbn [Nat.even Nat.ltb Nat.leb andb]; try lia.
    + apply (B 0%nat _ eq_refl). + apply (B 0%nat _ eq_refl). + apply (B 1%nat _ eq_refl). + apply (B 1%nat _ eq_refl). + apply (B 2%nat _ eq_refl). + apply (B 2%nat _ eq_refl).
Qed.
Lemma quiet_devices c : devices_of quiet_details (quiet c) (a c) =
  [DFuse {| f_limit := 1; f_status := GOOD; f_Ir := 8; f_Ii := 9 |};
   DCap {| c_mode := C_VOLT; c_high := 5; c_low := 2; c_switch := if c then CLOSED else OPEN; c_Vr := 2; c_Vi := 3 |}].
Proof.
  unfold devices_of. cbn [nw_three_phase quiet number map nw_fuses nw_capacitors app fst snd].
  destruct (sensor_at old (quiet c) 0 (Some 1%nat) (Some 2%nat) (Some 3%nat) eq_refl eq_refl eq_refl) as [S1 S2]. fold (a c) in S1, S2.
  unfold fuse_of. cbv zeta. rewrite S1, S2. unfold cap_of. cbn [of_cap quiet_details at_ref].
  rewrite (table_at old (quiet c) (quiet_ok c) eq_refl 1 {| bus_id := 2; bus_Vm := 1; bus_Va := 0 |} eq_refl : as_table (a c) 2%nat = _). reflexivity.
Qed.
Definition opened : list device :=
  [DFuse {| f_limit := 1; f_status := GOOD; f_Ir := 8; f_Ii := 9 |};
   DCap {| c_mode := C_VOLT; c_high := 5; c_low := 2; c_switch := OPEN; c_Vr := 2; c_Vi := 3 |}].
Lemma cabs_real r : 0 <= r -> cabs r 0 = r.
Proof. intros H. unfold cabs. replace (r * r + 0 * 0) with (r * r) by ring. now apply sqrt_square. Qed.
Lemma quiet_adjusted : adjust_all (vec (v_init quiet_settings (quiet true) (a true))) (devices_of quiet_details (quiet true) (a true)) = Some (opened, true).
Proof.
  rewrite quiet_devices. cbn [adjust_all adjust_device fuse_adjust f_status f_limit f_Ir f_Ii cap_adjust c_mode c_high c_low c_switch c_Vr c_Vi].
  rewrite !quiet_init by lia. cbn [Nat.even Nat.ltb Nat.leb andb]. rewrite !cabs_real by lra. unfold gtb, ltb.
  repeat (destruct (Rlt_dec _ _); try lra). reflexivity.
Qed.
Lemma opened_rest n : adjust_all (vec (repeat 0 n)) opened = Some (opened, false).
Proof.
  assert (forall i, vec (repeat 0 n) i = 0) as Z by (intros i; unfold vec; destruct (le_lt_dec n i); [apply nth_overflow; rewrite repeat_length; lia|now apply nth_repeat]).
  unfold opened. cbn [adjust_all adjust_device fuse_adjust f_status f_limit f_Ir f_Ii cap_adjust c_mode c_high c_low c_switch c_Vr c_Vi].
  rewrite !Z, !cabs_real by lra. unfold gtb, ltb. repeat (destruct (Rlt_dec _ _); try lra). reflexivity.
Qed.
Lemma quiet_opened : with_devices (quiet true) opened = quiet false.
Proof. reflexivity. Qed.
(** the initial vector obeys all laws once the capacitor is open *)
Lemma quiet_exact r : (r < 10)%nat -> F (equations (a false)) (vec (v_init quiet_settings (quiet true) (a true))) 0 r = 0.
Proof.
  intros Hr. set (v := vec _). pose proof (rows_of_vector old (quiet false) (quiet_ok false) eq_refl v) as GR.
  assert (forall j, (j < 6)%nat -> v j = if Nat.even j then 1 else 0) as V1.
  { intros j Hj. unfold v. rewrite quiet_init by lia. replace (j <? 6)%nat with true by (symmetry; apply Nat.ltb_lt; lia). rewrite andb_true_r. reflexivity. }
  assert (forall j, (6 <= j < 10)%nat -> v j = 0) as V2.
  { intros j Hj. unfold v. rewrite quiet_init by lia. replace (j <? 6)%nat with false by (symmetry; apply Nat.ltb_ge; lia). rewrite andb_false_r. reflexivity. }
  assert (forall k, In k [1%nat; 2%nat; 3%nat] -> voltages (a false) v (Some k) = (1, 0)) as VB.
  { intros k Hk. assert (forall j b, nth_error (nw_buses (quiet false)) j = Some b -> voltages (a false) v (Some (bus_id b)) = (1, 0)) as Q.
    { intros j b Hb. unfold voltages. cbn [at_ref]. pose proof (table_at old (quiet false) (quiet_ok false) eq_refl j b Hb) as E. fold (a false) in E. rewrite E.
      assert (j < 3)%nat by (change 3%nat with (length (nw_buses (quiet false))); apply nth_error_Some; congruence).
      unfold volt. cbn [new_nodes n_Vr n_Vi read]. rewrite !V1 by lia. rewrite Nat.even_add, Nat.even_mul. cbn [Nat.even orb Bool.eqb]. reflexivity. }
    cbn in Hk; in_cases Hk; [exact (Q 0%nat _ eq_refl)|exact (Q 1%nat _ eq_refl)|exact (Q 2%nat _ eq_refl)]. }
  assert (account_of (voltages (a false) v) v 6 (elements (quiet false)) =
    [ (ESlack {| sl_bus := Some 1%nat; sl_V := 1; sl_ang := 0; sl_Pinit := 0; sl_Qinit := 0 |}, [(Some 1%nat, C0)], [0; 0]);
      (EFuse (Some 1%nat) (Some 2%nat) (Some 3%nat), [(Some 1%nat, C0); (Some 3%nat, C0); (Some 2%nat, C0)], [0; 0]);
      (ECap 1 false (Some 2%nat) None, [], []) ]) as EA.
  { cbn [elements quiet nw_three_phase nw_lines nw_transformers nw_slack nw_switches nw_generators nw_loads nw_misc nw_regulators nw_fuses nw_capacitors map app account_of own_unknowns].
    cbn [draws laws sl_bus sl_V sl_ang]. unfold pair_of, across, re_im. rewrite !VB by (cbn; auto). cbn [Nat.add]. rewrite !V2 by lia. unfold Cpolar, Csub, Cmul, Copp, C0. rewrite cos_0, sin_0. cbn [fst snd].
    repeat f_equal; try lra. }
  change (2 * length (nw_buses (quiet false)))%nat with 6%nat in GR. fold (a false) in GR. rewrite EA in GR.
  destruct (row_cases old (quiet false) v _ r GR) as [[k [b [Hk Hr']]]|[j [y [Hj ->]]]]; [fold (a false); rewrite quiet_size; exact Hr| |]; destruct GR as [G1 [G2 _]].
  - specialize (G1 k b Hk). assert (net_current (bus_id b) [ (ESlack {| sl_bus := Some 1%nat; sl_V := 1; sl_ang := 0; sl_Pinit := 0; sl_Qinit := 0 |}, [(Some 1%nat, C0)], [0; 0]);
      (EFuse (Some 1%nat) (Some 2%nat) (Some 3%nat), [(Some 1%nat, C0); (Some 3%nat, C0); (Some 2%nat, C0)], [0; 0]); (ECap 1 false (Some 2%nat) None, [], []) ] = C0) as Z.
    { apply nth_error_In in Hk. cbn in Hk. in_cases Hk; unfold net_current; cbn; unfold Cadd, C0; cbn; f_equal; lra. }
    rewrite Z in G1. unfold C0 in G1. injection G1 as E1 E2. destruct Hr' as [-> | ->]; auto.
  - rewrite (G2 j y Hj). destruct j as [|[|[|[|j]]]]; cbn in Hj; try (injection Hj as <-; reflexivity). destruct j; discriminate.
Qed.
End Vectors.

Lemma quiet_run old nan : exists v it tx res so', execute quiet_details zeros nan quiet_settings old (fun l => l) (quiet true) 0%nat = PFDone true v it tx res opened so'.
Proof.
  destruct (start_accepted old (quiet false) (quiet_ok false) (quiet_ends false) nan nat zeros None (pf_nr quiet_settings) false) as [ms [Em H]]; try reflexivity.
  { exact zeros_answers. } { cbn; lia. } { rewrite quiet_size. lia. }
  destruct (network_success old (quiet false) (quiet_ok false) (quiet_ends false) nan nat zeros None (pf_nr quiet_settings) false zeros_sized) as [ms' [Em' H']].
  rewrite Em in Em'. injection Em' as <-.
  set (a := assign_matrix old (quiet true)). destruct (H 0%nat (v_init quiet_settings (quiet true) a)) as [r [s' [E1 [E2 [E3 [E4 _]]]]]].
  { unfold v_init. rewrite map_length, seq_length. unfold a. now rewrite !quiet_size. }
  { rewrite quiet_size. intros r Hr. unfold a. rewrite quiet_exact by exact Hr. rewrite Rabs_R0. cbn. lra. }
  destruct (H' _ _ _ _ ltac:(unfold v_init; rewrite map_length, seq_length; unfold a; now rewrite !quiet_size) E1 E2) as [L [u [lin [stale [J [so0 [K _]]]]]]].
  unfold zeros in K. injection K as K1 K2.
  pose proof (quiet_accepted true) as AC. unfold accepted in AC. apply andb_true_iff in AC as [AC1 AC2].
  unfold execute. rewrite AC1, AC2. cbn [negb]. fold a. unfold device_run. cbn [pf_device_control quiet_settings nw_three_phase quiet try_adjust_devices].
  unfold a. rewrite quiet_adjusted. fold a. unfold MAX_DEVICE_ITERATIONS. cbn [device_loop]. unfold solve. change (any_blown opened) with false. cbn iota.
  unfold run_homotopy. rewrite quiet_opened. cbv zeta. rewrite Em. unfold limiter. cbn [nw_three_phase quiet negb andb].
  match goal with |- context [net_homotopy ?p ?b ?c ?d ?e ?f ?g] => change (net_homotopy p b c d e f g) with (net_homotopy zeros None (pf_nr quiet_settings) false ms 0%nat (v_init quiet_settings (quiet true) a)) end.
  rewrite E1. rewrite E2. cbn [negb]. rewrite <- K2. rewrite opened_rest.
  do 5 eexists. reflexivity.
Qed.
(** the same network with a blown fuse is in two pieces *)
Definition blown_details : details_of := {| of_bus := of_bus quiet_details; of_fuse := fun _ => (1, BLOWN); of_cap := of_cap quiet_details |}.
Lemma blown_proper : proper blown_details (quiet true).
Proof. exact (quiet_proper true). Qed.
Lemma blown_islands old nan so : execute blown_details zeros nan quiet_settings old (fun l => l) (quiet true) so = PFIslands 2.
Proof. unfold execute. assert (length (islands (build (graph_of blown_details (quiet true)))) = 2%nat) as E by (vm_compute; reflexivity). rewrite E. reflexivity. Qed.
