(** Concrete networks for C148: a feeder with a current load, and the feeder of C142 with another constant power load. *)
From Coq Require Import String List Bool Arith ZArith Reals Lra Lia.
From Verif Require Import Expr Segment Collect SpecSystem Components SpecComponents ComponentsProofs ElementProofs SpecUnbalanced Network SpecNetwork SpecKirchhoff
  SpecNetInfeas NetInfeasProofs NetInfeasFinal KirchhoffWitness NetInfeasWitness SpecNetLeast.
Import ListNotations.
Local Open Scope R_scope.

Lemma stranded_affine l1 : affine_network (stranded l1).
Proof. intros e [<-|[]]. reflexivity. Qed.
Lemma stranded_square l1 old : total_square (stranded l1) (extra l1 (assign_matrix old (stranded l1)) (stranded_point l1)) = 1.
Proof.
  destruct (stranded_solved l1 old) as [_ [E _]]. unfold total_square, Rsum. cbn [nw_buses stranded length seq fold_right]. rewrite E. unfold Cnorm2. cbn [fst snd]. lra.
Qed.

(** a slack, a line and a load at the far bus *)
Definition feeder_of (l1 : bool) (ld : load) : network :=
  {| nw_three_phase := false; nw_buses := nw_buses feeder; nw_lines := nw_lines feeder; nw_transformers := []; nw_slack := nw_slack feeder; nw_switches := [];
     nw_generators := []; nw_loads := [ELoad ld (Some 8%nat) None]; nw_misc := []; nw_sources := []; nw_shunts := [];
     nw_regulators := []; nw_fuses := []; nw_capacitors := []; nw_optimization := Some l1 |}.
Lemma feeder_of_ok l1 ld : network_ok (feeder_of l1 ld).
Proof.
  split.
  - cbn. repeat constructor; cbn; lia.
  - cbn. intros e H k Hk. assert (k = 4 \/ k = 8)%nat as [-> | ->]; [|auto|auto].
    repeat match type of H with _ \/ _ => destruct H as [<-|H]; [cbn in Hk; repeat match type of Hk with _ \/ _ => destruct Hk as [Hk|Hk] | False => destruct Hk end; try discriminate; injection Hk; auto|] | False => destruct H end.
Qed.
Definition small_line := {| ln_G := 1; ln_B := 0; ln_Bsh := 0 |}.
Definition unit_slack := {| sl_bus := Some 4%nat; sl_V := 1; sl_ang := 0; sl_Pinit := 0; sl_Qinit := 0 |}.
Definition feeder_account (x : R) (ld : load) : account :=
  [(ELine small_line (Some 4%nat) (Some 8%nat),
     [(Some 4%nat, Cadd (Cmul (1, 0) (across (far x) (Some 4%nat) (Some 8%nat))) (Cmul (0, 0) (1, 0)));
      (Some 8%nat, Csub (Cmul (0, 0) (x, 0)) (Cmul (1, 0) (across (far x) (Some 4%nat) (Some 8%nat))))], []);
    (ESlack unit_slack, [(Some 4%nat, (x - 1, 0))], re_im (Csub (far x (Some 4%nat)) (Cpolar 1 0)));
    (ELoad ld (Some 8%nat) None, [(Some 8%nat, (1 - x, 0)); (None, Copp (1 - x, 0))], [])].
Lemma feeder_possible l1 ld x : behaves (far x) (ELoad ld (Some 8%nat) None) [(Some 8%nat, (1 - x, 0)); (None, Copp (1 - x, 0))] [] -> physical (feeder_of l1 ld) (far x).
Proof.
  intros HB. split; [reflexivity|]. exists (feeder_account x ld). split; [split; [reflexivity|]|split].
  - repeat apply Forall_cons; cbn [fst snd]; try apply Forall_nil.
    + exact (is_line (far x) small_line (Some 4%nat) (Some 8%nat) _ eq_refl).
    + apply (is_slack (far x) unit_slack).
    + exact HB.
  - unfold misses, feeder_account; cbn [flat_map app snd re_im fst far]. rewrite polar1. unfold Csub; cbn. repeat constructor; cbn; lra.
  - intros b [<-|[<-|[]]]; unfold net_current, feeder_account; cbn [flat_map app snd fst bus_id drawn fold_right Nat.eqb]; unfold across, far, Cadd, Csub, Cmul, Copp, C0; cbn; f_equal; lra.
Qed.
(** constant current: the far bus is at 3/4 *)
Definition current_load := {| ld_P := 0; ld_Q := 0; ld_Zr := 0; ld_Zi := 0; ld_IP := 1 / 4; ld_IQ := 0 |}.
Lemma current_affine l1 : affine_network (feeder_of l1 current_load).
Proof. intros e [<-|[<-|[<-|[]]]]; cbn; auto. Qed.
Lemma current_possible l1 : physical (feeder_of l1 current_load) (far (3 / 4)).
Proof.
  apply feeder_possible. assert (E : (1 - 3 / 4, 0) = Cadd C0 (Cadd (ld_IP current_load, ld_IQ current_load) C0)) by (unfold Cadd, C0; cbn [fst snd current_load ld_IP ld_IQ]; f_equal; lra). rewrite E.
  apply is_load; left; split; reflexivity.
Qed.
(** constant power: the far bus may be at 1/5 or 4/5 *)
Definition power_load := {| ld_P := 4 / 25; ld_Q := 0; ld_Zr := 0; ld_Zi := 0; ld_IP := 0; ld_IQ := 0 |}.
Lemma power_possible l1 x : x * (1 - x) = 4 / 25 -> physical (feeder_of l1 power_load) (far x).
Proof.
  intros H. apply feeder_possible. assert (E : (1 - x, 0) = Cadd (1 - x, 0) (Cadd (ld_IP power_load, ld_IQ power_load) C0)) by (unfold Cadd, C0; cbn [fst snd power_load ld_IP ld_IQ]; f_equal; lra). rewrite E at 1 2.
  apply is_load; [right|left; split; reflexivity]. unfold across, far, Csub, C0, power, Cmul, Cconj. cbn [fst snd power_load ld_P ld_Q]. split.
  - intros Z. injection Z as Z. assert (x = 0) by lra. subst x. lra.
  - f_equal; lra.
Qed.
(** a stationary point of the equations with infeasibility currents *)
Definition n4 : nodes := new_nodes 0 true.
Definition n8 : nodes := new_nodes 4 true.
Lemma pq_F v tx r : v 4%nat = 2 / 5 -> v 5%nat = 0 -> v 7%nat = 0 ->
  F [(fst (two_terminal_details lh_pq n8 GROUND 12 true), [4 / 25; 0])] v tx r = - v 6%nat * hit (Some 4%nat) r + 2 / 5 * hit (Some 6%nat) r.
Proof.
  intros H4 H5 H7. rewrite F_cons, F_nil. cbn [fst]. expand_rows. rewrite H4, H5, H7.
  assert (A1 : 2 / 5 + -1 * 0 = 2 / 5) by lra. assert (A2 : 0 + -1 * 0 = 0) by lra. assert (A3 : 2 / 5 * (2 / 5) + 0 * 0 = 4 / 25) by lra.
  rewrite !A1, !A2, !A3. assert (A4 : powerRZ (4 / 25) (-2) = 625 / 16) by (change (/ ((4 / 25) ^ 2) = 625 / 16); field).
  assert (A5 : powerRZ (2 / 5) 1 = 2 / 5) by (change ((2 / 5) ^ 1 = 2 / 5); field). assert (A6 : / (4 / 25) = 25 / 4) by field.
  assert (A7 : powerRZ 0 1 = 0) by (change (0 ^ 1 = 0); ring). rewrite !A4, !A6. rewrite ?A5, ?A7. field.
Qed.
Lemma line_F v r : F [(line_details n4 n8 true false, [1; 0; 0])] v 0 r =
  (v 2%nat - v 6%nat) * hit (Some 0%nat) r + (v 3%nat - v 7%nat) * hit (Some 1%nat) r + (v 0%nat - v 4%nat) * hit (Some 2%nat) r + (v 1%nat - v 5%nat) * hit (Some 3%nat) r
  - (v 2%nat - v 6%nat) * hit (Some 4%nat) r - (v 3%nat - v 7%nat) * hit (Some 5%nat) r - (v 0%nat - v 4%nat) * hit (Some 6%nat) r - (v 1%nat - v 5%nat) * hit (Some 7%nat) r.
Proof. rewrite F_cons, F_nil. cbn [fst]. expand_rows. unfold TX_LARGE_G, TX_LARGE_B. ring. Qed.
Lemma slack_F v r : F [(fst (two_terminal_details slack_lh n4 GROUND 8 true), [1; 0])] v 0 r =
  v 10%nat * hit (Some 0%nat) r + v 11%nat * hit (Some 1%nat) r + v 8%nat * hit (Some 2%nat) r + v 9%nat * hit (Some 3%nat) r
  + v 2%nat * hit (Some 8%nat) r + v 3%nat * hit (Some 9%nat) r + (v 0%nat - 1) * hit (Some 10%nat) r + v 1%nat * hit (Some 11%nat) r.
Proof. rewrite F_cons, F_nil. cbn [fst]. expand_rows. ring. Qed.
