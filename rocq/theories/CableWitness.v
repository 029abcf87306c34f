(** Concrete cables and overhead lines. *)
From Coq Require Import Reals ZArith String Ascii List Bool Lia Lra Arith.
From Verif Require Import PyExc SpecComponents SpecUnbalanced Components UnbalancedLine GlmText LineImpedance SpecReader SpecLineZ KronProofs CarsonProofs LineZWitness Cables SpecCables ShuntProofs ChargeProofs RingProofs CableZProofs CableFinal.
Import ListNotations.
Local Open Scope R_scope.
Set Implicit Arguments.

(** *** inversion of 1 x 1 matrices *)
Lemma holds_one : forall m f, holds 1 1 m f -> m = [[Some (f 0%nat 0%nat)]].
Proof.
  intros m f (L & H). destruct m as [| r [| r2 m]]; try discriminate. destruct (H 0%nat) as (Lr & Hr); [lia |]. cbn in Lr, Hr.
  destruct r as [| x [| x2 r]]; try discriminate. specialize (Hr 0%nat ltac:(lia)). cbn in Hr. injection Hr as ->. reflexivity.
Qed.
Lemma recip_l : forall z v, z <> C0 -> Cmul (Crecip z) (Cmul z v) = v.
Proof.
  intros [a b] [c d] N. unfold Crecip, Cmul. cbn [fst snd]. assert (a * a + b * b <> 0).
  { intros H. apply N. assert (a = 0) by nra. assert (b = 0) by nra. subst. reflexivity. }
  f_equal; field; assumption.
Qed.
Lemma recip_r : forall z v, z <> C0 -> Cmul z (Cmul (Crecip z) v) = v.
Proof. intros z v N. rewrite <- (recip_l v N) at 2. cring. Qed.
Lemma times1 : forall f v i, times 1 f v i = Cmul (f i 0%nat) (v 0%nat).
Proof. intros f v i. unfold times. rewrite Csum_lsum. cbn. cring. Qed.
Lemma inverts_one : forall f, f 0%nat 0%nat <> C0 -> inverts line_prims 1 f.
Proof.
  intros f N m H. rewrite (holds_one H). exists [[Some (Crecip (f 0%nat 0%nat))]], (fun _ _ => Crecip (f 0%nat 0%nat)).
  pose proof (inv1_ok N) as I. unfold inverts_neutral in I. split; [exact I |]. split; [| split].
  - split; [reflexivity |]. intros i Hi. replace i with 0%nat by lia. split; [reflexivity |]. intros j Hj. now replace j with 0%nat by lia.
  - intros v i Hi. rewrite !times1. replace i with 0%nat by lia. now apply recip_l.
  - intros v i Hi. rewrite !times1. replace i with 0%nat by lia. now apply recip_r.
Qed.

(** *** cables *)
Definition cable (p : string) : wire :=
  {| w_phase := p; w_diam := None; w_gmr := Some 1; w_res := Some 1; w_ins := None; w_emerg := None; w_outer := Some 25;
     w_cnd := Some 1; w_k := Some 2%Z; w_cdiam := Some 1; w_cgmr := Some 2; w_cres := Some 2 |}.
Definition thick (p : string) : wire :=
  {| w_phase := p; w_diam := None; w_gmr := Some 1; w_res := Some 1; w_ins := None; w_emerg := None; w_outer := Some 3;
     w_cnd := Some 1; w_k := Some 2%Z; w_cdiam := Some 1; w_cgmr := Some 2; w_cres := Some 2 |}.
Definition cable_data : cdata := {| c_radius := 1; c_k := 2; c_r := 1; c_g := 1; c_sr := 2; c_sg := 2 |}.
Lemma cable_has : forall p, p <> "N"%string -> has_data (cable p) cable_data.
Proof.
  intros p N. split; [exact N |]. split; [exists 25, 1; repeat split; cbn; lra |]. cbn. repeat split; try lra; lia.
Qed.
Lemma ln2 : 0 < ln 2.
Proof. rewrite <- ln_1. apply ln_increasing; lra. Qed.
Lemma thick_factor : ring_factor ((3 - 1) / 2) (1 / 2) (1 / 2) 2 = ln 2.
Proof. unfold ring_factor. replace ((3 - 1) / 2 / (1 / 2)) with 2 by field. replace (IZR 2 * (1 / 2) / ((3 - 1) / 2)) with 1 by (cbn; field). rewrite ln_1. ring. Qed.
Lemma thick_shunts : half_shunts [thick "A"; cable "N"] (fun i => match i with O => 77.3619 / 1000000 / ln 2 / 2 | _ => 0 end).
Proof.
  intros [| [| i]] w W.
  - injection W as <-. right. split; [discriminate |]. split; [lia |]. exists 3, 1, 1, 2%Z. split; [now repeat split |]. split; [unfold sound; repeat split; try lra; lia |].
    unfold ring_shunt. rewrite thick_factor. split; [pose proof ln2; lra | reflexivity].
  - injection W as <-. left. left. split; reflexivity.
  - destruct i; discriminate W.
Qed.
(** a cable whose strands have no thickness *)
Definition thin (p : string) : wire :=
  {| w_phase := p; w_diam := None; w_gmr := Some 1; w_res := Some 1; w_ins := None; w_emerg := None; w_outer := Some 3;
     w_cnd := Some 0; w_k := Some 2%Z; w_cdiam := Some 1; w_cgmr := Some 2; w_cres := Some 2 |}.
Lemma thin_shunts : half_shunts [thin "B"] (fun _ => 0).
Proof.
  intros [| [| i]] w W; try discriminate W. injection W as <-. left. right. split; [discriminate |]. split; [lia |]. split; [reflexivity |].
  exists 3, 1, 2%Z. split; [now repeat split |]. split; [lra |]. split; [lra | discriminate].
Qed.
Definition one_d : dmat := [[0]].
Definition one_z (i j : nat) : C :=
  if Nat.eqb i j then if Nat.eqb i 0 then cable_self 1 1 else cable_self (2 / IZR 2) 2 else cable_mutual 1.
Lemma one_laid : laid [cable "A"] [cable_data] None.
Proof. exists [cable "A"], []. split; [reflexivity |]. split; [constructor; [now apply cable_has | constructor] |]. split; [discriminate | reflexivity]. Qed.
Lemma one_surveyed : surveyed 1 [cable_data] one_d (fun _ _ => 0).
Proof. intros i j Hi Hj. replace i with 0%nat by lia. replace j with 0%nat by lia. split; [exists [0]; now split |]. lia. Qed.
Lemma one_primitive : cable_primitive [cable_data] None 1 (fun _ _ => 0) one_z.
Proof.
  split; [| split; [| split; [| split]]]; cbn [List.length].
  - intros [| [| i]] c H; try discriminate. injection H as <-. split; [reflexivity |]. split; [exists 2; split; [| reflexivity] | split; reflexivity].
    split; [lra |]. cbn [c_k c_sg c_radius cable_data]. replace (Z.to_nat 2) with 2%nat by reflexivity. cbn. lra.
  - discriminate.
  - intros. lia.
  - intros. lia.
  - intros. lia.
Qed.
Lemma one_inverts : inverts line_prims 1 (fun i j => one_z (1 + i) (1 + j)).
Proof. apply inverts_one. cbn. unfold cable_self, C0. intros H. injection H as H _. lra. Qed.
(** two cables and a neutral, 3 feet from each other *)
Definition three : list wire := [cable "A"; cable "C"; cable "N"].
Definition three_d : dmat := [[0; 3; 3]; [3; 0; 3]; [3; 3; 0]].
Definition three_D (i j : nat) : R := if Nat.eqb i j then 0 else 3.
Lemma three_laid : laid three [cable_data; cable_data] (Some (1, 1)).
Proof.
  exists [cable "A"; cable "C"], [cable "N"]. split; [reflexivity |]. split; [constructor; [now apply cable_has |]; constructor; [now apply cable_has | constructor] |]. split; [discriminate |].
  exists (cable "N"). cbn. repeat split; lra.
Qed.
Lemma three_surveyed : surveyed 3 [cable_data; cable_data] three_d three_D.
Proof.
  intros i j Hi Hj. split.
  - destruct i as [| [| [| i]]]; try lia; eexists; (split; [reflexivity |]); destruct j as [| [| [| j]]]; try lia; reflexivity.
  - intros NE. unfold three_D, ring. rewrite (proj2 (Nat.eqb_neq i j)) by exact NE. destruct j as [| [| [| j]]]; cbn; lra || lia.
Qed.

(** *** overhead lines *)
Definition an : list wire := [plain_wire "A"; plain_wire "N"].
Definition an_d : dmat := [[0; -1; -1; 2; 1]; [-1; 0; -1; -1; -1]; [-1; -1; 0; -1; -1]; [2; -1; -1; 0; 1]; [1; -1; -1; 1; 0]].
Lemma an_measured : measured (fun _ _ => 2) (fun _ => 1) (fun _ => 1 / 2) an an_d.
Proof.
  split; [repeat constructor; cbn; intuition discriminate |]. split; [intros p; cbn; tauto |]. split; [| split; [| split]].
  - intros w Hw. exists 1. cbn in Hw. destruct Hw as [<- | [<- | []]]; cbn; repeat split; lra.
  - intros w a Hw Ha. cbn in Hw. destruct Hw as [<- | [<- | []]]; cbn in Ha; destruct a as [| [| [| [| [| a]]]]]; cbn in Ha; try discriminate; cbn; repeat split; try lra;
      destruct a; discriminate.
  - intros v w a b Hv Hw NE Ha Hb. cbn in Hv, Hw.
    destruct Hv as [<- | [<- | []]]; cbn in Ha; destruct a as [| [| [| [| [| a]]]]]; cbn in Ha; try discriminate; try (destruct a; discriminate);
    destruct Hw as [<- | [<- | []]]; cbn in Hb; destruct b as [| [| [| [| [| b]]]]]; cbn in Hb; try discriminate; try (destruct b; discriminate); try (now elim NE); cbn; split; try reflexivity; lra.
  - intros. lra.
Qed.
Definition an_P (i j : nat) : R := coeff (fun _ _ => 2) (fun _ => 1 / 2) (used_mirror (fun _ _ => 2) (fun _ => 1)) (nth i (map w_phase an) ""%string) (nth j (map w_phase an) ""%string).
Lemma ln4 : 0 < ln 4.
Proof. rewrite <- ln_1. apply ln_increasing; lra. Qed.
Lemma self_P : forall p, coeff (fun _ _ => 2) (fun _ => 1 / 2) (used_mirror (fun _ _ => 2) (fun _ => 1)) p p = 11.17689 * ln 4.
Proof. intros p. unfold coeff, used_mirror. rewrite String.eqb_refl. f_equal. f_equal. field. Qed.
Lemma NA_P : an_P 1 0 = 0.
Proof. unfold an_P, coeff, used_mirror. cbn. replace (2 * 1 / 2) with 1 by field. rewrite ln_1. ring. Qed.
Lemma an_inverts : inverts line_prims 1 (real (earthed 1 an_P)).
Proof.
  apply inverts_one. unfold real, earthed, C0. rewrite NA_P. assert (an_P 0 0 = 11.17689 * ln 4) as -> by apply self_P. intros H. injection H as H.
  unfold Rdiv in H. rewrite Rmult_0_r, Rmult_0_l in H. pose proof ln4. lra.
Qed.
Lemma an_neutral : [plain_wire "N"] = [] \/ exists w, [plain_wire "N"] = [w] /\ w_phase w = "N"%string /\
  coeff (fun _ _ => 2) (fun _ => 1 / 2) (used_mirror (fun _ _ => 2) (fun _ => 1)) "N"%string "N"%string <> 0.
Proof. right. exists (plain_wire "N"). split; [reflexivity |]. split; [reflexivity |]. rewrite self_P. pose proof ln4. lra. Qed.
