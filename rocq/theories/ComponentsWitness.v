(** Concrete instances for the component theorems, and small remaining lemmas. *)
From Coq Require Import String List Bool Arith Reals Lra Lia.
From Verif Require Import Expr Segment Collect SpecSystem Components SpecComponents ComponentsProofs ElementProofs.
Import ListNotations.
Local Open Scope R_scope.

Definition bus0 : nodes := {| n_Vr := Some 0%nat; n_Vi := Some 1%nat; n_Lr := None; n_Li := None |}.
Definition bus2 : nodes := {| n_Vr := Some 2%nat; n_Vi := Some 3%nat; n_Lr := None; n_Li := None |}.
Definition witness_load : load := {| ld_P := 1; ld_Q := 1 / 2; ld_IP := 0; ld_IQ := 0; ld_Zr := 0; ld_Zi := 0 |}.

Lemma free_false : forall l r, free_row false l r.
Proof. intros l r H. discriminate. Qed.
Ltac numbers := unfold balance, at_bus, volt, read, Cadd, Csub, Copp, Cscale, Cmul, Cnorm2, C0, branch_current; cbn [fst snd n_Vr n_Vi bus0 bus2 GROUND pair_at hit Nat.eqb].

Lemma line_absorbs : forall r x tx V, 0 <= r -> 0 < r * r + x * x -> - (1 / 20) <= tx -> 0 <= (1 + 20 * tx) * (r / (r * r + x * x)) * Cnorm2 V.
Proof.
  intros r x tx [a b] Hr Hp Ht. unfold Cnorm2. simpl. apply Rmult_le_pos; [apply Rmult_le_pos; [lra|]|nra].
  unfold Rdiv. apply Rmult_le_pos; auto. left. now apply Rinv_0_lt_compat.
Qed.
Lemma line_rejected : forall r x b, new_line r x b = None <-> r = 0 /\ x = 0.
Proof. intros. unfold new_line. rewrite <- both0_true. destruct (both0 r x); split; intros; congruence. Qed.
Lemma unchanged : forall s f t n opt c v tx r, In s [lh_pq; lh_Ic; gen_lh; slack_lh; vs_lh] ->
  F [(fst (two_terminal_details s f t n opt), c)] v tx r = F [(fst (two_terminal_details s f t n opt), c)] v 0 r.
Proof.
  intros s f t n opt c v tx r H. apply no_factor.
  assert (E : sd_seg (fst (two_terminal_details s f t n opt)) = s).
  { unfold two_terminal_details. destruct (fresh_or_skip true (sg_primals s) (bus_map f t) n) as [m1 n1]. now destruct (fresh_or_skip opt (sg_duals s) m1 n1). }
  rewrite E. repeat (destruct H as [<-|H]; [reflexivity|]). destruct H.
Qed.
Lemma switch_is : forall f t n opt,
  switch_stampers true f t n opt = vs_stampers 0 0 f t n opt /\ switch_stampers false f t n opt = ([], n).
Proof. intros. split; reflexivity. Qed.
Lemma reg_solved : forall ratio Vf Vs Vcur Vt I J M, ratio <> 0 ->
  J = Cscale 10000 (Csub Vs Vcur) -> Csub J (Cscale ratio I) = C0 -> Csub M J = C0 ->
  Csub Vf (Cscale ratio Vs) = C0 -> Csub Vt Vcur = C0 ->
  M = Cscale ratio I /\ Vf = Cscale ratio (Cadd Vt (Cscale (1 / 10000) M)) /\
  Csub (power Vf I) (power Vt M) = (1 / 10000 * Cnorm2 M, 0).
Proof.
  intros ratio Vf Vs Vcur Vt I J M Hr HJ H1 H2 H3 H4.
  assert (E1 : M = Cscale ratio I).
  { unfold Csub, Cscale, C0 in *. injection H1 as A1 A2. injection H2 as B1 B2. simpl in *. apply C_eq; simpl; lra. }
  assert (E2 : Vf = Cscale ratio (Cadd Vt (Cscale (1 / 10000) M))).
  { subst J. unfold Csub, Cscale, Cadd, C0 in *. injection H2 as B1 B2. injection H3 as D1 D2. injection H4 as F1 F2. simpl in *.
    apply C_eq; simpl.
    - replace (fst Vf) with (ratio * fst Vs) by lra. f_equal. lra.
    - replace (snd Vf) with (ratio * snd Vs) by lra. f_equal. lra. }
  split; [auto|split; [auto|]]. rewrite E2, E1. destruct Vt, I. unfold Csub, power, Cmul, Cconj, Cscale, Cadd, Cnorm2. apply C_eq; simpl; field.
Qed.

Lemma is0_true : forall x, x = 0 -> is0 x = true.
Proof. intros x ->. unfold is0. destruct (Req_EM_T 0 0); congruence. Qed.
Lemma is0_false : forall x, x <> 0 -> is0 x = false.
Proof. intros x H. unfold is0. destruct (Req_EM_T x 0); congruence. Qed.
Lemma witness_load_rows : F (present (fst (load_stampers witness_load bus0 GROUND 2 false))) (fun n => if Nat.eqb n 0 then 2 else 0) 0 0 = 1 / 2 /\
  F (present (fst (load_stampers witness_load bus0 GROUND 2 false))) (fun n => if Nat.eqb n 0 then 2 else 0) 0 1 = - (1 / 4).
Proof.
  set (v := fun n => if Nat.eqb n 0 then 2 else 0). destruct (load_draws witness_load bus0 GROUND 2 false v 0) as (Ipq & Ic & Iz & H & P & _ & -> & _ & Z).
  specialize (Z eq_refl). subst Iz. assert (E : power (Csub (volt v bus0) (volt v GROUND)) Ipq = (1, 1 / 2)).
  { apply P. unfold volt, v. cbn. unfold Csub, C0. simpl. intros X. injection X. intros. lra. }
  destruct Ipq as [a b]. unfold v, volt in E. cbn in E. unfold power, Csub, Cmul, Cconj in E. cbn [fst snd] in E. injection E as E1 E2.
  rewrite !H by apply free_false. cbv zeta. numbers. cbn [ld_IP ld_IQ witness_load]. split; lra.
Qed.
Lemma witness_line : exists l, new_line 3 4 1 = Some l /\ ln_G l = 3 / 25 /\ ln_B l = - (4 / 25).
Proof.
  unfold new_line, both0. rewrite is0_false by lra. eexists. split; [reflexivity|]. cbn. unfold series_G, series_B. split; field.
Qed.
Lemma witness_transformer : exists xf, new_transformer 0 (1/10) 2 30 = Some xf /\ xf_ang xf = PI / 6 /\ xf_B xf = -10.
Proof.
  unfold new_transformer, both0. rewrite (is0_true 0) by auto. rewrite is0_false by lra. eexists. split; [reflexivity|]. cbn. unfold series_B. split; field.
Qed.
Lemma witness_center_tap : let Vp := (7200, 0) in let V1 := Cscale (1/60) Vp in V1 = (120, 0) /\ power V1 (1, 2) = (120, -240).
Proof. unfold power, Cmul, Cconj, Cscale. split; apply C_eq; simpl; field. Qed.
Lemma witness_homotopy : exists v, F (present (line_stampers {| ln_G := 1; ln_B := 0; ln_Bsh := 2 |} bus0 GROUND false)) v 1 0 = 21 /\
  F (present (line_stampers {| ln_G := 1; ln_B := 0; ln_Bsh := 2 |} bus0 GROUND false)) v 0 0 = 1 /\
  F (present (line_stampers {| ln_G := 1; ln_B := 0; ln_Bsh := 2 |} bus0 GROUND false)) v 0 1 = 2.
Proof.
  exists (fun n => if Nat.eqb n 0 then 1 else 0). unfold line_stampers. rewrite !F_some, !F_end. rewrite !line_branch, !shunt_branch by apply free_false.
  cbv zeta. numbers. cbn [ln_G ln_B ln_Bsh]. repeat split; lra.
Qed.
Lemma witness_generator : exists v, F (present (fst (gen_stampers 1 1 bus0 2 false))) v 0 2 = 0 /\ volt v bus0 <> C0.
Proof.
  exists (fun n => if Nat.eqb n 0 then 1 else 0). split.
  - apply (gen_holds 1 1 bus0 2 false). + unfold away. simpl. intros [X|[X|[X|[X|[]]]]]; discriminate. + numbers. lra.
  - numbers. intros X. injection X. intros. lra.
Qed.
Lemma witness_l1 : exists v, forall k, (k < 4)%nat -> F (present (fst (l1_stampers bus0 4))) v 0 (4 + k)%nat = 0.
Proof.
  exists (fun _ => - (1 / 2)). intros k Hk. rewrite l1_rows. unfold mult, at_lambda. cbn [bus0 n_Lr n_Li read fst snd hit].
  destruct (Nat.eqb 4 (4 + k)), (Nat.eqb (4 + 1) (4 + k)), (Nat.eqb (4 + 2) (4 + k)), (Nat.eqb (4 + 3) (4 + k)); lra.
Qed.
Lemma witness_source : exists v, F (present (fst (vs_stampers 0 0 bus0 bus2 4 false))) v 0 4 = 0 /\
   F (present (fst (vs_stampers 0 0 bus0 bus2 4 false))) v 0 5 = 0 /\ volt v bus0 = (1, 2) /\
   F (present (fst (vs_stampers 0 0 bus0 bus2 4 false))) v 0 0 = 3.
Proof.
  exists (fun n : nat => match n with 0%nat | 2%nat => 1 | 1%nat | 3%nat => 2 | _ => 3 end). rewrite !vs_rows by apply free_false. cbv zeta. numbers.
  repeat split; lra.
Qed.
Lemma witness_capacitor : exists l, capacitor_stampers 3 2 true bus0 GROUND false = Some l /\ F (present l) (fun n => if Nat.eqb n 0 then 2 else 0) 0 1 = 3 / 2.
Proof.
  unfold capacitor_stampers. rewrite is0_false by lra. eexists. split; [reflexivity|]. rewrite F_some, F_end, shunt_branch by apply free_false.
  cbv zeta. numbers. lra.
Qed.
Lemma witness_regulator : exists Vs I J M, J = Cscale 10000 (Csub Vs (1, 0)) /\ Csub J (Cscale 2 I) = C0 /\ Csub M J = C0 /\ M <> C0.
Proof.
  exists (2, 0), (5000, 0), (10000, 0), (10000, 0). unfold Cscale, Csub, C0. simpl. repeat split; try (apply C_eq; simpl; lra). intros X. injection X. intros. lra.
Qed.
Lemma witness_windings : exists c, new_center_tap 60 2 (fun _ => 1) (fun _ => 0) (fun _ => 2) = Some c /\ ct_g0 c = 1 / 2 /\ ct_b0 c = 0.
Proof.
  unfold new_center_tap, is0. destruct (Req_EM_T 2 0); [lra|]. eexists. split; [reflexivity|]. cbn [ct_g0 ct_b0]. unfold coil_G, coil_B, coil_r.
  destruct (both0 _ _) eqn:B; [apply both0_true in B; lra|]. unfold series_G, series_B. split; field.
Qed.
