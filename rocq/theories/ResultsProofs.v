(** Lemmas for C49-C51, C54, C66. *)
From Coq Require Import List Bool Arith Reals Lra Lia.
From Verif Require Import Expr Segment Collect SpecSystem Components SpecComponents SpecUnbalanced ComponentsProofs ElementProofs Results SpecResults.
Import ListNotations.
Local Open Scope R_scope.

Ltac cx := unfold power, Cadd, Csub, Copp, Cmul, Cconj, Cscale, C0 in *; cbn [fst snd] in *.
Lemma C_eta (z : C) : z = (fst z, snd z). Proof. destruct z; reflexivity. Qed.
Lemma C_ext (a b : C) : fst a = fst b -> snd a = snd b -> a = b. Proof. destruct a, b; cbn; intros; subst; auto. Qed.
Lemma C_dec (z : C) : z = C0 \/ z <> C0.
Proof. destruct z as [a b]. destruct (Req_dec a 0) as [->|Ha]; [destruct (Req_dec b 0) as [->|Hb]; [left; reflexivity|]|]; right; intros E; injection E; intros; contradiction. Qed.
Lemma norm_pos z : z <> C0 -> 0 < Cnorm2 z.
Proof.
  destruct z as [a b]; intros H; unfold Cnorm2; cbn [fst snd]. destruct (Req_dec a 0) as [->|Ha].
  - destruct (Req_dec b 0) as [->|Hb]; [exfalso; apply H; reflexivity|]. nra.
  - nra.
Qed.
Lemma power_add V I J : power V (Cadd I J) = Cadd (power V I) (power V J).
Proof. apply C_ext; cx; ring. Qed.
Lemma mul_cancel Z I J : Z <> C0 -> Cmul Z I = Cmul Z J -> I = J.
Proof.
  intros HZ E. apply norm_pos in HZ. destruct Z as [a b], I as [i j], J as [k l]. unfold Cnorm2 in HZ. cx. injection E as E1 E2.
  assert ((a * a + b * b) * (i - k) = 0) as H1.
  { replace ((a * a + b * b) * (i - k)) with (a * ((a * i - b * j) - (a * k - b * l)) + b * ((a * j + b * i) - (a * l + b * k))) by ring. rewrite E1, E2; ring. }
  assert ((a * a + b * b) * (j - l) = 0) as H2.
  { replace ((a * a + b * b) * (j - l)) with (a * ((a * j + b * i) - (a * l + b * k)) - b * ((a * i - b * j) - (a * k - b * l))) by ring. rewrite E1, E2; ring. }
  apply Rmult_integral in H1 as [H1|H1]; [lra|]. apply Rmult_integral in H2 as [H2|H2]; [lra|]. f_equal; lra.
Qed.
Lemma power_solve V S : V <> C0 -> exists I, power V I = S.
Proof.
  intros HV. apply norm_pos in HV. exists (Cscale (/ Cnorm2 V) (Cconj (Cmul S (Cconj V)))). destruct V as [a b], S as [p q]. unfold Cnorm2 in *.
  apply C_ext; cx; field; lra.
Qed.
Lemma power_0 V I : V <> C0 -> power V I = C0 -> I = C0.
Proof.
  intros HV E. assert (Cconj I = C0) as H by (apply (mul_cancel V); auto; fold (power V I); rewrite E; apply C_ext; cx; ring).
  destruct I as [i j]; cx. injection H as H1 H2. f_equal; lra.
Qed.

(** *** C49 *)
Lemma draws_shift l l' V S S' : ld_Zr l' = ld_Zr l -> ld_Zi l' = ld_Zi l -> ld_IP l' = ld_IP l -> ld_IQ l' = ld_IQ l ->
  draws l V S -> draws l' V S' -> S' = Cadd S (Csub (ld_P l', ld_Q l') (ld_P l, ld_Q l)).
Proof.
  intros E1 E2 E3 E4 [I [Iz [H1 [H2 [H3 ->]]]]] [J [Jz [K1 [K2 [K3 ->]]]]]. rewrite E1, E2 in *. rewrite E3, E4.
  assert (Jz = Iz) as -> by (destruct (C_dec (ld_Zr l, ld_Zi l)) as [Z|Z]; [rewrite H3, K3; auto|apply (mul_cancel _ _ _ Z); rewrite H2, K2; auto]).
  rewrite !power_add, H1, K1. apply C_ext; cx; ring.
Qed.
Lemma scaled_demand f l V S S' : draws l V S -> draws (scale_load f f l) V S' -> S' = Cadd S (Cscale (f - 1) (ld_P l, ld_Q l)).
Proof.
  intros H K. rewrite (draws_shift l (scale_load f f l) V S S' eq_refl eq_refl eq_refl eq_refl H K). apply C_ext; unfold scale_load; cbn [ld_P ld_Q]; cx; ring.
Qed.
Lemma rest_demand l V S : V <> C0 -> draws l V S -> draws (rest_of l) V (Csub S (ld_P l, ld_Q l)).
Proof.
  intros HV [I [Iz [H1 [H2 [H3 ->]]]]]. exists C0, Iz. unfold rest_of; cbn [ld_P ld_Q ld_Zr ld_Zi ld_IP ld_IQ]. split; [apply C_ext; cx; ring|]. split; [auto|]. split; [auto|].
  rewrite !power_add, H1. apply C_ext; cx; ring.
Qed.
Lemma draws_unique l V S S' : draws l V S -> draws l V S' -> S = S'.
Proof. intros H K. rewrite (draws_shift l l V S S' eq_refl eq_refl eq_refl eq_refl H K). apply C_ext; cx; ring. Qed.
Lemma scales_iff f l V S S' : V <> C0 -> draws l V S -> draws (scale_load f f l) V S' -> (S' = Cscale f S <-> f = 1 \/ draws (rest_of l) V C0).
Proof.
  intros HV H K. rewrite (scaled_demand f l V S S' H K). pose proof (rest_demand l V S HV H) as HR. split.
  - intros E. destruct (Req_dec f 1) as [|Hf]; auto. right. replace C0 with (Csub S (ld_P l, ld_Q l)); auto.
    destruct S as [s q]; cx. injection E as E1 E2. f_equal.
    + assert ((f - 1) * (s - ld_P l) = 0) as X by lra. apply Rmult_integral in X as [X|X]; lra.
    + assert ((f - 1) * (q - ld_Q l) = 0) as X by lra. apply Rmult_integral in X as [X|X]; lra.
  - intros [->|HZ].
    + apply C_ext; cx; ring.
    + pose proof (draws_unique _ _ _ _ HR HZ) as E. destruct S as [s q]; cx. injection E as E1 E2. f_equal; [replace s with (ld_P l) by lra|replace q with (ld_Q l) by lra]; ring.
Qed.
Lemma draws_exists l V : V <> C0 -> exists S, draws l V S.
Proof.
  intros HV. destruct (power_solve V (ld_P l, ld_Q l) HV) as [I HI].
  destruct (C_dec (ld_Zr l, ld_Zi l)) as [Z|Z].
  - eexists. exists I, C0. split; [exact HI|]. split; [intros; contradiction|]. split; [auto|]. reflexivity.
  - eexists. exists I, (Cscale (/ Cnorm2 (ld_Zr l, ld_Zi l)) (Cmul V (Cconj (ld_Zr l, ld_Zi l)))). split; [exact HI|]. split; [|split; [intros; contradiction|reflexivity]].
    intros _. apply norm_pos in Z. unfold Cnorm2 in *. destruct V as [a b]; apply C_ext; cx; field; lra.
Qed.
Lemma factor_compose f1 g1 f2 g2 ls : modify_load_factor f1 g1 (modify_load_factor f2 g2 ls) = modify_load_factor (f1 * f2) (g1 * g2) ls.
Proof. unfold modify_load_factor. rewrite map_map. apply map_ext. intros l; unfold scale_load; cbn [ld_P ld_Q ld_Zr ld_Zi ld_IP ld_IQ]. f_equal; ring. Qed.
Lemma factor_one ls : modify_load_factor 1 1 ls = ls.
Proof. unfold modify_load_factor. rewrite <- (map_id ls) at 2. apply map_ext. intros [p q z1 z2 i1 i2]; unfold scale_load; cbn [ld_P ld_Q ld_Zr ld_Zi ld_IP ld_IQ]. f_equal; ring. Qed.
Lemma factor_totals f g ls : total ld_P (modify_load_factor f g ls) = f * total ld_P ls /\ total ld_Q (modify_load_factor f g ls) = g * total ld_Q ls.
Proof. unfold total, modify_load_factor. induction ls as [|l ls [I1 I2]]; cbn [map fold_right]; [split; ring|]. rewrite I1, I2. unfold scale_load; cbn [ld_P ld_Q]; split; ring. Qed.
Lemma default_negates ls : cli_loads None (cli_loads None ls) = ls /\
  total ld_P (cli_loads None ls) = - total ld_P ls /\ total ld_Q (cli_loads None ls) = - total ld_Q ls.
Proof.
  unfold cli_loads. rewrite factor_compose. replace (-1 * -1) with 1 by ring. rewrite factor_one. split; auto.
  destruct (factor_totals (-1) (-1) ls) as [-> ->]. split; ring.
Qed.
Lemma default_generates l V S : V <> C0 -> draws (rest_of l) V C0 -> draws l V S -> draws (scale_load (-1) (-1) l) V (Copp S).
Proof.
  intros HV HR H. destruct (draws_exists (scale_load (-1) (-1) l) V HV) as [S' K]. replace (Copp S) with S'; auto.
  rewrite (proj2 (scales_iff (-1) l V S S' HV H K) (or_intror HR)). apply C_ext; cx; ring.
Qed.

(** *** C50 *)
Lemma componentwise V I : (fst V * fst I, snd V * snd I) = power V I <-> V = C0 \/ I = C0 \/ (real V /\ real I).
Proof.
  destruct V as [a b], I as [c d]. unfold real. cx. split.
  - intros E. injection E as E1 E2. assert (b * d = 0) as H by lra. apply Rmult_integral in H as [-> | ->].
    + assert (a * d = 0) as H by lra. apply Rmult_integral in H as [-> | ->]; auto.
    + assert (b * c = 0) as H by lra. apply Rmult_integral in H as [-> | ->]; auto.
  - intros [E|[E|[E1 E2]]]; [injection E as -> ->|injection E as -> ->|subst]; f_equal; ring.
Qed.
Lemma slack_iff v s : (gr_P (slack_res v s), gr_Q (slack_res v s)) = power (at2 v (rs_bus s)) (at2 v (rs_I s)) <->
  at2 v (rs_bus s) = C0 \/ at2 v (rs_I s) = C0 \/ (real (at2 v (rs_bus s)) /\ real (at2 v (rs_I s))).
Proof. exact (componentwise (at2 v (rs_bus s)) (at2 v (rs_I s))). Qed.
Lemma slack_zero_q v s : real (at2 v (rs_bus s)) ->
  gr_Q (slack_res v s) = 0 /\ gr_P (slack_res v s) = fst (power (at2 v (rs_bus s)) (at2 v (rs_I s))).
Proof. unfold real, at2, slack_res; cbn [gr_P gr_Q snd fst]. intros ->. unfold power, Cmul, Cconj; cbn [fst snd]. split; ring. Qed.
Lemma xf_iff v x : (xf_P v x, xf_Q v x) = xf_true v x <->
  let V := Csub (val2 v (rx_pp x)) (val2 v (rx_pn x)) in let I := val2 v (rx_I x) in V = C0 \/ I = C0 \/ (real V /\ real I).
Proof. exact (componentwise (Csub (val2 v (rx_pp x)) (val2 v (rx_pn x))) (val2 v (rx_I x))). Qed.
Lemma ct_exact v c : (rct_P v c, rct_Q v c) = Cadd (power (at2 v (rc_V1 c)) (at2 v (rc_I1 c))) (power (at2 v (rc_V2 c)) (at2 v (rc_I2 c))).
Proof. unfold rct_P, rct_Q, at2. apply C_ext; cx; ring. Qed.
Lemma ct_primary v c k Vp : at2 v (rc_V1 c) = Cscale k Vp -> at2 v (rc_V2 c) = Copp (Cscale k Vp) ->
  power Vp (Cscale k (Csub (at2 v (rc_I1 c)) (at2 v (rc_I2 c)))) = (rct_P v c, rct_Q v c).
Proof. intros E1 E2. rewrite ct_exact, E1, E2. apply C_ext; cx; ring. Qed.

(** *** C51 *)
Lemma clamp_nonneg x : 0 <= clamp x.
Proof. unfold clamp; destruct (Rlt_dec x (1 / 100000)); lra. Qed.
Lemma clamp_zero x : clamp x = 0 <-> x < 1 / 100000.
Proof. unfold clamp; destruct (Rlt_dec x (1 / 100000)); split; intros; try lra. Qed.
Lemma clamp_small x : small (clamp x) = true <-> x < 1 / 100000.
Proof.
  unfold small, clamp. destruct (Rlt_dec x (1 / 100000)).
  - rewrite Rabs_R0. destruct (Rlt_dec 0 (1 / 100000)); [split; auto|exfalso; lra].
  - rewrite Rabs_right by lra. destruct (Rlt_dec x (1 / 100000)); [contradiction|]. split; [discriminate|contradiction].
Qed.
Lemma inf_P v i : gr_P (inf_res v i) = clamp (fst (inf_voltage v i) * fst (inf_current v i)). Proof. destruct i; reflexivity. Qed.
Lemma inf_Q v i : gr_Q (inf_res v i) = clamp (snd (inf_voltage v i) * snd (inf_current v i)). Proof. destruct i; reflexivity. Qed.
Lemma inf_type v i : gr_type (inf_res v i) = Inf. Proof. destruct i; reflexivity. Qed.
Definition sums v (l : list rinf) (t : R * R) : R * R := fold_left (fun t i => (fst t + gr_P (inf_res v i), snd t + gr_Q (inf_res v i))) l t.
Lemma sums_step v l : forall t, sums v l t = (fst t + fst (sums v l (0, 0)), snd t + snd (sums v l (0, 0))).
Proof.
  induction l as [|i l IH]; intros t; unfold sums in *; cbn [fold_left].
  - destruct t; cbn [fst snd]; f_equal; ring.
  - rewrite IH. rewrite (IH (fst (0, 0) + gr_P (inf_res v i), snd (0, 0) + gr_Q (inf_res v i))). cbn [fst snd]. f_equal; ring.
Qed.
Lemma sums_cons v i l : sums v (i :: l) (0, 0) = (gr_P (inf_res v i) + fst (sums v l (0, 0)), gr_Q (inf_res v i) + snd (sums v l (0, 0))).
Proof. change (sums v (i :: l) (0, 0)) with (sums v l (0 + gr_P (inf_res v i), 0 + gr_Q (inf_res v i))). rewrite sums_step. cbn [fst snd]. f_equal; ring. Qed.
Lemma sums_nonneg v l : 0 <= fst (sums v l (0, 0)) /\ 0 <= snd (sums v l (0, 0)).
Proof.
  induction l as [|i l [I1 I2]]; [unfold sums; cbn; lra|]. rewrite sums_cons; cbn [fst snd]. rewrite inf_P, inf_Q.
  pose proof (clamp_nonneg (fst (inf_voltage v i) * fst (inf_current v i))). pose proof (clamp_nonneg (snd (inf_voltage v i) * snd (inf_current v i))). lra.
Qed.
Lemma sums_zero v l : sums v l (0, 0) = (0, 0) <-> forall i, In i l -> unseen v i.
Proof.
  induction l as [|i l IH]; [split; [intros _ i []|reflexivity]|]. rewrite sums_cons. pose proof (sums_nonneg v l) as [N1 N2]. rewrite inf_P, inf_Q.
  pose proof (clamp_nonneg (fst (inf_voltage v i) * fst (inf_current v i))) as M1. pose proof (clamp_nonneg (snd (inf_voltage v i) * snd (inf_current v i))) as M2. split.
  - intros E. injection E as E1 E2. intros j [<-|Hj].
    + split; apply clamp_zero; lra.
    + apply IH; auto. apply C_ext; cbn [fst snd]; lra.
  - intros H. destruct (H i (or_introl eq_refl)) as [H1 H2]. apply clamp_zero in H1, H2. rewrite H1, H2. rewrite (proj2 IH) by (intros; apply H; right; auto). cbn [fst snd]. f_equal; ring.
Qed.
Lemma totals_sums v n l : rn_inf n = Some l -> infeasibility_totals v n = Some (sums v l (0, 0)).
Proof. intros E; unfold infeasibility_totals; rewrite E; reflexivity. Qed.
Lemma totals_nonneg v n P Q : infeasibility_totals v n = Some (P, Q) -> 0 <= P /\ 0 <= Q.
Proof.
  unfold infeasibility_totals. destruct (rn_inf n) as [l|]; [|discriminate]. intros E. injection E as E. pose proof (sums_nonneg v l) as H. unfold sums in H. rewrite E in H. exact H.
Qed.
Lemma totals_zero v n l : rn_inf n = Some l -> (infeasibility_totals v n = Some (0, 0) <-> forall i, In i l -> unseen v i).
Proof. intros E; rewrite (totals_sums v n l E). rewrite <- sums_zero. split; [intros H; now injection H|congruence]. Qed.
Definition shown v (l : list rinf) : list gen_result := filter (fun g => negb (small (gr_P g) && small (gr_Q g))) (map (inf_res v) l).
Lemma report_shown v n l : rn_inf n = Some l -> report_infeasible v n = shown v l.
Proof.
  intros E. unfold report_infeasible, generator_results. rewrite E.
  assert (forall A (f : A -> gen_result) ty (m : list A), (forall a, gr_type (f a) = ty) -> ty <> Inf ->
    filter (fun g => match gr_type g with Inf => true | _ => false end) (filter (fun g => negb (small (gr_P g) && small (gr_Q g))) (map f m)) = []) as Z.
  { intros A f ty m Ht Hn. induction m as [|a m IH]; auto. cbn [map filter]. destruct (negb (small (gr_P (f a)) && small (gr_Q (f a)))); auto. cbn [filter]. rewrite (Ht a).
    destruct ty; auto. contradiction. }
  assert (forall m k : list gen_result, filter (fun g => match gr_type g with Inf => true | _ => false end) (filter (fun g => negb (small (gr_P g) && small (gr_Q g))) (m ++ k)) =
    filter (fun g => match gr_type g with Inf => true | _ => false end) (filter (fun g => negb (small (gr_P g) && small (gr_Q g))) m) ++
    filter (fun g => match gr_type g with Inf => true | _ => false end) (filter (fun g => negb (small (gr_P g) && small (gr_Q g))) k)) as App.
  { intros m k. induction m as [|a m IH]; auto. cbn [app filter]. destruct (negb (small (gr_P a) && small (gr_Q a))); auto. cbn [app filter]. rewrite IH. destruct (gr_type a); reflexivity. }
  rewrite !App. rewrite (Z _ (gen_res v) PV) by (auto; discriminate). rewrite (Z _ (slack_res v) Slack) by (auto; discriminate). cbn [app]. unfold shown.
  induction l as [|i l IH]; auto. cbn [map filter]. destruct (negb (small (gr_P (inf_res v i)) && small (gr_Q (inf_res v i)))).
  - cbn [filter]. rewrite inf_type. f_equal. clear -l. unfold shown. induction l as [|j l IH]; auto. cbn [map filter].
    destruct (negb (small (gr_P (inf_res v j)) && small (gr_Q (inf_res v j)))); auto. cbn [filter]. rewrite inf_type. f_equal; auto.
  - clear -l. induction l as [|j l IH]; auto. cbn [map filter].
    destruct (negb (small (gr_P (inf_res v j)) && small (gr_Q (inf_res v j)))); auto. cbn [filter]. rewrite inf_type. f_equal; auto.
Qed.
Lemma shown_none v l : shown v l = [] <-> forall i, In i l -> unseen v i.
Proof.
  unfold shown. induction l as [|i l IH]; [split; [intros _ i []|reflexivity]|]. cbn [map filter].
  destruct (small (gr_P (inf_res v i)) && small (gr_Q (inf_res v i))) eqn:E; cbn [negb].
  - rewrite IH. apply andb_true_iff in E as [E1 E2]. rewrite inf_P in E1; rewrite inf_Q in E2. apply clamp_small in E1, E2.
    split; [intros H j [<-|Hj]; [split; auto|auto]|intros H j Hj; apply H; right; auto].
  - split; [discriminate|]. intros H. destruct (H i (or_introl eq_refl)) as [H1 H2]. apply clamp_small in H1, H2. rewrite inf_P, inf_Q, H1, H2 in E. discriminate.
Qed.
Lemma fold_plus l : forall a, fold_left Rplus l a = a + fold_left Rplus l 0.
Proof. induction l as [|x l IH]; intros a; cbn [fold_left]; [ring|]. rewrite IH, (IH (0 + x)). ring. Qed.
Lemma shown_sums v l : (fold_left Rplus (map gr_P (shown v l)) 0, fold_left Rplus (map gr_Q (shown v l)) 0) = sums v l (0, 0).
Proof.
  induction l as [|i l IH]; [reflexivity|]. rewrite sums_cons. unfold shown in *. cbn [map filter].
  destruct (small (gr_P (inf_res v i)) && small (gr_Q (inf_res v i))) eqn:E; cbn [negb].
  - apply andb_true_iff in E as [E1 E2]. rewrite inf_P in E1; rewrite inf_Q in E2. apply clamp_small, clamp_zero in E1, E2. rewrite inf_P, inf_Q, E1, E2, <- IH. cbn [fst snd]. f_equal; ring.
  - cbn [map fold_left]. rewrite fold_plus, (fold_plus _ (0 + gr_Q (inf_res v i))). rewrite <- IH. cbn [fst snd]. f_equal; ring.
Qed.
Lemma display_total v n l : rn_inf n = Some l -> infeasibility_totals v n = Some (displayed_totals v n).
Proof. intros E. rewrite (totals_sums v n l E). unfold displayed_totals. rewrite (report_shown v n l E), shown_sums. reflexivity. Qed.
Lemma report_empty v n l : rn_inf n = Some l -> (report_infeasible v n = [] <-> forall i, In i l -> unseen v i).
Proof. intros E. rewrite (report_shown v n l E). apply shown_none. Qed.

(** the numbers reported for a generator *)
Lemma gen_reported : forall P Vset b n opt v tx, exists I,
  (volt v b <> C0 -> let r := gen_res v {| rg_P := - P; rg_Q := n |} in (gr_P r, gr_Q r) = power (volt v b) I) /\
  forall r, free_row opt (bus_unknowns b ++ [Some n]) r -> r <> (if opt then n + 1 else n)%nat ->
    F (present (fst (gen_stampers P Vset b n opt))) v tx r = balance opt b I r.
Proof.
  intros. destruct (gen_rows P Vset b n opt v tx) as (J & A & B). exists (Copp J). split.
  - intros H. cbn [gen_res gr_P gr_Q rg_P rg_Q]. specialize (A H). unfold power, Cmul, Cconj, Copp in *. cbn [fst snd] in *. injection A as A1 A2. apply C_eq; unfold volt; cbn [fst snd]; lra.
  - intros r H N. rewrite (B r H). assert (hit (eq_at opt n 1 0) r = 0) as ->; [|ring].
    unfold hit, eq_at. destruct opt; cbn [Nat.eqb]; destruct (Nat.eqb_spec (n + 1 + 0) r), (Nat.eqb_spec (n + 0) r); try lia; auto.
Qed.
