(** C30-C35, C38, C41 and C63-C65: whole elements, from the branches of ComponentsProofs.v. *)
From Coq Require Import String List Bool Arith ZArith Reals Lra Lia.
From Verif Require Import Expr Segment ExprProofs Collect SpecSystem Components SpecComponents ComponentsProofs.
Import ListNotations.
Local Open Scope R_scope.

Lemma C_eq : forall a b : C, fst a = fst b -> snd a = snd b -> a = b.
Proof. intros [a1 a2] [b1 b2]. simpl. congruence. Qed.
Lemma both0_true : forall x y, both0 x y = true <-> x = 0 /\ y = 0.
Proof. intros. unfold both0, is0. destruct (Req_EM_T x 0), (Req_EM_T y 0); simpl; intuition (discriminate || auto). Qed.
Lemma both0_false : forall x y, both0 x y = false -> x * x + y * y <> 0.
Proof.
  intros x y H E. assert (x = 0 /\ y = 0).
  { pose proof (Rle_0_sqr x). pose proof (Rle_0_sqr y). unfold Rsqr in *. assert (x * x = 0) by lra. assert (y * y = 0) by lra.
    split; [apply Rsqr_0_uniq|apply Rsqr_0_uniq]; auto. }
  apply both0_true in H0. congruence.
Qed.
Lemma Cnorm2_pos : forall V : C, V <> C0 -> Cnorm2 V <> 0.
Proof.
  intros [x y] H E. apply H. unfold Cnorm2 in E. simpl in E. assert (both0 x y = true).
  { destruct (both0 x y) eqn:B; auto. exfalso. eapply both0_false; eauto. }
  apply both0_true in H0 as [-> ->]. reflexivity.
Qed.
Lemma bal_add : forall opt b x y r, balance opt b (Cadd x y) r = balance opt b x r + balance opt b y r.
Proof. intros [|] b x y r; unfold balance, at_bus, at_lambda, Cadd; simpl; ring. Qed.
Lemma bal_0 : forall opt b r, balance opt b C0 r = 0.
Proof. intros [|] b r; unfold balance, at_bus, at_lambda, C0; simpl; ring. Qed.
Lemma bal_opp : forall opt b x r, balance opt b (Copp x) r = - balance opt b x r.
Proof. intros [|] b x r; unfold balance, at_bus, at_lambda, Copp; simpl; ring. Qed.
Lemma bal_gnd : forall opt x r, balance opt GROUND x r = 0.
Proof. intros [|] x r; unfold balance, at_bus, at_lambda; simpl; ring. Qed.

Lemma pq_power : forall P Q V, V <> C0 -> power V (pq_current P Q V) = (P, Q).
Proof.
  intros P Q [x y] H. pose proof (Cnorm2_pos _ H) as N. unfold power, pq_current, Cmul, Cconj, Cscale, Cnorm2 in *. simpl in *.
  apply C_eq; simpl; field; auto.
Qed.
Lemma branch_spec : forall r x V, both0 r x = false -> Cmul (r, x) (branch_current (series_G r x) (series_B r x) V) = V.
Proof.
  intros r x [a b] H. apply both0_false in H. unfold Cmul, branch_current, series_G, series_B. simpl. apply C_eq; simpl; field; auto.
Qed.
Lemma Cmul_scale : forall k a b, Cmul a (Cscale k b) = Cscale k (Cmul a b).
Proof. intros. unfold Cmul, Cscale. apply C_eq; simpl; ring. Qed.

Lemma F_some : forall d c l v tx r, F (present ((Some d, c) :: l)) v tx r = F [(d, c)] v tx r + F (present l) v tx r.
Proof. intros. change (present ((Some d, c) :: l)) with ((d, c) :: present l). apply F_one. Qed.
Lemma F_none : forall c l v tx r, F (present ((None, c) :: l)) v tx r = F (present l) v tx r.
Proof. reflexivity. Qed.
Lemma F_end : forall v tx r, F (present []) v tx r = 0.
Proof. reflexivity. Qed.

(** *** loads *)
Lemma load_draws : forall l f t n opt v tx, exists Ipq Ic Iz,
  (forall r, free_row opt (bus_unknowns f ++ bus_unknowns t) r ->
     F (present (fst (load_stampers l f t n opt))) v tx r =
     let I := Cadd Ipq (Cadd Ic Iz) in balance opt f I r + balance opt t (Copp I) r) /\
  (Csub (volt v f) (volt v t) <> C0 -> power (Csub (volt v f) (volt v t)) Ipq = (ld_P l, ld_Q l)) /\
  (ld_P l = 0 -> ld_Q l = 0 -> Ipq = C0) /\ Ic = (ld_IP l, ld_IQ l) /\
  ((ld_Zr l, ld_Zi l) <> C0 -> Cmul (ld_Zr l, ld_Zi l) Iz = Cscale (1 - tx) (Csub (volt v f) (volt v t))) /\
  ((ld_Zr l, ld_Zi l) = C0 -> Iz = C0).
Proof.
  intros l f t n opt v tx. set (V := Csub (volt v f) (volt v t)).
  exists (if both0 (ld_P l) (ld_Q l) then C0 else pq_current (ld_P l) (ld_Q l) V), (ld_IP l, ld_IQ l),
    (if both0 (ld_Zr l) (ld_Zi l) then C0 else Cscale (1 - tx) (branch_current (ld_G l) (ld_B l) V)).
  repeat split.
  - intros r H. unfold load_stampers. cbv zeta.
    pose proof (pq_branch (ld_P l) (ld_Q l) f t n opt v tx r H) as Hpq.
    pose proof (shunt_branch (ld_G l) (ld_B l) f t opt v tx r H) as Hz. cbv zeta in Hpq, Hz. fold V in Hpq, Hz.
    set (pqc := pq_current (ld_P l) (ld_Q l) V) in *. set (zc := Cscale (1 - tx) (branch_current (ld_G l) (ld_B l) V)) in *.
    destruct (two_terminal_details lh_pq f t n opt) as [d1 n1] eqn:E1. cbn [fst] in Hpq.
    assert (Ec : forall m, F [(fst (two_terminal_details lh_Ic f t m opt), [ld_IP l; ld_IQ l])] v tx r =
                 balance opt f (ld_IP l, ld_IQ l) r + balance opt t (Copp (ld_IP l, ld_IQ l)) r) by (intros; apply Ic_branch; auto).
    assert (Z0 : both0 (ld_IP l) (ld_IQ l) = true -> balance opt f (ld_IP l, ld_IQ l) r = 0 /\ balance opt t (ld_IP l, ld_IQ l) r = 0).
    { intros B. apply both0_true in B as [-> ->]. split; apply bal_0. }
    rewrite !bal_opp, !bal_add. rewrite !bal_opp in Hpq, Hz.
    destruct (both0 (ld_P l) (ld_Q l)).
    + specialize (Ec n). destruct (two_terminal_details lh_Ic f t n opt) as [d2 n2]. cbn [fst] in Ec. rewrite bal_opp in Ec.
      destruct (both0 (ld_IP l) (ld_IQ l)).
      * destruct Z0 as [Z1 Z2]; auto. destruct (both0 (ld_Zr l) (ld_Zi l)); cbn [fst snd]; repeat (rewrite F_some || rewrite F_none); rewrite ?F_end; rewrite ?bal_0, ?Hz; rewrite ?Z1, ?Z2; ring.
      * destruct (both0 (ld_Zr l) (ld_Zi l)); cbn [fst snd]; repeat (rewrite F_some || rewrite F_none); rewrite ?F_end; rewrite ?bal_0, ?Ec, ?Hz; ring.
    + specialize (Ec n1). destruct (two_terminal_details lh_Ic f t n1 opt) as [d2 n2]. cbn [fst] in Ec. rewrite bal_opp in Ec.
      destruct (both0 (ld_IP l) (ld_IQ l)).
      * destruct Z0 as [Z1 Z2]; auto. destruct (both0 (ld_Zr l) (ld_Zi l)); cbn [fst snd]; repeat (rewrite F_some || rewrite F_none); rewrite ?F_end; rewrite ?bal_0, ?Hpq, ?Hz; rewrite ?Z1, ?Z2; ring.
      * destruct (both0 (ld_Zr l) (ld_Zi l)); cbn [fst snd]; repeat (rewrite F_some || rewrite F_none); rewrite ?F_end; rewrite ?bal_0, ?Hpq, ?Ec, ?Hz; ring.
  - intros Hv. destruct (both0 (ld_P l) (ld_Q l)) eqn:B; [|now apply pq_power].
    apply both0_true in B as [-> ->]. unfold power, Cmul, Cconj, C0. apply C_eq; simpl; ring.
  - intros A B. assert (both0 (ld_P l) (ld_Q l) = true) by (apply both0_true; auto). now rewrite H.
  - intros Hz. destruct (both0 (ld_Zr l) (ld_Zi l)) eqn:B.
    + apply both0_true in B as [B1 B2]. rewrite B1, B2 in Hz. exfalso. now apply Hz.
    + rewrite Cmul_scale. unfold ld_G, ld_B. rewrite B. now rewrite branch_spec.
  - intros Hz. injection Hz as A B. assert (both0 (ld_Zr l) (ld_Zi l) = true) by (apply both0_true; auto). now rewrite H.
Qed.

Lemma empty_load : forall l f t n opt, ld_P l = 0 -> ld_Q l = 0 -> ld_IP l = 0 -> ld_IQ l = 0 -> ld_Zr l = 0 -> ld_Zi l = 0 ->
  present (fst (load_stampers l f t n opt)) = [] /\ snd (load_stampers l f t n opt) = n.
Proof.
  intros l f t n opt A B Cc D E G. unfold load_stampers.
  assert (X : forall x y, x = 0 -> y = 0 -> both0 x y = true) by (intros; now apply both0_true).
  rewrite (X _ _ A B), (X _ _ Cc D), (X _ _ E G). split; reflexivity.
Qed.

Lemma impedance_power : forall (Z V I : C) k, Cmul Z I = Cscale k V ->
  Cmul (power V I) (Cconj Z) = (k * Cnorm2 V, 0) /\ (0 <= fst Z -> 0 < k -> 0 <= fst (power V I)).
Proof.
  intros [r x] [a b] [c d] k H. unfold Cmul, Cscale, power, Cconj, Cnorm2 in *. simpl in *. injection H as H1 H2.
  assert (E1 : (a * c - b * - d) * r - (a * - d + b * c) * - x = k * (a * a + b * b)) by (transitivity (a * (r * c - x * d) + b * (r * d + x * c)); [ring|rewrite H1, H2; ring]).
  assert (E2 : (a * c - b * - d) * - x + (a * - d + b * c) * r = 0) by (transitivity (b * (r * c - x * d) - a * (r * d + x * c)); [ring|rewrite H1, H2; ring]).
  split; [apply C_eq; simpl; auto|]. intros Hr Hk.
  assert (K : k * (a * c - b * - d) = r * (c * c + d * d)) by (transitivity ((k * a) * c + (k * b) * d); [ring|rewrite <- H1, <- H2; ring]).
  assert (S : 0 <= c * c + d * d) by nra. assert (T : 0 <= k * (a * c - b * - d)) by (rewrite K; now apply Rmult_le_pos).
  apply (Rmult_le_reg_l k); [auto|]. rewrite Rmult_0_r. exact T.
Qed.

(** *** lines *)
Lemma line_currents : forall r x b l f t opt v tx, new_line r x b = Some l -> exists Is,
  Cmul (r, x) Is = Cscale (1 + 20 * tx) (Csub (volt v f) (volt v t)) /\
  let Ish V := Cscale (1 - tx) (Cmul (0, b / 2) V) in
  let If := Cadd Is (Ish (volt v f)) in
  let It := Cadd (Copp Is) (Ish (volt v t)) in
  (forall row, free_row opt (bus_unknowns f ++ bus_unknowns t) row ->
     F (present (line_stampers l f t opt)) v tx row = balance opt f If row + balance opt t It row) /\
  fst (power (volt v f) If) + fst (power (volt v t) It) = (1 + 20 * tx) * (r / (r * r + x * x)) * Cnorm2 (Csub (volt v f) (volt v t)).
Proof.
  intros r x b l f t opt v tx Hn. unfold new_line in Hn. destruct (both0 r x) eqn:B; [discriminate|]. injection Hn as <-.
  exists (Cscale (1 + 20 * tx) (branch_current (series_G r x) (series_B r x) (Csub (volt v f) (volt v t)))).
  split; [rewrite Cmul_scale, branch_spec; auto|]. cbv zeta. split.
  - intros row H. unfold line_stampers. cbn [ln_G ln_B ln_Bsh]. rewrite !F_some, F_end.
    rewrite line_branch by auto. rewrite shunt_branch by (eapply free_incl; [|exact H]; simpl; tauto).
    rewrite shunt_branch by (eapply free_incl; [|exact H]; simpl; tauto). cbv zeta.
    rewrite !bal_opp, !bal_gnd, !bal_add, !bal_opp. rewrite Ropp_0, !Rplus_0_r.
    assert (G0 : forall bb, Cscale (1 - tx) (branch_current 0 (b / 2) (Csub (volt v bb) (volt v GROUND))) = Cscale (1 - tx) (Cmul (0, b / 2) (volt v bb))).
    { intros bb. f_equal. unfold branch_current, Cmul, Csub, volt. simpl. apply C_eq; simpl; ring. }
    rewrite !G0. ring.
  - apply both0_false in B. destruct (volt v f) as [a1 a2], (volt v t) as [b1 b2].
    unfold power, Cmul, Cconj, Cadd, Copp, Cscale, Csub, branch_current, series_G, series_B, Cnorm2. simpl. field; auto.
Qed.

(** *** transformers *)
Lemma ideal_lossless : forall k Vp Vs I, Vp = Cmul k Vs -> Cadd (power Vp I) (power Vs (Copp (Cmul (Cconj k) I))) = C0.
Proof. intros [k1 k2] Vp [a b] [c d] ->. unfold power, Cmul, Cconj, Cadd, Copp, C0. apply C_eq; simpl; ring. Qed.

Lemma xf_rows : forall r x tr ang_deg xf fp fn tp tn n opt v tx, new_transformer r x tr ang_deg = Some xf ->
  let i := xf_current n opt in let s := xf_secondary n opt in
  let k := Cpolar (tr + (1 - tr) * tx) (ang_deg * PI / 180 * (1 - tx)) in
  let I := volt v i in
  let Vp := Csub (volt v fp) (volt v fn) in let Vs := Csub (volt v s) (volt v tn) in
  exists Is Iz, Cmul (r, x) Iz = Cscale (1 + 20 * tx) (Csub (volt v s) (volt v tp)) /\
  (Vp = Cmul k Vs -> Cadd (power Vp I) (power Vs Is) = C0) /\ Is = Copp (Cmul (Cconj k) I) /\
  forall row, free_row opt (bus_unknowns fp ++ bus_unknowns fn ++ bus_unknowns tp ++ bus_unknowns tn ++ bus_unknowns i ++ bus_unknowns s) row ->
    F (present (fst (xf_stampers xf fp fn tp tn n opt))) v tx row =
    balance opt fp I row + balance opt fn (Copp I) row +
    balance opt s (Cadd Is Iz) row + balance opt tn (Copp Is) row + balance opt tp (Copp Iz) row +
    balance opt i (Csub Vp (Cmul k Vs)) row.
Proof.
  intros r x tr ang_deg xf fp fn tp tn n opt v tx Hn i s k I Vp Vs. unfold new_transformer in Hn. destruct (both0 r x) eqn:B; [discriminate|].
  injection Hn as <-. exists (Copp (Cmul (Cconj k) I)), (Cscale (1 + 20 * tx) (branch_current (series_G r x) (series_B r x) (Csub (volt v s) (volt v tp)))).
  split; [rewrite Cmul_scale, branch_spec; auto|]. split; [apply ideal_lossless|]. split; [reflexivity|].
  intros row H. unfold xf_stampers. cbn [fst snd xf_tr xf_ang xf_G xf_B]. fold i s. rewrite !F_some, F_end.
  rewrite xf_branch by (eapply free_incl; [|exact H]; intros o Ho; right; rewrite !in_app_iff in *; tauto).
  rewrite line_branch by (eapply free_incl; [|exact H]; intros o Ho; right; rewrite !in_app_iff in *; tauto).
  cbv zeta. unfold xf_ratio. fold k I Vp Vs. rewrite bal_add. ring.
Qed.

Lemma ct_rows : forall c from pri s1 t1 s2 t2 n opt v tx,
  let i1 := ct_current 0 n opt in let i2 := ct_current 1 n opt in
  let k := / (ct_ratio c + (1 - ct_ratio c) * tx) in
  let I1 := volt v i1 in let I2 := volt v i2 in let Ip := Cscale k (Csub I2 I1) in
  let J0 := Cscale (1 + 20 * tx) (branch_current (ct_g0 c) (ct_b0 c) (Csub (volt v from) (volt v pri))) in
  let J1 := Cscale (1 + 20 * tx) (branch_current (ct_g1 c) (ct_b1 c) (Csub (volt v s1) (volt v t1))) in
  let J2 := Cscale (1 + 20 * tx) (branch_current (ct_g2 c) (ct_b2 c) (Csub (volt v s2) (volt v t2))) in
  forall row, free_row opt (flat_map bus_unknowns [from; pri; s1; t1; s2; t2; i1; i2]) row ->
    F (present (fst (ct_stampers c from pri s1 t1 s2 t2 n opt))) v tx row =
    balance opt from J0 row + balance opt pri (Csub Ip J0) row +
    balance opt s1 (Cadd I1 J1) row + balance opt t1 (Copp J1) row +
    balance opt s2 (Cadd I2 J2) row + balance opt t2 (Copp J2) row +
    balance opt i1 (Csub (volt v s1) (Cscale k (volt v pri))) row + balance opt i2 (Cadd (volt v s2) (Cscale k (volt v pri))) row.
Proof.
  intros c from pri s1 t1 s2 t2 n opt v tx i1 i2 k I1 I2 Ip J0 J1 J2 row H. unfold ct_stampers. cbn [fst snd]. fold i1 i2. rewrite !F_some, F_end.
  cbn [flat_map app] in H.
  rewrite ct_branch by (eapply free_incl; [|exact H]; intros o Ho; right; cbn in *; tauto).
  rewrite !line_branch by (eapply free_incl; [|exact H]; intros o Ho; right; cbn in *; tauto).
  cbv zeta. fold k I1 I2 J0 J1 J2. unfold Ip.
  replace (Csub (Cscale k (Csub I2 I1)) J0) with (Cadd (Cscale k (Csub I2 I1)) (Copp J0)) by (unfold Csub, Cadd, Copp; simpl; f_equal; ring).
  rewrite !bal_add, !bal_opp. ring.
Qed.
Lemma ct_lossless : forall k Vp V1 V2 I1 I2, V1 = Cscale k Vp -> V2 = Copp (Cscale k Vp) ->
  Cadd (power Vp (Cscale k (Csub I2 I1))) (Cadd (power V1 I1) (power V2 I2)) = C0.
Proof. intros k [a b] V1 V2 [c d] [e f] -> ->. unfold power, Cmul, Cconj, Cscale, Csub, Cadd, Copp, C0. apply C_eq; simpl; ring. Qed.

(** *** shunts, capacitors, sources *)
Lemma branch_power : forall G B V, power V (branch_current G B V) = (G * Cnorm2 V, - (B * Cnorm2 V)).
Proof. intros G B [a b]. unfold power, branch_current, Cmul, Cconj, Cnorm2. apply C_eq; simpl; ring. Qed.
Lemma power_scale : forall k V I, power V (Cscale k I) = Cscale k (power V I).
Proof. intros k [a b] [c d]. unfold power, Cmul, Cconj, Cscale. apply C_eq; simpl; ring. Qed.
Lemma volt_gnd : forall v b, Csub (volt v b) (volt v GROUND) = volt v b.
Proof. intros. unfold Csub, volt. apply C_eq; simpl; ring. Qed.

Lemma shunt_rows : forall G B b opt v tx, exists I,
  power (volt v b) I = Cscale (1 - tx) (G / 100 * Cnorm2 (volt v b), - (B / 100 * Cnorm2 (volt v b))) /\
  forall r, free_row opt (bus_unknowns b) r -> F (present (shunt_stampers G B b opt)) v tx r = balance opt b I r.
Proof.
  intros G B b opt v tx. exists (Cscale (1 - tx) (branch_current (G / 100) (B / 100) (volt v b))). split.
  - now rewrite power_scale, branch_power.
  - intros r H. unfold shunt_stampers. rewrite F_some, F_end. rewrite shunt_branch by (eapply free_incl; [|exact H]; simpl; tauto).
    cbv zeta. rewrite volt_gnd, bal_gnd. ring.
Qed.
Lemma capacitor_rows : forall var vnom f t opt v tx, vnom <> 0 ->
  capacitor_stampers var vnom false f t opt = Some [] /\
  exists l I, capacitor_stampers var vnom true f t opt = Some l /\
  power (Csub (volt v f) (volt v t)) I = (0, - ((1 - tx) * (var * (Cnorm2 (Csub (volt v f) (volt v t)) / (vnom * vnom))))) /\
  forall r, free_row opt (bus_unknowns f ++ bus_unknowns t) r -> F (present l) v tx r = balance opt f I r + balance opt t (Copp I) r.
Proof.
  intros var vnom f t opt v tx Hn. unfold capacitor_stampers, is0. destruct (Req_EM_T vnom 0) as [E|_]; [contradiction|].
  split; [reflexivity|]. eexists. exists (Cscale (1 - tx) (branch_current 0 (var / (vnom * vnom)) (Csub (volt v f) (volt v t)))).
  split; [reflexivity|]. split.
  - rewrite power_scale, branch_power. unfold Cscale. apply C_eq; simpl; [ring|]. field; auto.
  - intros r H. rewrite F_some, F_end, shunt_branch by auto. cbv zeta. ring.
Qed.

Lemma gen_rows : forall P Vset b n opt v tx, exists I,
  (volt v b <> C0 -> power (volt v b) I = (P, - v n)) /\
  forall r, free_row opt (bus_unknowns b ++ [Some n]) r ->
    F (present (fst (gen_stampers P Vset b n opt))) v tx r =
    balance opt b (Copp I) r + hit (eq_at opt n 1 0) r * (Vset * Vset - Cnorm2 (volt v b)).
Proof.
  intros P Vset b n opt v tx. exists (Copp (pq_current (- P) (v n) (volt v b))). split.
  - intros Hv. pose proof (pq_power (- P) (v n) _ Hv) as E. unfold power, Cmul, Cconj, Copp in *. simpl in *. injection E as E1 E2.
    apply C_eq; simpl; lra.
  - intros r H. unfold gen_stampers. pose proof (gen_branch (- P) Vset b n opt v tx r H) as G.
    destruct (two_terminal_details gen_lh b GROUND n opt) as [d n']. cbn [fst] in *. rewrite F_some, F_end, G, bal_opp, bal_opp. ring.
Qed.
Lemma gen_next : forall P Vset b n opt, snd (gen_stampers P Vset b n opt) = (n + if opt then 2 else 1)%nat /\ gen_Q_index b n opt = Some (Some n).
Proof. intros. destruct opt; split; cbn; auto; lia. Qed.
Lemma slack_rows : forall Vset ang b n opt v tx r, free_row opt (bus_unknowns b ++ bus_unknowns (pair_at n)) r ->
  F (present (fst (slack_stampers Vset ang b n opt))) v tx r =
  balance opt b (volt v (pair_at n)) r +
  at_bus (pair_at (if opt then n + 2 else n)) (Csub (volt v b) (Cpolar Vset ang)) r.
Proof.
  intros Vset ang b n opt v tx r H. unfold slack_stampers. pose proof (slack_branch (Vset * cos ang) (Vset * sin ang) b n opt v tx r H) as G.
  destruct (two_terminal_details slack_lh b GROUND n opt) as [d n']. cbn [fst] in *. rewrite F_some, F_end, G.
  unfold eq_at, at_bus, pair_at, Csub, Cpolar, volt. cbn [n_Vr n_Vi read fst snd].
  destruct opt; rewrite ?Nat.add_0_r; [replace (n + 2 + 1)%nat with (S (n + 2)) by lia|replace (n + 1)%nat with (S n) by lia]; ring.
Qed.
Lemma vs_rows : forall Vr Vi f t n opt v tx r, free_row opt (bus_unknowns f ++ bus_unknowns t ++ bus_unknowns (pair_at n)) r ->
  F (present (fst (vs_stampers Vr Vi f t n opt))) v tx r =
  let I := volt v (pair_at n) in
  balance opt f I r + balance opt t (Copp I) r +
  at_bus (pair_at (if opt then n + 2 else n)) (Csub (Vr, Vi) (Csub (volt v f) (volt v t))) r.
Proof.
  intros Vr Vi f t n opt v tx r H. unfold vs_stampers. pose proof (vs_branch Vr Vi f t n opt v tx r H) as G.
  destruct (two_terminal_details vs_lh f t n opt) as [d n']. cbn [fst] in *. rewrite F_some, F_end, G. cbv zeta.
  unfold eq_at, at_bus, pair_at, Csub, volt. cbn [n_Vr n_Vi read fst snd].
  destruct opt; rewrite ?Nat.add_0_r; [replace (n + 2 + 1)%nat with (S (n + 2)) by lia|replace (n + 1)%nat with (S n) by lia]; ring.
Qed.
Lemma vs_next : forall Vr Vi f t n opt, snd (vs_stampers Vr Vi f t n opt) = (n + if opt then 4 else 2)%nat.
Proof. intros. destruct opt; cbn; lia. Qed.
Lemma present_app : forall a b, present (a ++ b) = present a ++ present b.
Proof. intros. unfold present. apply flat_map_app. Qed.

Lemma fuse_rows : forall f t m n opt v tx r, free_row opt (flat_map bus_unknowns [f; t; m; pair_at n]) r ->
  F (present (fst (fuse_stampers f t m n opt))) v tx r =
  let J := Cscale (1 + 20 * tx) (Cmul (10000, 10000) (Csub (volt v f) (volt v m))) in
  let I := volt v (pair_at n) in
  balance opt f J r + balance opt m (Csub I J) r + balance opt t (Copp I) r +
  at_bus (pair_at (if opt then n + 2 else n)) (Csub (volt v t) (volt v m)) r.
Proof.
  intros f t m n opt v tx r H. cbn [flat_map app] in H. unfold fuse_stampers. destruct (vs_stampers 0 0 m t n opt) as [s n'] eqn:E. cbn [fst].
  rewrite F_some, line_branch by (eapply free_incl; [|exact H]; intros o Ho; right; cbn in *; tauto).
  assert (Es : s = fst (vs_stampers 0 0 m t n opt)) by now rewrite E. rewrite Es.
  rewrite vs_rows by (eapply free_incl; [|exact H]; intros o Ho; right; cbn in *; tauto). cbv zeta.
  replace (Csub (0, 0) (Csub (volt v m) (volt v t))) with (Csub (volt v t) (volt v m)) by (unfold Csub; apply C_eq; simpl; ring).
  replace (branch_current 10000 10000 (Csub (volt v f) (volt v m))) with (Cmul (10000, 10000) (Csub (volt v f) (volt v m)))
    by (unfold branch_current, Cmul; apply C_eq; simpl; ring).
  set (J := Cscale _ _). set (I := volt v (pair_at n)).
  replace (Csub I J) with (Cadd I (Copp J)) by (unfold Csub, Cadd, Copp; apply C_eq; simpl; ring).
  rewrite !bal_add, !bal_opp. ring.
Qed.
Lemma reg_rows : forall ratio f t cur n opt v tx r,
  let i := xf_current n opt in let s := xf_secondary n opt in let m := (n + if opt then 8 else 4)%nat in
  free_row opt (flat_map bus_unknowns [f; t; cur; i; s; pair_at m]) r ->
  F (present (fst (reg_stampers ratio f t cur n opt))) v tx r =
  let k := ratio + (1 - ratio) * tx in
  let I := volt v i in
  let J := Cscale ((1 + 20 * tx) * 10000) (Csub (volt v s) (volt v cur)) in
  let M := volt v (pair_at m) in
  balance opt f I r + balance opt s (Csub J (Cscale k I)) r + balance opt cur (Csub M J) r + balance opt t (Copp M) r +
  balance opt i (Csub (volt v f) (Cscale k (volt v s))) r +
  at_bus (pair_at (if opt then m + 2 else m)) (Csub (volt v t) (volt v cur)) r.
Proof.
  intros ratio f t cur n opt v tx r i s m H. cbn [flat_map app] in H. unfold reg_stampers, xf_stampers. cbn [xf_tr xf_ang xf_G xf_B]. fold i s m.
  destruct (vs_stampers 0 0 cur t m opt) as [s2 n2] eqn:E. cbn [fst]. cbn [app]. rewrite F_some, F_some.
  assert (Es : s2 = fst (vs_stampers 0 0 cur t m opt)) by now rewrite E. rewrite Es.
  rewrite vs_rows by (eapply free_incl; [|exact H]; intros o Ho; right; cbn in *; tauto).
  rewrite line_branch by (eapply free_incl; [|exact H]; intros o Ho; right; cbn in *; tauto).
  rewrite xf_branch by (eapply free_incl; [|exact H]; intros o Ho; cbn in *; tauto). cbv zeta.
  unfold xf_ratio. replace (0 * (1 - tx)) with 0 by ring. unfold Cpolar. rewrite cos_0, sin_0.
  set (k := ratio + (1 - ratio) * tx).
  replace (Csub (0, 0) (Csub (volt v cur) (volt v t))) with (Csub (volt v t) (volt v cur)) by (unfold Csub; apply C_eq; simpl; ring).
  replace (Cscale (1 + 20 * tx) (branch_current (series_G (1 / 10000) 0) (series_B (1 / 10000) 0) (Csub (volt v s) (volt v cur))))
    with (Cscale ((1 + 20 * tx) * 10000) (Csub (volt v s) (volt v cur)))
    by (unfold branch_current, Cscale, series_G, series_B; apply C_eq; simpl; field).
  set (J := Cscale _ (Csub (volt v s) (volt v cur))). set (I := volt v i). set (M := volt v (pair_at m)).
  rewrite !volt_gnd.
  replace (Cmul (k * 1, k * 0) (volt v s)) with (Cscale k (volt v s)) by (unfold Cmul, Cscale; apply C_eq; simpl; ring).
  replace (Csub J (Cscale k I)) with (Cadd J (Copp (Cscale k I))) by (unfold Csub, Cadd, Copp; apply C_eq; simpl; ring).
  replace (Cmul (Cconj (k * 1, k * 0)) I) with (Cscale k I) by (unfold Cmul, Cconj, Cscale; apply C_eq; simpl; ring).
  replace (Csub M J) with (Cadd M (Copp J)) by (unfold Csub, Cadd, Copp; apply C_eq; simpl; ring).
  rewrite !bal_gnd, !bal_add, !bal_opp. ring.
Qed.

(** *** homotopy: a factor is the same as other parameters, in all rows *)
Definition over (consts : list sym) (c : list R) (tx : R) (rho : env) : env := fun s =>
  match index_of s consts with Some n => if String.eqb s tx_factor then tx else nth n c 0 | None => rho s end.
Lemma upd_over : forall consts c tx rho x t s, index_of x consts = None -> upd (over consts c tx rho) x t s = over consts c tx (upd rho x t) s.
Proof. intros consts c tx rho x t s H. unfold upd, over. destruct (String.eqb s x) eqn:E; auto. apply String.eqb_eq in E as ->. now rewrite H. Qed.
Lemma upd_self : forall (rho : env) x s, upd rho x (rho x) s = rho s.
Proof. intros rho x s. unfold upd. destruct (String.eqb s x) eqn:E; auto. now apply String.eqb_eq in E as ->. Qed.

Lemma same_derivative : forall L consts c c' tx tx' x rho, index_of x consts = None ->
  (forall rho, den L (over consts c tx rho) = den L (over consts c' tx' rho)) ->
  wd L (over consts c tx rho) -> wd L (over consts c' tx' rho) ->
  den (diff L x) (over consts c tx rho) = den (diff L x) (over consts c' tx' rho).
Proof.
  intros L consts c c' tx tx' x rho Hx E W W'.
  pose proof (den_derivable L _ x W) as D. pose proof (den_derivable L _ x W') as D'.
  assert (O : over consts c tx rho x = rho x) by (unfold over; now rewrite Hx).
  assert (O' : over consts c' tx' rho x = rho x) by (unfold over; now rewrite Hx). rewrite O in D. rewrite O' in D'.
  eapply uniqueness_limite; [exact D|]. eapply dlim_ext; [|exact D']. intros t. cbv beta.
  rewrite (den_ext L (upd (over consts c' tx' rho) x t) (over consts c' tx' (upd rho x t))) by (intros; now apply upd_over).
  rewrite (den_ext L (upd (over consts c tx rho) x t) (over consts c tx (upd rho x t))) by (intros; now apply upd_over).
  symmetry. apply E.
Qed.
Lemma same_rows : forall d c c' tx tx' v r,
  (forall x, In x (sg_variables (sd_seg d)) -> index_of x (sg_constants (sd_seg d)) = None) ->
  (forall rho, den (sg_lagrange (sd_seg d)) (over (sg_constants (sd_seg d)) c tx rho) = den (sg_lagrange (sd_seg d)) (over (sg_constants (sd_seg d)) c' tx' rho)) ->
  (forall rho, wd (sg_lagrange (sd_seg d)) (over (sg_constants (sd_seg d)) c tx rho)) ->
  (forall rho, wd (sg_lagrange (sd_seg d)) (over (sg_constants (sd_seg d)) c' tx' rho)) ->
  F [(d, c)] v tx r = F [(d, c')] v tx' r.
Proof.
  intros d c c' tx tx' v r Hx E W W'. rewrite !F_cons, !F_nil. cbn [fst]. f_equal.
  assert (I : forall l, incl l (sg_variables (sd_seg d)) -> hsum d (sym_val (d, c) v tx) r l = hsum d (sym_val (d, c') v tx') r l).
  { induction l as [|x l IH]; intros Hl; [reflexivity|]. cbn [hsum]. rewrite IH by (intros y Hy; apply Hl; now right). f_equal. f_equal.
    apply (same_derivative _ (sg_constants (sd_seg d)) c c' tx tx' x (fun s => match lookup (sd_var d) s with Some (Some n) => v n | _ => 0 end)); auto.
    apply Hx, Hl. now left. }
  apply I. unfold first_orders, sg_variables. destruct (sd_opt d); intros x Hx'; auto. apply in_app_iff. now right.
Qed.
Ltac no_const := let x := fresh "x" in let Hx := fresh "Hx" in intros x Hx; cbn in Hx; repeat (destruct Hx as [<-|Hx]; [reflexivity|]); contradiction.
Ltac values := intros; unfold over; cbn -[Rplus Rmult Rminus Ropp Rinv Rdiv IZR powerRZ sin cos].
Ltac well := intros; unfold over; cbn -[Rplus Rmult Rminus Ropp Rinv Rdiv IZR powerRZ sin cos]; repeat split; try (let E := fresh in intro E; discriminate E).

Lemma line_homotopy : forall G B f t opt v tx r,
  F [(line_details f t opt false, [G; B; 0])] v tx r = F [(line_details f t opt false, [(1 + 20 * tx) * G; (1 + 20 * tx) * B; 0])] v 0 r.
Proof. intros. apply same_rows; [no_const| |well|well]. values. unfold TX_LARGE_G, TX_LARGE_B. ring. Qed.
Lemma shunt_homotopy : forall G B f t opt v tx r,
  F [(line_details f t opt true, [G; B; 0])] v tx r = F [(line_details f t opt true, [(1 - tx) * G; (1 - tx) * B; 0])] v 0 r.
Proof. intros. apply same_rows; [no_const| |well|well]. values. ring. Qed.
Lemma xf_homotopy : forall tr ang m opt v tx r,
  F [({| sd_seg := xfrmr_lh; sd_var := m; sd_eqn := None; sd_opt := opt |}, [tr; ang; 0])] v tx r =
  F [({| sd_seg := xfrmr_lh; sd_var := m; sd_eqn := None; sd_opt := opt |}, [tr + (1 - tr) * tx; ang * (1 - tx); 0])] v 0 r.
Proof.
  intros. apply same_rows; [no_const| |well|well]. values.
  replace (ang + -1 * (ang * tx)) with (ang * (1 - tx) + -1 * (ang * (1 - tx) * 0)) by ring. ring.
Qed.
Lemma ct_homotopy : forall tr m opt v tx r, tr + (1 - tr) * tx <> 0 ->
  F [({| sd_seg := center_tap_lh; sd_var := m; sd_eqn := None; sd_opt := opt |}, [tr; 0])] v tx r =
  F [({| sd_seg := center_tap_lh; sd_var := m; sd_eqn := None; sd_opt := opt |}, [tr + (1 - tr) * tx; 0])] v 0 r.
Proof.
  intros tr m opt v tx r H. set (k := tr + (1 - tr) * tx) in *. apply same_rows; [no_const| | |].
  - values. replace (tr + (1 + -1 * tr) * tx) with k by (unfold k; ring). replace (k + (1 + -1 * k) * 0) with k by ring. reflexivity.
  - well; intros _; intros E; apply H; rewrite <- E; unfold k; ring.
  - well; intros _; intros E; apply H; rewrite <- E; ring.
Qed.
(** with zero parameters nothing is contributed *)
Lemma zero_rows : forall d c tx v r,
  (forall x, In x (sg_variables (sd_seg d)) -> index_of x (sg_constants (sd_seg d)) = None) ->
  (forall rho, den (sg_lagrange (sd_seg d)) (over (sg_constants (sd_seg d)) c tx rho) = 0) ->
  (forall rho, wd (sg_lagrange (sd_seg d)) (over (sg_constants (sd_seg d)) c tx rho)) -> F [(d, c)] v tx r = 0.
Proof.
  intros d c tx v r Hx E W. rewrite !F_cons, !F_nil. cbn [fst].
  assert (I : forall l, incl l (sg_variables (sd_seg d)) -> hsum d (sym_val (d, c) v tx) r l = 0).
  { induction l as [|x l IH]; intros Hl; [reflexivity|]. cbn [hsum]. rewrite IH by (intros y Hy; apply Hl; now right).
    set (rho := fun s => match lookup (sd_var d) s with Some (Some n) => v n | _ => 0 end).
    change (sym_val (d, c) v tx) with (over (sg_constants (sd_seg d)) c tx rho).
    assert (Z : den (diff (sg_lagrange (sd_seg d)) x) (over (sg_constants (sd_seg d)) c tx rho) = 0).
    { eapply uniqueness_limite; [apply den_derivable, W|]. eapply dlim_ext; [|apply (derivable_pt_lim_const 0)]. intros t. unfold fct_cte.
      rewrite (den_ext _ (upd (over (sg_constants (sd_seg d)) c tx rho) x t) (over (sg_constants (sd_seg d)) c tx (upd rho x t))).
      - symmetry. apply E. - intros s _. apply upd_over. apply Hx, Hl. now left. }
    rewrite Z. ring. }
  rewrite I; [ring|]. unfold first_orders, sg_variables. destruct (sd_opt d); intros x Hx'; auto. apply in_app_iff. now right.
Qed.
Lemma shunt_zero : forall f t opt v r, F [(line_details f t opt true, [0; 0; 0])] v 0 r = 0.
Proof. intros. apply zero_rows; [no_const| |well]. values. ring. Qed.
Lemma shunt_full : forall G B f t opt v r, F [(line_details f t opt true, [G; B; 0])] v 1 r = 0.
Proof. intros. rewrite shunt_homotopy. replace ((1 - 1) * G) with 0 by ring. replace ((1 - 1) * B) with 0 by ring. apply shunt_zero. Qed.

Lemma line_element_homotopy : forall l f t opt v tx r,
  F (present (line_stampers l f t opt)) v tx r =
  F (present (line_stampers {| ln_G := (1 + 20 * tx) * ln_G l; ln_B := (1 + 20 * tx) * ln_B l; ln_Bsh := (1 - tx) * ln_Bsh l |} f t opt)) v 0 r.
Proof.
  intros. unfold line_stampers. cbn [ln_G ln_B ln_Bsh]. rewrite !F_some, !F_end. rewrite line_homotopy, (shunt_homotopy 0 _ f), (shunt_homotopy 0 _ t).
  now rewrite Rmult_0_r.
Qed.
Lemma xf_element_homotopy : forall x fp fn tp tn n opt v tx r,
  F (present (fst (xf_stampers x fp fn tp tn n opt))) v tx r =
  F (present (fst (xf_stampers {| xf_tr := xf_tr x + (1 - xf_tr x) * tx; xf_ang := xf_ang x * (1 - tx);
                                  xf_G := (1 + 20 * tx) * xf_G x; xf_B := (1 + 20 * tx) * xf_B x |} fp fn tp tn n opt))) v 0 r.
Proof. intros. unfold xf_stampers. cbn [fst xf_tr xf_ang xf_G xf_B]. rewrite !F_some, !F_end. now rewrite line_homotopy, xf_homotopy. Qed.
Lemma ct_element_homotopy : forall c from pri s1 t1 s2 t2 n opt v tx r, ct_ratio c + (1 - ct_ratio c) * tx <> 0 ->
  let k := 1 + 20 * tx in
  F (present (fst (ct_stampers c from pri s1 t1 s2 t2 n opt))) v tx r =
  F (present (fst (ct_stampers {| ct_ratio := ct_ratio c + (1 - ct_ratio c) * tx; ct_g0 := k * ct_g0 c; ct_b0 := k * ct_b0 c;
       ct_g1 := k * ct_g1 c; ct_b1 := k * ct_b1 c; ct_g2 := k * ct_g2 c; ct_b2 := k * ct_b2 c |} from pri s1 t1 s2 t2 n opt))) v 0 r.
Proof.
  intros. unfold ct_stampers. cbn [fst ct_ratio ct_g0 ct_b0 ct_g1 ct_b1 ct_g2 ct_b2]. rewrite !F_some, !F_end.
  rewrite ct_homotopy by auto. now rewrite !(line_homotopy (ct_g0 c)), !(line_homotopy (ct_g1 c)), !(line_homotopy (ct_g2 c)).
Qed.
(** segments without the factor *)
Lemma no_factor : forall d c tx v r, mem tx_factor (sg_constants (sd_seg d)) = false -> F [(d, c)] v tx r = F [(d, c)] v 0 r.
Proof.
  intros d c tx v r H. rewrite !F_cons, !F_nil. cbn [fst].
  induction (first_orders d) as [|x l IH]; [reflexivity|]. cbn [hsum].
  rewrite (den_ext _ (sym_val (d, c) v tx) (sym_val (d, c) v 0)); [cbn [hsum] in *; lra|]. clear -H. intros s _. unfold sym_val. cbn [fst snd].
  destruct (index_of s (sg_constants (sd_seg d))) eqn:I; auto. destruct (String.eqb s tx_factor) eqn:T; auto. exfalso.
  apply String.eqb_eq in T as ->. revert n I H. induction (sg_constants (sd_seg d)) as [|y l IH]; intros n I H; [discriminate|].
  unfold mem in H, IH. cbn [index_of existsb] in I, H. apply orb_false_iff in H as [H1 H2]. rewrite H1 in I.
  destruct (index_of tx_factor l); [|discriminate]. eapply IH; eauto.
Qed.

(** *** L1 infeasibility currents *)
Lemma pw1 : forall x, powerRZ x 1 = x.
Proof. intros. unfold powerRZ. change (Pos.to_nat 1) with 1%nat. simpl. ring. Qed.
Lemma l1_rows : forall b n v tx r,
  F (present (fst (l1_stampers b n))) v tx r =
  let L := mult v b in
  hit (Some n) r * (1 - fst L + 2 * v n) + hit (Some (n + 1)%nat) r * (1 - snd L + 2 * v (n + 1)%nat) +
  hit (Some (n + 2)%nat) r * (1 + fst L + 2 * v (n + 2)%nat) + hit (Some (n + 3)%nat) r * (1 + snd L + 2 * v (n + 3)%nat) +
  at_lambda b (v (n + 2)%nat - v n, v (n + 3)%nat - v (n + 1)%nat) r.
Proof.
  intros b n v tx r. unfold l1_stampers. cbn [fst]. rewrite F_some, F_end, F_cons, F_nil. cbn [fst].
  expand_rows. unfold at_lambda, mult, SpecComponents.read. cbn [fst snd]. ring.
Qed.
Lemma l2_rows : forall b n v tx r,
  F (present (fst (l2_stampers b n))) v tx r =
  let L := mult v b in
  hit (Some n) r * (fst L + 2 * v n) + hit (Some (S n)) r * (snd L + 2 * v (S n)) + at_lambda b (v n, v (S n)) r.
Proof.
  intros b n v tx r. unfold l2_stampers. cbn [fst]. rewrite F_some, F_end, F_cons, F_nil. cbn [fst].
  expand_rows. rewrite ?pw1. unfold at_lambda, mult, SpecComponents.read. cbn [fst snd]. ring.
Qed.

Lemma hit_miss : forall o r, o <> Some r -> hit o r = 0.
Proof. intros [n|] r H; simpl; auto. destruct (Nat.eqb n r) eqn:E; auto. apply Nat.eqb_eq in E as ->. congruence. Qed.
(** the rows of the parts of the infeasibility current, when no other element has an equation there *)
Lemma l1_solution : forall b n v tx, (forall k, (k < 4)%nat -> ~ In (Some (n + k)%nat) [n_Lr b; n_Li b]) ->
  (forall k, (k < 4)%nat -> F (present (fst (l1_stampers b n))) v tx (n + k)%nat = 0) ->
  let L := mult v b in
  v n - v (n + 2)%nat = fst L /\ v (n + 1)%nat - v (n + 3)%nat = snd L /\
  v n + v (n + 2)%nat = - 1 /\ v (n + 1)%nat + v (n + 3)%nat = - 1 /\
  (Rabs (fst L) < 1 -> v n < 0 /\ v (n + 2)%nat < 0).
Proof.
  intros b n v tx Hd H L.
  assert (A : forall k c, (k < 4)%nat -> at_lambda b c (n + k)%nat = 0).
  { intros k c Hk. specialize (Hd k Hk). unfold at_lambda. rewrite !hit_miss; [ring| |]; intros E; apply Hd; rewrite E; simpl; auto. }
  assert (X : forall a k, (k < 4)%nat -> (a < 4)%nat -> hit (Some (n + a)%nat) (n + k)%nat = if Nat.eqb a k then 1 else 0).
  { intros a k _ _. unfold hit. destruct (Nat.eqb a k) eqn:E. - apply Nat.eqb_eq in E as ->. now rewrite Nat.eqb_refl.
    - apply Nat.eqb_neq in E. destruct (Nat.eqb (n + a) (n + k)) eqn:E2; auto. apply Nat.eqb_eq in E2. lia. }
  assert (R : forall k, (k < 4)%nat -> (if Nat.eqb 0 k then 1 else 0) * (1 - fst L + 2 * v n) + (if Nat.eqb 1 k then 1 else 0) * (1 - snd L + 2 * v (n + 1)%nat) +
     (if Nat.eqb 2 k then 1 else 0) * (1 + fst L + 2 * v (n + 2)%nat) + (if Nat.eqb 3 k then 1 else 0) * (1 + snd L + 2 * v (n + 3)%nat) = 0).
  { intros k Hk. specialize (H k Hk). rewrite l1_rows in H. cbv zeta in H. fold L in H. rewrite A in H by auto.
    pose proof (X 0%nat k Hk ltac:(lia)) as X0. rewrite Nat.add_0_r in X0. rewrite X0 in H. rewrite !X in H by lia. lra. }
  pose proof (R 0%nat ltac:(lia)) as R0. pose proof (R 1%nat ltac:(lia)) as R1. pose proof (R 2%nat ltac:(lia)) as R2. pose proof (R 3%nat ltac:(lia)) as R3.
  cbn [Nat.eqb] in *. repeat split; try lra; apply Rabs_def2 in H0; lra.
Qed.

(** *** solved equations of sources *)
Lemma bal_miss : forall opt b c r, ~ In (Some r) [n_Vr b; n_Vi b; n_Lr b; n_Li b] -> balance opt b c r = 0.
Proof.
  intros opt b c r H. unfold balance, at_bus, at_lambda. destruct opt; rewrite !hit_miss; try ring; intros E; apply H; rewrite E; simpl; auto.
Qed.
Definition away (b : nodes) (r : nat) : Prop := ~ In (Some r) [n_Vr b; n_Vi b; n_Lr b; n_Li b].
Lemma away_unknowns : forall b r, away b r -> ~ In (Some r) (bus_unknowns b).
Proof. intros b r H X. apply H. simpl in *. tauto. Qed.
Lemma at_pair : forall n c, at_bus (pair_at n) c n = fst c /\ at_bus (pair_at n) c (S n) = snd c.
Proof.
  intros n c. unfold at_bus, pair_at, hit. cbn [n_Vr n_Vi]. rewrite !Nat.eqb_refl.
  replace (Nat.eqb (S n) n) with false by (symmetry; apply Nat.eqb_neq; lia). replace (Nat.eqb n (S n)) with false by (symmetry; apply Nat.eqb_neq; lia).
  split; ring.
Qed.
Lemma gen_holds : forall P Vset b n (opt : bool) v tx, let m := (if opt then n + 1 else n)%nat in away b m ->
  (F (present (fst (gen_stampers P Vset b n opt))) v tx m = 0 <-> Cnorm2 (volt v b) = Vset * Vset).
Proof.
  intros P Vset b n opt v tx m Hm. destruct (gen_rows P Vset b n opt v tx) as (I & _ & H). rewrite H.
  - rewrite bal_miss by exact Hm. assert (E : eq_at opt n 1 0 = Some m) by (unfold eq_at, m; destruct opt; f_equal; lia).
    rewrite E. simpl. rewrite Nat.eqb_refl. split; lra.
  - intros -> X. apply in_app_iff in X as [X|[X|[]]]; [now apply away_unknowns in Hm|]. injection X. unfold m. lia.
Qed.
Lemma slack_holds : forall Vset ang b n (opt : bool) v tx, let m := (if opt then n + 2 else n)%nat in away b m -> away b (S m) ->
  (F (present (fst (slack_stampers Vset ang b n opt))) v tx m = 0 /\ F (present (fst (slack_stampers Vset ang b n opt))) v tx (S m) = 0 <->
   volt v b = Cpolar Vset ang).
Proof.
  intros Vset ang b n opt v tx m H0 H1. rewrite !slack_rows; fold m.
  - rewrite !bal_miss by auto. destruct (at_pair m (Csub (volt v b) (Cpolar Vset ang))) as [-> ->]. unfold Csub. cbn [fst snd]. split.
    + intros [A B]. apply C_eq; lra. + intros ->. split; ring.
  - intros -> X. apply in_app_iff in X as [X|[X|[X|[]]]]; [now apply away_unknowns in H1| |]; injection X; unfold m; lia.
  - intros -> X. apply in_app_iff in X as [X|[X|[X|[]]]]; [now apply away_unknowns in H0| |]; injection X; unfold m; lia.
Qed.
Lemma vs_holds : forall Vr Vi f t n (opt : bool) v tx, let m := (if opt then n + 2 else n)%nat in
  away f m -> away f (S m) -> away t m -> away t (S m) ->
  (F (present (fst (vs_stampers Vr Vi f t n opt))) v tx m = 0 /\ F (present (fst (vs_stampers Vr Vi f t n opt))) v tx (S m) = 0 <->
   Csub (volt v f) (volt v t) = (Vr, Vi)).
Proof.
  intros Vr Vi f t n opt v tx m H0 H1 H2 H3. rewrite !vs_rows; fold m.
  - cbv zeta. rewrite !bal_miss by auto. destruct (at_pair m (Csub (Vr, Vi) (Csub (volt v f) (volt v t)))) as [-> ->]. unfold Csub. cbn [fst snd]. split.
    + intros [A B]. apply C_eq; cbn [fst snd]; lra. + intros E. pose proof (f_equal fst E) as E1. pose proof (f_equal snd E) as E2. cbn [fst snd] in E1, E2. split; lra.
  - intros -> X. apply in_app_iff in X as [X|X]; [now apply away_unknowns in H1|]. apply in_app_iff in X as [X|[X|[X|[]]]]; [now apply away_unknowns in H3| |]; injection X; unfold m; lia.
  - intros -> X. apply in_app_iff in X as [X|X]; [now apply away_unknowns in H0|]. apply in_app_iff in X as [X|[X|[X|[]]]]; [now apply away_unknowns in H2| |]; injection X; unfold m; lia.
Qed.

(** the winding impedances of a center tap transformer *)
Lemma coil_spec : forall p x V rating, rating <> 0 -> V <> 0 ->
  let Y := (coil_G (coil_r p V rating) (coil_r x V rating), coil_B (coil_r p V rating) (coil_r x V rating)) in
  ((p, x) <> C0 -> Cmul (Cscale (V * V / rating) (p, x)) Y = C1) /\ ((p, x) = C0 -> Y = C0).
Proof.
  intros p x V S HS HV Y. assert (K : V * V / S <> 0). { intros E. apply (f_equal (fun a => a * S)) in E. replace (V * V / S * S) with (V * V) in E by (field; auto). rewrite Rmult_0_l in E. apply Rmult_integral in E. intuition. }
  assert (R1 : forall a, coil_r a V S = V * V / S * a) by (intros; unfold coil_r; field; auto).
  unfold Y. rewrite !R1. set (k := V * V / S) in *. clearbody k. unfold coil_G, coil_B. split.
  - intros H. destruct (both0 (k * p) (k * x)) eqn:B.
    + exfalso. apply both0_true in B as [B1 B2]. apply H. apply C_eq; cbn [fst snd C0]; [apply Rmult_integral in B1; intuition|apply Rmult_integral in B2; intuition].
    + apply both0_false in B. unfold Cmul, Cscale, series_G, series_B, C1. cbn [fst snd]. apply C_eq; cbn [fst snd]; field; auto.
  - intros H. injection H as -> ->. replace (both0 (k * 0) (k * 0)) with true; [reflexivity|]. symmetry. apply both0_true. split; ring.
Qed.
Lemma center_tap_windings : forall ratio rating res rea vnom,
  (new_center_tap ratio rating res rea vnom = None <-> rating = 0) /\
  forall c, new_center_tap ratio rating res rea vnom = Some c -> ct_ratio c = ratio /\
    forall i Y, In (i, Y) [(0%nat, (ct_g0 c, ct_b0 c)); (1%nat, (ct_g1 c, ct_b1 c)); (2%nat, (ct_g2 c, ct_b2 c))] -> vnom i <> 0 ->
      ((res i, rea i) <> C0 -> Cmul (Cscale (vnom i * vnom i / rating) (res i, rea i)) Y = C1) /\ ((res i, rea i) = C0 -> Y = C0).
Proof.
  intros. unfold new_center_tap, is0. destruct (Req_EM_T rating 0) as [E|E]; split; try (split; intros; congruence).
  intros c H. injection H as <-. cbn [ct_ratio ct_g0 ct_b0 ct_g1 ct_b1 ct_g2 ct_b2]. split; auto.
  intros i Y [X|[X|[X|[]]]] V; injection X as <- <-; now apply coil_spec.
Qed.
