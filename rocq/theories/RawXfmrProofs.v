From Coq Require Import Reals ZArith List Bool Lra Lia Psatz.
From Verif Require Import Components RawTransformers RawParser SpecRaw SpecRawXfmr RawBaseProofs RawTableProofs RawProofs.
Import ListNotations.
Local Open Scope R_scope.

Lemma pdiv_total : forall x y, y <> 0 -> pdiv x y = Ok (x / y).
Proof. intros. apply pdiv_ok. auto. Qed.

Lemma turns_kv : forall cw v nom base kv, base <> 0 -> winding_kv cw v nom base kv -> turns cw v nom base = Ok (kv / base).
Proof.
  intros cw v nom base kv B (H2 & H3 & H1). unfold turns.
  destruct (Z.eqb_spec cw 1) as [E|E1].
  - rewrite (H1 ltac:(lia) ltac:(lia)). f_equal. field. auto.
  - destruct (Z.eqb_spec cw 2) as [E2|E2]; [rewrite (H2 E2); apply pdiv_total; auto|].
    destruct (Z.eqb_spec cw 3) as [E3|E3]; [rewrite (H3 E3); apply pdiv_total; auto|].
    rewrite (H1 E2 E3). f_equal. field. auto.
Qed.
Lemma nominal_if : forall nomv base n, nominal nomv base n -> (if rltb 0 nomv then nomv else base) = n.
Proof.
  intros nomv base n (A & B). destruct (rltb 0 nomv) eqn:E.
  - apply rltb_iff in E. symmetry. auto.
  - apply rltb_niff in E. symmetry. apply B. lra.
Qed.

Lemma loss_ohms : forall cz z U V sbase R X, U <> 0 -> V <> 0 -> sbase <> 0 -> (cz = 3%Z -> 0 < sbase) -> ohms cz z U sbase R X ->
  loss cz z ((U / V) * (U / V)) sbase = Ok (R / (V * V / sbase), X / (V * V / sbase)).
Proof.
  intros cz z U V sbase R X HU HV HS H3 [(-> & -> & ->)|[(-> & B & -> & ->)|(-> & B & X0 & L & M)]]; unfold loss; cbn [Z.eqb Pos.eqb].
  - f_equal. f_equal; field; auto.
  - rewrite !pdiv_total by auto. cbn [pbind]. f_equal. f_equal; field; auto.
  - specialize (H3 eq_refl).
    assert (HB : z_base z <> 0) by lra.
    rewrite (pdiv_total (z_r z)) by lra. cbn [pbind]. rewrite pdiv_total by auto. cbn [pbind].
    assert (ER : z_r z / (1000000 * z_base z) = R * z_base z / (U * U)) by (rewrite L; field; auto).
    rewrite ER.
    assert (EX : z_x z * z_x z - R * z_base z / (U * U) * (R * z_base z / (U * U)) = (X * z_base z / (U * U)) * (X * z_base z / (U * U))).
    { transitivity ((z_x z * (U * U / z_base z) * (z_x z * (U * U / z_base z)) - R * R) * ((z_base z / (U * U)) * (z_base z / (U * U)))).
      - field. auto.
      - rewrite <- M. field. auto. }
    assert (XP : 0 <= X * z_base z / (U * U)).
    { assert (0 < U * U) by nra. apply Rmult_le_pos; [nra|]. left. apply Rinv_0_lt_compat. auto. }
    assert (SQ : psqrt (z_x z * z_x z - R * z_base z / (U * U) * (R * z_base z / (U * U))) = Ok (X * z_base z / (U * U))).
    { apply psqrt_ok. rewrite EX. split; [nra|]. rewrite sqrt_square; auto. }
    rewrite SQ. cbn [pbind]. f_equal. f_equal; field; auto.
Qed.

Section Case.
Variable c : raw_case.
Notation bs := (rc_buses c).
Hypothesis UNI : NoDup (map b_num bs).

Lemma taps_ok : forall t, taps_usable t -> tap_checks2 t = Ok tt.
Proof.
  intros t H. unfold tap_checks2, taps_usable in *.
  destruct (Z.eqb_spec (w_cod (t_w1 t)) 1) as [E1|E1]; destruct (Z.eqb_spec (w_cod (t_w1 t)) 2) as [E2|E2]; simpl; auto;
    (destruct H as (A & B); [auto|];
     assert (G : (negb (reqb (w_v (t_w1 t)) 0) || Z.eqb (t_cw t) 3)%bool = true)
       by (apply orb_true_iff; destruct A as [A|A]; [right; apply Z.eqb_eq; auto|left; apply negb_true_iff, reqb_niff; auto]);
     rewrite G; cbn [guard pbind]; rewrite (reqb_f (w_ntp (t_w1 t) - 1) 0) by lra; auto).
Qed.
Lemma mag_exciting : forall t sb, sb <> 0 -> exists G B, magnetising (t_cm t) (t_mag1 t) (t_mag2 t) sb (z_base (t_z t)) = Ok (G, B) /\ exciting t sb G B
  \/ magnetising (t_cm t) (t_mag1 t) (t_mag2 t) sb (z_base (t_z t)) = Err ValueError.
Proof.
  intros t sb S. unfold magnetising, exciting. destruct (Z.eqb_spec (t_cm t) 2) as [E|E].
  - rewrite !pdiv_total by lra. cbn [pbind].
    set (g := t_mag1 t / (1000000 * sb)). set (y := t_mag2 t * z_base (t_z t) / sb).
    destruct (rltb (g - y) (- (1 / 1000000))) eqn:L.
    + apply rltb_iff in L. unfold psqrt. destruct (rltb (y * y - g * g) 0) eqn:N; [exists 0, 0; right; auto|].
      apply rltb_niff in N. exists g, (- sqrt (y * y - g * g)). left. split; [auto|]. split; [intros; contradiction|]. intros _. cbv zeta.
      fold y. fold g. split; [|intros; lra]. intros _. pose proof (sqrt_pos (y * y - g * g)). split; [auto|split; [lra|]].
      replace (- sqrt (y * y - g * g) * - sqrt (y * y - g * g)) with (sqrt (y * y - g * g) * sqrt (y * y - g * g)) by ring.
      rewrite sqrt_sqrt by lra. ring.
    + apply rltb_niff in L. exists 0, 0. left. split; [auto|]. split; [intros; contradiction|]. intros _. cbv zeta. fold y. fold g. split; [intros; lra|auto].
  - exists (t_mag1 t), (t_mag2 t). left. split; [auto|]. split; [auto|intros; contradiction].
Qed.

(** every record describing a transformer gives its ratio and impedance *)
Lemma units : forall t bi bj p, bus_at c (t_i t) bi -> bus_at c (t_j t) bj -> 0 < rc_sbase c ->
  b_baskv bi <> 0 -> b_baskv bj <> 0 -> p_uj p <> 0 -> t_cm t <> 2%Z -> taps_usable t -> describes (rc_sbase c) bi bj t p ->
  exists d, two_winding_data bs (rc_sbase c) t = Ok d /\
    d_tr d = (p_ui p / b_baskv bi) / (p_uj p / b_baskv bj) /\
    d_r d = p_R p / (b_baskv bj * b_baskv bj / rc_sbase c) /\ d_x d = p_X p / (b_baskv bj * b_baskv bj / rc_sbase c) /\
    d_g d = t_mag1 t /\ d_b d = t_mag2 t.
Proof.
  intros t bi bj p Hi Hj S Vi Vj Uj CM TU ((n1 & N1 & K1) & (n2 & N2 & K2) & O).
  assert (S' : rc_sbase c <> 0) by lra.
  unfold two_winding_data. unfold ratings3. rewrite !pdiv_total by auto. cbn [pbind].
  rewrite (proj2 (bus_data_ok c UNI _ _) Hi), (proj2 (bus_data_ok c UNI _ _) Hj). cbn [pbind].
  rewrite (nominal_if _ _ _ N1), (nominal_if _ _ _ N2).
  rewrite (turns_kv _ _ _ _ _ Vi K1). cbn [pbind]. rewrite (turns_kv _ _ _ _ _ Vj K2). cbn [pbind].
  rewrite pdiv_total. 2:{ unfold Rdiv. apply Rmult_integral_contrapositive_currified; [auto|apply Rinv_neq_0_compat; auto]. }
  cbn [pbind]. rewrite taps_ok by auto. cbn [pbind]. rewrite (loss_ohms _ _ _ _ _ _ _ Uj Vj S' (fun _ => S) O). cbn [pbind].
  destruct (mag_exciting t (rc_sbase c) S') as (G & B & [(EM & (X1 & _))|EM]); rewrite EM.
  - cbn [pbind]. eexists. split; [reflexivity|]. cbn. destruct (X1 CM). auto.
  - exfalso. unfold magnetising in EM. rewrite (proj2 (Z.eqb_neq _ _) CM) in EM. discriminate.
Qed.
(** ... and the element carries the inverse of that impedance *)
Lemma units_element : forall t bi bj p, bus_at c (t_i t) bi -> bus_at c (t_j t) bj -> 0 < rc_sbase c ->
  b_ide bi <> 4%Z -> b_ide bj <> 4%Z -> t_stat t <> 0%Z ->
  b_baskv bi <> 0 -> b_baskv bj <> 0 -> p_uj p <> 0 -> t_cm t <> 2%Z -> taps_usable t -> describes (rc_sbase c) bi bj t p ->
  p_R p <> 0 \/ p_X p <> 0 ->
  exists x, two_winding bs (rc_sbase c) t = Ok (Some x) /\ x_from x = t_i t /\ x_to x = t_j t /\
    xf_tr (x_dev x) = (p_ui p / b_baskv bi) / (p_uj p / b_baskv bj) /\ xf_ang (x_dev x) = w_ang (t_w1 t) * PI / 180 /\
    (let r := p_R p / (b_baskv bj * b_baskv bj / rc_sbase c) in
     let z := p_X p / (b_baskv bj * b_baskv bj / rc_sbase c) in
     xf_G (x_dev x) * r - xf_B (x_dev x) * z = 1 /\ xf_G (x_dev x) * z + xf_B (x_dev x) * r = 0).
Proof.
  intros t bi bj p Hi Hj S Oi Oj ST Vi Vj Uj CM TU D NZ.
  destruct (units t bi bj p Hi Hj S Vi Vj Uj CM TU D) as (d & HD & ETR & ER & EX & _).
  unfold two_winding. rewrite HD. cbn [pbind]. rewrite (proj2 (Z.eqb_neq _ _) ST). unfold make_xfmr.
  assert (Ki : bus_key bs (t_i t) = Ok (t_i t)) by (apply (bus_key_ok c); split; [exists bi; auto|auto]).
  assert (Kj : bus_key bs (t_j t) = Ok (t_j t)) by (apply (bus_key_ok c); split; [exists bj; auto|auto]).
  rewrite Ki, Kj. cbn [pbind]. unfold new_transformer.
  set (k := b_baskv bj * b_baskv bj / rc_sbase c) in *.
  assert (K : k <> 0). { unfold k, Rdiv. repeat apply Rmult_integral_contrapositive_currified; auto. apply Rinv_neq_0_compat. lra. }
  assert (NR : d_r d <> 0 \/ d_x d <> 0).
  { rewrite ER, EX. unfold Rdiv. destruct NZ; [left|right]; apply Rmult_integral_contrapositive_currified; auto; apply Rinv_neq_0_compat; auto. }
  rewrite (proj2 (both0_f _ _) NR). cbn [pbind]. eexists. split; [reflexivity|]. cbn.
  split; [auto|split; [auto|split; [auto|split; [auto|]]]]. rewrite <- ER, <- EX. unfold series_G, series_B.
  assert (d_r d * d_r d + d_x d * d_x d <> 0) by (destruct NR; nra).
  split; field; auto.
Qed.
Lemma excitation : forall t d, rc_sbase c <> 0 -> two_winding_data bs (rc_sbase c) t = Ok d -> exciting t (rc_sbase c) (d_g d) (d_b d).
Proof.
  intros t d S H. unfold two_winding_data in H. do 8 (apply pbind_ok in H as (? & _ & H)).
  apply pbind_ok in H as (gb & M & H). injection H as <-. cbn.
  destruct (mag_exciting t (rc_sbase c) S) as (G & B & [(EM & X)|EM]); rewrite EM in M; [injection M as <-; auto|discriminate].
Qed.

(** the star equivalent *)
Lemma star_sums : forall sb t d U, 0 < sb -> U <> 0 -> three_winding_data bs sb t = Ok d ->
  forall cz r12 x12 r23 x23 r31 x31, cz = h_cz t ->
  ohms cz (h_z12 t) U sb r12 x12 -> ohms cz (h_z23 t) U sb r23 x23 -> ohms cz (h_z31 t) U sb r31 x31 ->
  let pu v := v / (U * U / sb) in
  (fst (s_z1 d) + fst (s_z2 d) = pu r12 /\ snd (s_z1 d) + snd (s_z2 d) = pu x12) /\
  (fst (s_z2 d) + fst (s_z3 d) = pu r23 /\ snd (s_z2 d) + snd (s_z3 d) = pu x23) /\
  (fst (s_z3 d) + fst (s_z1 d) = pu r31 /\ snd (s_z3 d) + snd (s_z1 d) = pu x31).
Proof.
  intros sb t d U S HU H cz r12 x12 r23 x23 r31 x31 -> O1 O2 O3 pu.
  assert (S' : sb <> 0) by lra.
  assert (ONE : U / U * (U / U) = 1) by (field; auto).
  pose proof (loss_ohms _ _ _ _ _ _ _ HU HU S' (fun _ => S) O1) as L1.
  pose proof (loss_ohms _ _ _ _ _ _ _ HU HU S' (fun _ => S) O2) as L2.
  pose proof (loss_ohms _ _ _ _ _ _ _ HU HU S' (fun _ => S) O3) as L3. rewrite ONE in L1, L2, L3.
  unfold three_winding_data in H. do 7 (apply pbind_ok in H as (? & _ & H)).
  rewrite L1 in H. cbn [pbind] in H. apply pbind_ok in H as (? & _ & H). rewrite L2 in H. cbn [pbind] in H.
  apply pbind_ok in H as (? & _ & H). rewrite L3 in H. cbn [pbind] in H. apply pbind_ok in H as (? & _ & H). injection H as <-.
  cbn [s_z1 s_z2 s_z3 star2 fst snd]. unfold star, pu. repeat split; lra.
Qed.
Lemma ratio3_star cw w base tr : base <> 0 -> ratio3 cw w base = Ok tr -> star_ratio cw w base tr.
Proof.
  intros B H nom kv N0 N1 K t lo hi. unfold ratio3 in H.
  replace (if reqb (w_nom w) 0 then base else w_nom w) with nom in H.
  2:{ destruct (reqb (w_nom w) 0) eqn:E; [apply reqb_iff in E|apply reqb_niff in E]; auto. }
  rewrite (turns_kv _ _ _ _ _ B K) in H. cbn [pbind] in H. fold t in H. unfold controls_tap.
  destruct (Z.eqb_spec (w_cod w) 1) as [E1|E1]; destruct (Z.eqb_spec (w_cod w) 2) as [E2|E2]; cbn [orb] in H;
    try (split; [intros X; exfalso; tauto|intros _]);
    try (injection H as <-; split; [reflexivity|intros [X|X]; contradiction]);
    (apply pbind_ok in H as (up & HU & H); apply pbind_ok in H as (l & HL & H); apply pdiv_ok in HU as [V ->]; apply pdiv_ok in HL as [_ ->];
     destruct (negb _); [|discriminate]; injection H as <-; split; [exact V|]; intros L;
     replace (w_rma w * t / w_v w) with hi by (unfold hi; field; exact V); replace (w_rmi w * t / w_v w) with lo by (unfold lo; field; exact V);
     unfold Rmax, Rmin; destruct (Rle_dec hi t); repeat (destruct (Rle_dec _ _)); repeat split; intros; lra).
Qed.
Lemma star_ratios : forall sb t d bi bj bk, three_winding_data bs sb t = Ok d ->
  bus_at c (h_i t) bi -> bus_at c (h_j t) bj -> bus_at c (h_k t) bk -> b_baskv bi <> 0 -> b_baskv bj <> 0 -> b_baskv bk <> 0 ->
  star_ratio (h_cw t) (h_w1 t) (b_baskv bi) (s_tr1 d) /\ star_ratio (h_cw t) (h_w2 t) (b_baskv bj) (s_tr2 d) /\
  star_ratio (h_cw t) (h_w3 t) (b_baskv bk) (s_tr3 d).
Proof.
  intros sb t d bi bj bk H Hi Hj Hk Vi Vj Vk. unfold three_winding_data in H.
  rewrite (proj2 (bus_data_ok c UNI _ _) Hi), (proj2 (bus_data_ok c UNI _ _) Hj), (proj2 (bus_data_ok c UNI _ _) Hk) in H. cbn [pbind] in H.
  do 3 (apply pbind_ok in H as (? & _ & H)). apply pbind_ok in H as (t1 & H1 & H). apply pbind_ok in H as (? & _ & H).
  apply pbind_ok in H as (t2 & H2 & H). apply pbind_ok in H as (? & _ & H). apply pbind_ok in H as (t3 & H3 & H).
  do 2 (apply pbind_ok in H as (? & _ & H)). injection H as <-. cbn [s_tr1 s_tr2 s_tr3].
  auto using ratio3_star.
Qed.
End Case.
