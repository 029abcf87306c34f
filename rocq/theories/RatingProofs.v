(** Lemmas for C54 and C66. *)
From Coq Require Import List Bool Arith Reals Lra Lia.
From Verif Require Import Components SpecComponents SpecUnbalanced UnbalancedProofs Results SpecResults ResultsProofs.
Import ListNotations.
Local Open Scope R_scope.

Lemma modulus_Cmod z : modulus z = Cmod z. Proof. reflexivity. Qed.
Lemma above_iff x o : above x o = true <-> exists l, o = Some l /\ l < x.
Proof.
  destruct o as [l|]; cbn [above]; [|split; [discriminate|intros [l [E _]]; discriminate]].
  destruct (Rlt_dec l x) as [H|H]; split; [exists l; auto|auto|discriminate|intros [k [[= <-] K]]; contradiction].
Qed.
Lemma line_I_mul v f t (Y : C) : line_I v f t (fst Y) (snd Y) = Cmul Y (Csub (at2 v f) (at2 v t)).
Proof. unfold line_I, at2. apply C_ext; cx; ring. Qed.
Lemma line_over_none v l ends : forall idx, line_over v l idx ends = None <-> (length (rl_amp l) < idx + length ends)%nat /\ ends <> [].
Proof.
  induction ends as [|[f t] ends IH]; intros idx; cbn [line_over length]; [split; [discriminate|intros [_ H]; contradiction]|].
  destruct (nth_error (rl_amp l) idx) as [a|] eqn:E.
  - assert (idx < length (rl_amp l))%nat as L by (apply nth_error_Some; congruence).
    destruct (line_over v l (S idx) ends) as [b|] eqn:EO; cbn [option_map].
    + split; [discriminate|]. intros [H _]. destruct ends as [|e ends]; [cbn in H; lia|]. exfalso. assert (Some b = None) as X; [|discriminate]. rewrite <- EO. apply IH. split; [cbn [length] in *; lia|discriminate].
    + split; auto. intros _. apply IH in EO as [H _]. split; [cbn [length] in *; lia|discriminate].
  - apply nth_error_None in E. split; auto. intros _. split; [lia|discriminate].
Qed.
Lemma line_over_some v l ends b : forall idx, line_over v l idx ends = Some b ->
  (b = true <-> exists i f t a, nth_error ends i = Some (f, t) /\ nth_error (rl_amp l) (idx + i) = Some (Some a) /\
     a < Cmod (Cmul (rl_Y l (idx + i)%nat (idx + i)%nat) (Csub (at2 v f) (at2 v t)))).
Proof.
  revert b. induction ends as [|[f t] ends IH]; intros b idx; cbn [line_over].
  - intros [= <-]. split; [discriminate|]. intros [i [f [t [a [H _]]]]]. destruct i; discriminate.
  - destruct (nth_error (rl_amp l) idx) as [o|] eqn:E; [|discriminate]. destruct (line_over v l (S idx) ends) as [c|] eqn:EO; [|discriminate]. cbn [option_map]. intros [= <-].
    rewrite orb_true_iff, above_iff, (IH c (S idx) EO). rewrite line_I_mul, modulus_Cmod. split.
    + intros [[a [-> H]]|[i [f' [t' [a [H1 [H2 H3]]]]]]].
      * exists O, f, t, a. rewrite Nat.add_0_r. auto.
      * exists (S i), f', t', a. replace (idx + S i)%nat with (S idx + i)%nat by lia. auto.
    + intros [[|i] [f' [t' [a [H1 [H2 H3]]]]]].
      * rewrite Nat.add_0_r in *. cbn in H1. injection H1 as -> ->. left; exists a; split; auto. congruence.
      * right. exists i, f', t', a. replace (S idx + i)%nat with (idx + S i)%nat by lia. auto.
Qed.
Lemma any_none {A} (f : A -> option bool) l : any f l = None <-> exists x, In x l /\ f x = None.
Proof.
  induction l as [|a l IH]; cbn [any fold_right]; [split; [discriminate|intros [x [[] _]]]|]. fold (any f l).
  destruct (f a) eqn:E; [destruct (any f l) eqn:EA|].
  - split; [discriminate|]. intros [x [[<-|Hx] H]]; [congruence|]. assert (Some b0 = None) as X; [apply IH; eauto|discriminate].
  - split; auto. intros _. destruct (proj1 IH eq_refl) as [x [Hx H]]. exists x; split; [right; auto|auto].
  - split; auto. intros _. exists a; split; [left; auto|auto].
Qed.
Lemma any_some {A} (f : A -> option bool) l b : any f l = Some b -> (b = true <-> exists x, In x l /\ f x = Some true).
Proof.
  revert b; induction l as [|a l IH]; intros b; cbn [any fold_right].
  - intros [= <-]. split; [discriminate|intros [x [[] _]]].
  - fold (any f l). destruct (f a) as [c|] eqn:E; [|discriminate]. destruct (any f l) as [d|]; [|discriminate]. intros [= <-]. rewrite orb_true_iff, (IH d eq_refl). split.
    + intros [->|[x [Hx H]]]; [exists a; split; [left; auto|auto]|exists x; split; [right; auto|auto]].
    + intros [x [[<-|Hx] H]]; [left; congruence|right; eauto].
Qed.
Lemma bus_over_none v b : bus_over v b = None <-> snd b = 0.
Proof. destruct b as [i vn]; cbn [bus_over snd]. destruct (Req_EM_T vn 0); [split; auto|split; [discriminate|contradiction]]. Qed.
Lemma bus_over_true v b : bus_over v b = Some true -> 5 / 100 <= Rabs (Cmod (at2 v (fst b)) - snd b) / snd b.
Proof. destruct b as [i vn]; cbn [bus_over fst snd]. destruct (Req_EM_T vn 0); [discriminate|]. destruct (Rle_dec (5 / 100) (Rabs (modulus (v (fst i), v (snd i)) - vn) / vn)); [auto|discriminate]. Qed.
Lemma bus_over_back v b : snd b <> 0 -> 5 / 100 <= Rabs (Cmod (at2 v (fst b)) - snd b) / snd b -> bus_over v b = Some true.
Proof.
  destruct b as [i vn]; cbn [bus_over fst snd]; intros H1 H2. destruct (Req_EM_T vn 0); [contradiction|]. destruct (Rle_dec (5 / 100) (Rabs (modulus (v (fst i), v (snd i)) - vn) / vn)) as [|N]; [auto|].
  exfalso; apply N; exact H2.
Qed.
Lemma violates_none v q : violates v q = None <->
  (exists l, In l (rq_lines q) /\ (length (rl_amp l) < length (rl_ends l))%nat) \/ (exists b, In b (rq_buses q) /\ snd b = 0).
Proof.
  unfold violates. destruct (any (fun l => line_over v l 0 (rl_ends l)) (rq_lines q)) as [a|] eqn:EA; [destruct (any (bus_over v) (rq_buses q)) as [c|] eqn:EB|].
  - split; [discriminate|]. intros [[l [Hl H]]|[b [Hb H]]]; exfalso.
    + assert (any (fun l => line_over v l 0 (rl_ends l)) (rq_lines q) = None) as X; [|congruence]. apply any_none. exists l; split; auto. apply line_over_none. split; [lia|]. intros E; rewrite E in H; cbn in H; lia.
    + assert (any (bus_over v) (rq_buses q) = None) as X; [|congruence]. apply any_none. exists b; split; auto. apply bus_over_none; auto.
  - split; auto. intros _. right. apply any_none in EB as [b [Hb H]]. exists b; split; auto. apply bus_over_none in H; auto.
  - split; auto. intros _. left. apply any_none in EA as [l [Hl H]]. exists l; split; auto. apply line_over_none in H as [H _]. exact H.
Qed.
Lemma violates_some v q b : violates v q = Some b -> (b = true <-> line_bad v q \/ xf_bad v q \/ bus_bad v q).
Proof.
  unfold violates. destruct (any (fun l => line_over v l 0 (rl_ends l)) (rq_lines q)) as [a|] eqn:EA; [|discriminate]. destruct (any (bus_over v) (rq_buses q)) as [c|] eqn:EB; [|discriminate].
  intros [= <-]. rewrite !orb_true_iff, (any_some _ _ _ EA), (any_some _ _ _ EB), existsb_exists. split.
  - intros [[[l [Hl H]]|[[t o] [Ht H]]]|[bus [Hb H]]].
    + left. destruct (proj1 (line_over_some v l _ true 0 H) eq_refl) as [i [f [t [r [H1 [H2 H3]]]]]]. exists l, i, f, t, r. auto.
    + right; left. cbn [fst snd] in H. apply above_iff in H as [r [-> H]]. rewrite modulus_Cmod in H. destruct t as [x|ct]; cbn [xf_power] in H; [left; exists x, r; split; auto|right; exists ct, r; split; auto].
      rewrite <- ct_exact; auto.
    + right; right. exists (fst bus), (snd bus). split; [destruct bus; auto|]. apply bus_over_true; auto.
  - intros [[l [i [f [t [r [Hl [H1 [H2 H3]]]]]]]]|[[[x [r [H H']]]|[ct [r [H H']]]]|[i [vn [H H']]]]].
    + left; left. exists l; split; auto. destruct (line_over v l 0 (rl_ends l)) as [d|] eqn:E.
      * f_equal. apply (line_over_some v l _ d 0 E). exists i, f, t, r; auto.
      * exfalso. assert (any (fun l => line_over v l 0 (rl_ends l)) (rq_lines q) = None) as X; [|congruence]. apply any_none; eauto.
    + left; right. exists (TXf x, Some r); split; auto. cbn [fst snd]. apply above_iff. exists r; split; auto.
    + left; right. exists (TCt ct, Some r); split; auto. cbn [fst snd]. apply above_iff. exists r; split; auto. rewrite modulus_Cmod. cbn [xf_power]. rewrite ct_exact; auto.
    + right. exists (i, vn); split; auto. apply bus_over_back; auto. cbn [snd]. intros E. assert (any (bus_over v) (rq_buses q) = None) as X; [|congruence]. apply any_none. exists (i, vn); split; auto. apply bus_over_none; auto.
Qed.
Lemma voltage_band v q i vn : violates v q = Some false -> In (i, vn) (rq_buses q) -> 0 < vn -> 95 / 100 * vn < Cmod (at2 v i) < 105 / 100 * vn.
Proof.
  intros H Hi Hp. assert (~ bus_bad v q) as N by (intros B; assert (false = true) as X; [apply (violates_some v q false H); auto|discriminate]).
  assert (Rabs (Cmod (at2 v i) - vn) / vn < 5 / 100) as D by (apply Rnot_le_lt; intros L; apply N; exists i, vn; auto).
  apply (Rmult_lt_compat_r vn) in D; auto. replace (Rabs (Cmod (at2 v i) - vn) / vn * vn) with (Rabs (Cmod (at2 v i) - vn)) in D by (field; lra).
  revert D; unfold Rabs; destruct (Rcase_abs _); lra.
Qed.
Lemma center_tap_rated v q c r : violates v q = Some false -> In (TCt c, Some r) (rq_xfmrs q) ->
  Cmod (Cadd (power (at2 v (rc_V1 c)) (at2 v (rc_I1 c))) (power (at2 v (rc_V2 c)) (at2 v (rc_I2 c)))) <= r.
Proof.
  intros H Hi. apply Rnot_lt_le. intros L. assert (false = true) as X; [|discriminate]. apply (violates_some v q false H). right; left; right. exists c, r; auto.
Qed.
(** a transformer with real primary voltage and purely imaginary current is never over its rating *)
Lemma quadrature_unseen v x r : real (Csub (val2 v (rx_pp x)) (val2 v (rx_pn x))) -> fst (val2 v (rx_I x)) = 0 -> 0 <= r ->
  above (modulus (xf_power v (TXf x))) (Some r) = false.
Proof.
  unfold real, val2, Csub; cbn [fst snd]. intros H1 H2 Hr. unfold above. cbn [xf_power]. unfold xf_P, xf_Q. rewrite H1, H2.
  unfold modulus; cbn [fst snd]. rewrite !Rmult_0_r, !Rmult_0_l, Rplus_0_l, sqrt_0. destruct (Rlt_dec r 0); [exfalso; lra|auto].
Qed.

(** *** C66 *)
Lemma Csum_split (g : nat -> C) n i : (i < n)%nat -> Csum g n = Cadd (g i) (Csum (fun j => if Nat.eqb j i then C0 else g j) n).
Proof.
  intros H. transitivity (Cadd (Csum (fun j => if Nat.eqb j i then g j else C0) n) (Csum (fun j => if Nat.eqb j i then C0 else g j) n)).
  - rewrite Cadd_sum. unfold Csum. induction (seq 0 n) as [|k l IH]; auto. cbn [fold_right]. rewrite IH. f_equal. destruct (Nat.eqb k i); apply C_ext; cx; ring.
  - f_equal. rewrite (Csum_one _ n i H); [now rewrite Nat.eqb_refl|]. intros j _ Hj. destruct (Nat.eqb_spec j i); [contradiction|reflexivity].
Qed.
Lemma series_split n Y (Vf Vt : nat -> C) i : (i < n)%nat ->
  I_series n Y Vf Vt 0 i = Cadd (Cmul (Y i i) (Csub (Vf i) (Vt i))) (Csum (fun j => if Nat.eqb j i then C0 else Cmul (Y i j) (Csub (Vf j) (Vt j))) n).
Proof.
  intros H. unfold I_series. rewrite (Csum_split _ n i H). f_equal.
  - unfold series_scale. rewrite Nat.eqb_refl. apply C_ext; cx; ring.
  - unfold Csum. induction (seq 0 n) as [|k l IH]; auto. cbn [fold_right]. rewrite IH. f_equal. destruct (Nat.eqb_spec k i) as [|Hk]; auto.
    unfold series_scale. destruct (Nat.eqb_spec i k); [congruence|]. apply C_ext; cx; ring.
Qed.
Lemma line_shown_iff v l i f t : nth_error (rl_ends l) i = Some (f, t) ->
  let n := length (rl_ends l) in let Vf := end_volt v fst l in let Vt := end_volt v snd l in
  line_I v f t (fst (rl_Y l i i)) (snd (rl_Y l i i)) = I_series n (rl_Y l) Vf Vt 0 i <->
  Csum (fun j => if Nat.eqb j i then C0 else Cmul (rl_Y l i j) (Csub (Vf j) (Vt j))) n = C0.
Proof.
  intros E n Vf Vt. assert (i < n)%nat as H by (apply nth_error_Some; congruence). rewrite (series_split n _ Vf Vt i H), line_I_mul.
  assert (Vf i = at2 v f /\ Vt i = at2 v t) as [-> ->] by (unfold Vf, Vt, end_volt; rewrite (nth_error_nth _ _ _ E); auto).
  set (a := Cmul _ _). set (s := Csum _ _). split.
  - intros X. destruct a as [a1 a2], s as [s1 s2]; cx. injection X as X1 X2. f_equal; lra.
  - intros ->. apply C_ext; cx; ring.
Qed.
