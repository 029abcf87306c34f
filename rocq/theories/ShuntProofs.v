(** Shunt admittance of cables. *)
From Coq Require Import Reals ZArith String Ascii List Bool Lia Lra Arith.
From Verif Require Import PyExc SpecComponents SpecUnbalanced Components UnbalancedLine GlmText LineImpedance SpecReader SpecLineZ KronProofs CarsonProofs Cables SpecCables.
Import ListNotations.
Local Open Scope R_scope.
Set Implicit Arguments.

Lemma reqb_true : forall x y, reqb x y = true <-> x = y.
Proof. intros. unfold reqb. destruct (Req_EM_T x y); split; congruence. Qed.
Lemma reqb_false : forall x y, reqb x y = false <-> x <> y.
Proof. intros. unfold reqb. destruct (Req_EM_T x y); split; congruence. Qed.
Lemma rltb_true : forall x y, rltb x y = true <-> x < y.
Proof. intros. unfold rltb. destruct (Rlt_dec x y); split; intros; try lra; congruence. Qed.
Lemma rltb_false : forall x y, rltb x y = false <-> y <= x.
Proof. intros. unfold rltb. destruct (Rlt_dec x y); split; intros; try lra; try congruence. Qed.
Lemma neutral_true : forall w, is_neutral w = true <-> w_phase w = "N"%string.
Proof. intros. apply String.eqb_eq. Qed.
Lemma neutral_false : forall w, is_neutral w = false <-> w_phase w <> "N"%string.
Proof. intros. apply String.eqb_neq. Qed.
Lemma pdiv_ok : forall x y, y <> 0 -> pdiv x y = Ok (x / y).
Proof. intros x y H. unfold pdiv. now apply reqb_false in H as ->. Qed.
Lemma IZR_pos : forall k, (0 < k)%Z -> 0 < IZR k.
Proof. intros. now apply IZR_lt. Qed.

Lemma shunt_ok : forall w od nd cd k, drawn w od nd cd k -> sound od nd cd k ->
  ring_factor ((od - nd) / 2) (cd / 2) (nd / 2) k <> 0 ->
  cable_shunt w = Ok (Some (0, ring_shunt ((od - nd) / 2) (cd / 2) (nd / 2) k)).
Proof.
  intros w od nd cd k (A & B & D & K) ((N0 & NO) & C0 & K0) F. pose proof (IZR_pos K0) as K1.
  unfold cable_shunt. rewrite A, B, D, K. cbn [attribute number pbind].
  rewrite pdiv_ok by lra. cbn [pbind]. assert (negb (k =? 0)%Z = true) as -> by (apply negb_true_iff, Z.eqb_neq; lia).
  cbn [guard pbind]. rewrite pdiv_ok by lra. cbn [pbind].
  assert (P1 : 0 < (od - nd) / 2 / (cd / 2)) by (apply Rdiv_lt_0_compat; lra).
  assert (P2 : 0 < IZR k * (nd / 2) / ((od - nd) / 2)) by (apply Rdiv_lt_0_compat; [apply Rmult_lt_0_compat |]; lra).
  unfold np_log. rewrite (proj2 (rltb_true _ _) P1), (proj2 (rltb_true _ _) P2). cbn [shunt_value].
  unfold ring_shunt, ring_factor in *.
  replace (1 / IZR k) with (/ IZR k) by (unfold Rdiv; ring).
  rewrite (proj2 (reqb_false _ _) F). do 3 f_equal.
Qed.
Lemma shunt_thin : forall w od cd k, drawn w od 0 cd k -> 0 < od -> 0 < cd -> k <> 0%Z -> cable_shunt w = Ok (Some (0, 0)).
Proof.
  intros w od cd k (A & B & D & K) Ho Hc K0. unfold cable_shunt. rewrite A, B, D, K. cbn [attribute number pbind].
  rewrite pdiv_ok by lra. cbn [pbind]. assert (negb (k =? 0)%Z = true) as -> by (apply negb_true_iff, Z.eqb_neq; exact K0).
  cbn [guard pbind]. rewrite pdiv_ok by lra. cbn [pbind].
  assert (P1 : 0 < (od - 0) / 2 / (cd / 2)) by (apply Rdiv_lt_0_compat; lra).
  replace (IZR k * (0 / 2) / ((od - 0) / 2)) with 0 by (field; lra).
  unfold np_log. rewrite (proj2 (rltb_true _ _) P1), (proj2 (rltb_false 0 0)) by lra. now rewrite (proj2 (reqb_true 0 0) eq_refl).
Qed.
Lemma shunt_accepted : forall w, (exists y, cable_shunt w = Ok y) <->
  exists od nd cd k, drawn w od nd cd k /\ cd <> 0 /\ k <> 0%Z /\ od <> nd.
Proof.
  intros w. unfold cable_shunt, drawn. split.
  - intros (y & H). destruct (w_outer w) as [od |]; [| discriminate]. destruct (w_cnd w) as [nd |]; [| discriminate].
    destruct (w_cdiam w) as [cd |]; [| discriminate]. cbn [attribute number pbind] in H. unfold pdiv in H.
    destruct (reqb (cd / 2) 0) eqn:E1; [discriminate |]. cbn [pbind] in H. destruct (w_k w) as [k |]; [| discriminate].
    cbn [number pbind] in H. destruct (k =? 0)%Z eqn:E2; [discriminate |]. cbn [negb guard pbind] in H.
    destruct (reqb ((od - nd) / 2) 0) eqn:E3; [discriminate |]. apply reqb_false in E1, E3. apply Z.eqb_neq in E2.
    exists od, nd, cd, k. repeat split; auto; intros ->; [apply E1 | apply E3]; lra.
  - intros (od & nd & cd & k & (-> & -> & -> & ->) & A & B & C). cbn [attribute number pbind]. rewrite pdiv_ok by lra. cbn [pbind].
    apply Z.eqb_neq in B as ->. cbn [negb guard pbind]. rewrite pdiv_ok by lra. cbn [pbind]. eauto.
Qed.

Definition diag_upto (y : nat -> R) (n i j : nat) : C := if (Nat.eqb i j && Nat.ltb i n)%bool then (0, y i) else C0.
Lemma nth_wire : forall ws i w, nth_error ws i = Some w -> wire_at ws i = Ok w.
Proof. intros ws i w H. unfold wire_at. now rewrite H. Qed.
Lemma shunt_fold : forall ws y n s m, (forall i w, nth_error ws i = Some w ->
    (w_phase w = "N"%string /\ y i = 0) \/ (w_phase w <> "N"%string /\ (i < 3)%nat /\ cable_shunt w = Ok (Some (0, y i)))) ->
  (s + n = List.length ws)%nat -> sized 3 m -> (forall i j, (i < 3)%nat -> (j < 3)%nat -> entry m i j = Some (diag_upto y s i j)) ->
  exists m', mfold (cap_step ws) (seq s n) m = Ok m' /\ sized 3 m' /\
    forall i j, (i < 3)%nat -> (j < 3)%nat -> entry m' i j = Some (diag_upto y (s + n) i j).
Proof.
  intros ws y n. induction n as [| n IH]; intros s m H L SZ En.
  - exists m. rewrite Nat.add_0_r. auto.
  - cbn [seq mfold]. destruct (nth_error ws s) as [w |] eqn:W; [| apply nth_error_None in W; lia].
    unfold cap_step at 1. rewrite (nth_wire _ _ W). cbn [pbind].
    replace (s + S n)%nat with (S s + n)%nat by lia.
    destruct (H s w W) as [(N & Y) | (N & S3 & Sh)].
    + apply neutral_true in N as ->. cbn [pbind]. apply IH; try assumption; [lia |]. intros i j Hi Hj. rewrite En by assumption.
      unfold diag_upto. destruct (Nat.eqb_spec i j) as [<- |]; [| reflexivity]. cbn [andb].
      destruct (Nat.ltb_spec i s), (Nat.ltb_spec i (S s)); try reflexivity; try lia. assert (i = s) as -> by lia. now rewrite Y.
    + apply neutral_false in N as ->. rewrite Sh. cbn [pbind]. rewrite (proj2 (Nat.ltb_lt s 3) S3). cbn [guard pbind].
      apply IH; try assumption; [lia | now apply set_sized |]. intros i j Hi Hj. rewrite (entry_set (K := 3)) by assumption.
      unfold diag_upto. destruct (Nat.eqb_spec i s) as [-> |], (Nat.eqb_spec j s) as [-> |]; cbn [andb].
      * rewrite Nat.eqb_refl. now rewrite (proj2 (Nat.ltb_lt s (S s))) by lia.
      * rewrite En by assumption. unfold diag_upto. now rewrite (proj2 (Nat.eqb_neq s j)) by lia.
      * rewrite En by assumption. unfold diag_upto. now rewrite (proj2 (Nat.eqb_neq i s)) by lia.
      * rewrite En by assumption. unfold diag_upto. destruct (Nat.eqb i j); [| reflexivity]. cbn [andb].
        destruct (Nat.ltb_spec i s), (Nat.ltb_spec i (S s)); try reflexivity; lia.
Qed.
Lemma scale_holds : forall k r c m f, holds r c m f -> holds r c (scale k m) (fun i j => Cscale k (f i j)).
Proof.
  intros k r c m f H. apply holds_intro; [unfold scale; rewrite map_length; apply H |]. intros i row N. unfold scale in N.
  rewrite nth_error_map in N. match type of N with option_map _ ?x = _ => destruct x as [row0 |] eqn:N0; cbn [option_map] in N; [| discriminate N] end. injection N as <-.
  destruct (holds_row _ H N0) as (_ & L1 & H1). split; [now rewrite map_length |].
  intros j Hj. rewrite nth_error_map. etransitivity; [apply f_equal, (H1 j Hj) |]. reflexivity.
Qed.
Lemma cable_shunts : forall ws y, half_shunts ws y -> exists m, underground_cap ws = Ok m /\
  holds 3 3 m (fun i j => if (Nat.eqb i j && Nat.ltb i (List.length ws))%bool then (0, y i) else C0).
Proof.
  intros ws y H. destruct (@shunt_fold ws (fun i => 2 * y i) (List.length ws) 0 (zeros 3)) as (m & F & SZ & En).
  - intros i w W. destruct (H i w W) as [[(N & Y) | (N & I3 & Y & od & cd & k & D & Ho & Hc & K0)] | (N & I3 & od & nd & cd & k & D & S & F & Y)].
    + left. rewrite Y. split; [exact N | lra].
    + right. split; [exact N |]. split; [exact I3 |]. rewrite (shunt_thin D Ho Hc K0), Y. do 2 f_equal. f_equal. lra.
    + right. split; [exact N |]. split; [exact I3 |]. rewrite (shunt_ok D S F), Y. do 2 f_equal. f_equal. lra.
  - reflexivity.
  - apply sized_zeros.
  - intros i j Hi Hj. rewrite entry_zeros by assumption. unfold diag_upto. cbn. now rewrite andb_false_r.
  - unfold underground_cap. rewrite F. cbn [pbind]. eexists. split; [reflexivity |]. unfold halve.
    pose proof (scale_holds (1 / 2) (sized_holds _ SZ En)) as (L & G). split; [exact L |]. intros i Hi.
    destruct (G i Hi) as (L1 & G1). split; [exact L1 |]. intros j Hj. rewrite (G1 j Hj). unfold diag_upto. cbn [Nat.add].
    destruct (_ && _)%bool; unfold Cscale, C0; cbn [fst snd]; do 3 f_equal; lra.
Qed.
Lemma mfold_seq_ok : forall ws n s m, (s + n = List.length ws)%nat -> sized 3 m ->
  ((exists m', mfold (cap_step ws) (seq s n) m = Ok m') <->
   forall i w, nth_error ws i = Some w -> (s <= i)%nat -> w_phase w <> "N"%string -> (i < 3)%nat /\ exists y, cable_shunt w = Ok y).
Proof.
  intros ws n. induction n as [| n IH]; intros s m L SZ.
  - split; [| intros; eexists; reflexivity]. intros _ i w W Hi. assert (i < List.length ws)%nat by (apply nth_error_Some; congruence). lia.
  - cbn [seq mfold]. destruct (nth_error ws s) as [w |] eqn:W; [| apply nth_error_None in W; lia].
    unfold cap_step at 1. rewrite (nth_wire _ _ W). cbn [pbind].
    assert (Step : forall m', sized 3 m' -> (w_phase w <> "N"%string -> (s < 3)%nat /\ exists y, cable_shunt w = Ok y) ->
      ((exists m'', mfold (cap_step ws) (seq (S s) n) m' = Ok m'') <->
      forall i w, nth_error ws i = Some w -> (s <= i)%nat -> w_phase w <> "N"%string -> (i < 3)%nat /\ exists y, cable_shunt w = Ok y)).
    { intros m' SZ' Hs. rewrite (IH (S s) m') by (lia || assumption). split; intros H i v V Hi N.
      - destruct (Nat.eq_dec i s) as [-> |]; [replace v with w in * by congruence; now apply Hs |]. apply H; auto. lia.
      - apply H; auto. lia. }
    destruct (is_neutral w) eqn:N.
    + cbn [pbind]. apply Step; [exact SZ |]. intros N'. apply neutral_true in N. congruence.
    + apply neutral_false in N. destruct (cable_shunt w) as [y | e] eqn:Y; cbn [pbind].
      * destruct (Nat.ltb_spec s 3) as [S3 | S3]; cbn [guard pbind].
        -- apply Step; [now apply set_sized |]. intros _. split; [exact S3 | eauto].
        -- split; [intros (? & ?); discriminate |]. intros H. destruct (H s w W (le_n s) N). lia.
      * split; [intros (? & ?); discriminate |]. intros H. destruct (H s w W (le_n s) N) as (_ & ? & ?). congruence.
Qed.
Lemma cable_shunt_accepted : forall ws, (exists m, underground_cap ws = Ok m) <->
  forall i w, nth_error ws i = Some w -> w_phase w <> "N"%string ->
    (i < 3)%nat /\ exists od nd cd k, drawn w od nd cd k /\ cd <> 0 /\ k <> 0%Z /\ od <> nd.
Proof.
  intros ws. pose proof (@mfold_seq_ok ws (List.length ws) 0 (zeros 3) eq_refl (sized_zeros 3)) as H. split.
  - intros (m & F). unfold underground_cap in F. intros i w W N.
    assert (X : exists m', mfold (cap_step ws) (seq 0 (List.length ws)) (zeros 3) = Ok m') by (destruct (mfold _ _ _); [eauto | discriminate]).
    destruct (proj1 H X i w W) as (I3 & Y); [lia | exact N |]. split; [exact I3 | now apply shunt_accepted].
  - intros F. destruct (proj2 H) as (m & M).
    + intros i w W _ N. destruct (F i w W N) as (I3 & Y). split; [exact I3 | now apply shunt_accepted].
    + exists (halve m). unfold underground_cap. now rewrite M.
Qed.
Lemma shunt_positive : forall rb rc rs k, 0 < rc < rb -> 0 < rs -> (0 < k)%Z -> IZR k * rs <= rb -> 0 < ring_factor rb rc rs k /\ 0 < ring_shunt rb rc rs k.
Proof.
  intros rb rc rs k (C0' & CB) S0 K S. pose proof (IZR_pos K) as K1.
  assert (A : 0 < ln (rb / rc)).
  { rewrite <- ln_1. apply ln_increasing; [lra |]. apply Rmult_lt_reg_r with rc; [lra |]. unfold Rdiv. rewrite Rmult_assoc, Rinv_l by lra. lra. }
  assert (B : ln (IZR k * rs / rb) <= 0).
  { assert (P : 0 < IZR k * rs / rb) by (apply Rdiv_lt_0_compat; [apply Rmult_lt_0_compat |]; lra).
    assert (Q : IZR k * rs / rb <= 1) by (apply Rmult_le_reg_r with rb; [lra |]; unfold Rdiv; rewrite Rmult_assoc, Rinv_l by lra; lra).
    destruct Q as [Q | ->]; [| rewrite ln_1; lra]. left. rewrite <- ln_1. now apply ln_increasing. }
  assert (F : 0 < ring_factor rb rc rs k).
  { unfold ring_factor. pose proof (Rinv_0_lt_compat _ K1). nra. }
  split; [exact F |]. unfold ring_shunt. apply Rdiv_lt_0_compat; lra.
Qed.
