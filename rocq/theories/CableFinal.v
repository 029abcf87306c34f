(** Underground and overhead lines: the statements. *)
From Coq Require Import Reals ZArith String Ascii List Bool Lia Lra Arith.
From Verif Require Import PyExc SpecComponents SpecUnbalanced Components UnbalancedLine GlmText LineImpedance SpecReader SpecLineZ KronProofs CarsonProofs Cables SpecCables ShuntProofs ChargeProofs RingProofs CableZProofs.
Import ListNotations.
Local Open Scope R_scope.
Set Implicit Arguments.

(** *** the inverse of a symmetric matrix *)
Definition unit_at (j i : nat) : C := if Nat.eqb i j then C1 else C0.
Lemma Cadd_0r : forall a, Cadd a C0 = a.
Proof. intros []. cring. Qed.
Lemma lsum_unit : forall (h : nat -> C) j l, NoDup l -> In j l -> lsum (fun i => Cmul (h i) (unit_at j i)) l = h j.
Proof.
  intros h j l. induction l as [| a l IH]; intros ND Hj; [destruct Hj |]. inversion ND as [| x y NI ND']; subst. rewrite lsum_cons.
  destruct Hj as [-> | Hj].
  - unfold unit_at at 1. rewrite Nat.eqb_refl. rewrite (lsum_ext _ (fun _ => C0)).
    + rewrite lsum_zero. destruct (h j). unfold C1. cring.
    + intros i Hi. unfold unit_at. destruct (Nat.eqb_spec i j) as [-> |]; [now elim NI |]. cring.
  - rewrite IH by assumption. unfold unit_at. destruct (Nat.eqb_spec a j) as [-> |]; [now elim NI |]. destruct (h j). cring.
Qed.
Lemma times_unit : forall b f j i, (j < b)%nat -> times b f (unit_at j) i = f i j.
Proof. intros b f j i Hj. unfold times. rewrite Csum_lsum. apply (lsum_unit (f i)); [apply seq_NoDup | apply in_seq; lia]. Qed.
Lemma inverse_sym : forall b y f, (forall i j, (i < b)%nat -> (j < b)%nat -> f i j = f j i) -> left_inverse b y f -> right_inverse b y f ->
  forall i j, (i < b)%nat -> (j < b)%nat -> y i j = y j i.
Proof.
  intros b y f SY LI RI i j Hi Hj. set (T := fun i j => y j i).
  assert (LT : forall w i, (i < b)%nat -> times b T (times b f w) i = w i).
  { intros w i' Hi'. rewrite <- times_comp.
    transitivity (times b (fun a c => unit_at a c) w i').
    - unfold times. rewrite !Csum_lsum. apply lsum_ext. intros c Hc. apply in_seq in Hc. f_equal. unfold T.
      transitivity (times b f (times b y (unit_at i')) c); [| rewrite RI by lia; reflexivity].
      unfold times at 1. rewrite !Csum_lsum. apply lsum_ext. intros e He. apply in_seq in He. rewrite times_unit by exact Hi'.
      rewrite (SY c e) by lia. cring.
    - unfold times. rewrite Csum_lsum. transitivity (lsum (fun c => Cmul (w c) (unit_at i' c)) (seq 0 b)).
      + apply lsum_ext. intros c _. cring.
      + apply lsum_unit; [apply seq_NoDup | apply in_seq; lia]. }
  assert (Q : times b T (unit_at i) j = times b y (unit_at i) j).
  { rewrite <- (LT (times b y (unit_at i)) j Hj). apply times_ext. intros c Hc. now rewrite RI. }
  rewrite !times_unit in Q by assumption. exact Q.
Qed.
Lemma kron_sym : forall n b (z fy : nat -> nat -> C), (forall i j, (i < n + b)%nat -> (j < n + b)%nat -> z i j = z j i) ->
  (forall i j, (i < b)%nat -> (j < b)%nat -> fy i j = fy j i) ->
  forall i j, (i < n)%nat -> (j < n)%nat ->
  Csub (z i j) (Csum (fun l => Cmul (Csum (fun h => Cmul (z i (n + h)%nat) (fy h l)) b) (z (n + l)%nat j)) b) =
  Csub (z j i) (Csum (fun l => Cmul (Csum (fun h => Cmul (z j (n + h)%nat) (fy h l)) b) (z (n + l)%nat i)) b).
Proof.
  intros n b z fy SZ SY i j Hi Hj. rewrite (SZ i j) by lia. f_equal. rewrite !Csum_lsum.
  rewrite (lsum_ext _ (fun l => lsum (fun h => Cmul (Cmul (z i (n + h)%nat) (fy h l)) (z (n + l)%nat j)) (seq 0 b))) by (intros; now rewrite Csum_lsum, lsum_mul_r).
  rewrite lsum_swap. apply lsum_ext. intros h Hh. apply in_seq in Hh. rewrite Csum_lsum, lsum_mul_r. apply lsum_ext. intros l Hl. apply in_seq in Hl.
  rewrite (SZ (n + l)%nat j), (SZ i (n + h)%nat), (SY h l) by lia. cring.
Qed.

Lemma cable_line : forall E ws cs neutral d D z, laid ws cs neutral -> surveyed (List.length ws) cs d D ->
  cable_primitive cs neutral (List.length ws) D z ->
  let n := List.length cs in let b := List.length ws in
  inverts E b (fun i j => z (n + i)%nat (n + j)%nat) ->
  exists m fk, underground_z E ws d = Ok m /\ holds n n m fk /\ grounded_law n b z fk /\
    ((forall i j, D i j = D j i) -> forall i j, (i < n)%nat -> (j < n)%nat -> fk i j = fk j i).
Proof.
  intros E ws cs neutral d D z LA SU PR n b INV. destruct (cable_matrix LA SU PR INV) as (m & y & fy & Z & Hm & Hy & LI & RI & GL).
  exists m. eexists. split; [exact Z |]. split; [exact Hm |]. split; [exact GL |]. intros DS.
  assert (ZS : forall i j, (i < n + b)%nat -> (j < n + b)%nat -> z i j = z j i).
  { intros i j Hi Hj. destruct (Nat.eq_dec i j) as [-> | NE]; [reflexivity |].
    rewrite !(mutual_entry LA SU PR) by (fold n b; lia). f_equal. unfold all_dist. fold n. destruct (Nat.ltb i n), (Nat.ltb j n); auto. }
  apply kron_sym; [exact ZS |]. apply (@inverse_sym b fy (fun i j => z (n + i)%nat (n + j)%nat)); try assumption.
  intros i j Hi Hj. apply ZS; lia.
Qed.
(** the primitive impedances exist *)
Lemma primitive_exists : forall ws cs neutral d D, laid ws cs neutral -> surveyed (List.length ws) cs d D ->
  exists z, cable_primitive cs neutral (List.length ws) D z.
Proof.
  intros ws cs neutral d D LA SU. set (n := List.length cs).
  pose proof (sizes LA) as SZ. fold n in SZ.
  set (self := fun a => match nth_error cs a with
                        | Some c => cable_self (c_r c) (c_g c)
                        | None => match nth_error cs (a - n) with
                                  | Some c => cable_self (c_sr c / IZR (c_k c)) (strand_gmr c)
                                  | None => match neutral with Some (r, g) => cable_self r g | None => C0 end
                                  end
                        end).
  exists (fun a c => if Nat.eqb a c then self a else cable_mutual (all_dist cs D a c)).
  assert (NN : forall i, nth_error cs (n + i) = None) by (intros i; apply nth_error_None; fold n; lia).
  assert (SUB : forall i, (n + i - n = i)%nat) by (intros; lia).
  split; [| split; [| split; [| split]]]; fold n.
  - intros i c Ci. assert (Hi : (i < n)%nat) by (apply nth_error_Some; congruence).
    rewrite !Nat.eqb_refl. rewrite (proj2 (Nat.eqb_neq i (n + i))), (proj2 (Nat.eqb_neq (n + i) i)) by lia.
    unfold self. rewrite Ci, NN, SUB, Ci. unfold all_dist. fold n. rewrite !ltb_yes, !ltb_no by lia. rewrite SUB. unfold cn_of. rewrite Nat.eqb_refl.
    assert (RC : ring cs i = c_radius c) by (unfold ring; now rewrite Ci). rewrite RC. split; [reflexivity |]. split; [| auto]. exists (strand_gmr c). split; [| reflexivity].
    destruct (data_of LA SU c) as (w & Hw); [now apply nth_error_In in Ci |]. apply kroot_ok; [apply Hw |]. eapply strand_pos, Hw.
  - intros r g ->. rewrite Nat.eqb_refl. unfold self. rewrite NN, SUB. replace (nth_error cs n) with (@None cdata); [reflexivity |]. symmetry. apply nth_error_None. reflexivity.
  - intros i j Hi Hj NE. rewrite (proj2 (Nat.eqb_neq i j)) by exact NE. unfold all_dist. fold n. now rewrite !ltb_yes.
  - intros i j Hi Hj NE. rewrite (proj2 (Nat.eqb_neq (n + i) (n + j))) by lia. unfold all_dist. fold n. rewrite !ltb_no by lia. now rewrite !SUB.
  - intros i j Hi Hj NE. exists (cn_of cs D i j). rewrite (proj2 (Nat.eqb_neq i (n + j))), (proj2 (Nat.eqb_neq (n + j) i)) by lia.
    unfold all_dist. fold n. rewrite !ltb_yes, !ltb_no by lia. rewrite SUB. split; [| auto]. unfold cn_of. rewrite (proj2 (Nat.eqb_neq i j)) by exact NE.
    apply kroot_ok; [apply (k_pos LA SU) |]. apply (power_diff LA SU); lia.
Qed.

(** *** overhead lines *)
Lemma no_diameter : forall E side ws d, incl (map w_phase ws) line_phases -> (exists w, In w ws /\ w_diam w = None) -> overhead_cap E side ws d = Ok None.
Proof.
  intros E side ws d INC H. unfold overhead_cap.
  assert (S : forall all todo rd, incl (map w_phase all) line_phases -> incl (map w_phase todo) line_phases -> (exists w, In w todo /\ w_diam w = None) ->
    oc_scan all todo rd = Ok None).
  { intros all todo. induction todo as [| w todo IH]; intros rd HA HT (v & Hv & Dv); [destruct Hv |]. cbn [oc_scan].
    destruct (w_diam w) as [dm |] eqn:Dw; [| reflexivity]. rewrite four_ok by (apply HT; cbn; tauto). cbn [pbind]. rewrite all_four by exact HA. cbn [pbind].
    rewrite IH; [reflexivity | exact HA | |].
    - intros x Hx. apply HT. cbn. tauto.
    - destruct Hv as [-> | Hv]; [congruence | eauto]. }
  now rewrite S.
Qed.
Lemma scan_rows : forall all todo rd l rd', oc_scan all todo rd = Ok (Some (l, rd')) -> forall a, In a l -> (a < 4)%nat.
Proof.
  intros all todo. induction todo as [| w todo IH]; intros rd l rd' H a Ha; cbn [oc_scan] in H.
  - injection H as <- <-. destruct Ha.
  - destruct (w_diam w) as [dm |]; [| discriminate]. destruct (in_four w) as [x | e] eqn:F; [| discriminate]. cbn [pbind] in H.
    destruct (mfold _ all tt); [| discriminate]. cbn [pbind] in H. destruct (oc_scan all todo _) as [[[l' r'] |] | e] eqn:O; cbn [pbind] in H; try discriminate.
    injection H as <- <-. destruct Ha as [<- | Ha]; [| eapply IH; eassumption].
    unfold in_four in F. destruct (index_of w) as [e0 | e0]; [| discriminate]. cbn [pbind] in F. destruct (Nat.ltb_spec e0 4); [| discriminate]. cbn in F. injection F as <-. assumption.
Qed.
Lemma no_heights : forall E side ws d d',
  (forall a b, (a < 4)%nat -> (b < 4)%nat -> at2 d a b = at2 d' a b) ->
  (forall a, (a < 4)%nat -> at2 d a 4 = -1 /\ at2 d' a 4 = 1) -> overhead_cap E side ws d = overhead_cap E side ws d'.
Proof.
  intros E side ws d d' HD HH. unfold overhead_cap. destruct (oc_scan ws ws (repeat 0 4)) as [[[idx rd] |] | e] eqn:SC; [| reflexivity | reflexivity].
  cbn [pbind]. pose proof (scan_rows _ _ _ SC) as B.
  assert (Co : forall i j, In i (seq 0 (List.length idx)) -> In j (seq 0 (List.length idx)) -> coefficient side d rd idx i j = coefficient side d' rd idx i j).
  { intros i j Hi Hj. apply in_seq in Hi, Hj. unfold coefficient. set (a := nth i idx 0%nat). set (c := nth j idx 0%nat).
    assert (A4 : (a < 4)%nat) by (apply B, nth_In; lia). assert (C4 : (c < 4)%nat) by (apply B, nth_In; lia).
    rewrite (HD a c A4 C4). assert (image d a c = image d' a c) as ->; [| reflexivity]. unfold image.
    destruct (HH a A4) as (-> & ->). destruct (HH 3%nat) as (-> & ->); [lia |]. rewrite (HD a 3%nat), (HD a c) by lia.
    destruct (Nat.eqb a c); [f_equal; ring |]. destruct (_ || _)%bool; [| f_equal; ring].
    replace (-1 - -1) with (1 - 1) by ring. destruct (np_sqrt _); [| reflexivity]. f_equal. ring. }
  assert (Pm : map (fun i => map (coefficient side d rd idx i) (seq 0 (List.length idx))) (seq 0 (List.length idx)) =
               map (fun i => map (coefficient side d' rd idx i) (seq 0 (List.length idx))) (seq 0 (List.length idx))).
  { apply map_ext_in. intros i Hi. apply map_ext_in. intros j Hj. now apply Co. }
  now rewrite Pm.
Qed.
Lemma level_mirror : forall X h p q, p <> "N"%string -> q <> "N"%string -> h p = h q -> used_mirror X h p q = mirror X h p q.
Proof.
  intros X h p q Np Nq H. unfold used_mirror, mirror. apply String.eqb_neq in Np, Nq. rewrite Np, Nq. destruct (String.eqb p q); [reflexivity |]. now rewrite H.
Qed.
Lemma from_phase_to_neutral : forall X h p, p <> "N"%string -> used_mirror X h p "N" = mirror X h p "N".
Proof. intros X h p Np. unfold used_mirror, mirror. apply String.eqb_neq in Np. rewrite Np. reflexivity. Qed.
Lemma from_neutral_short : forall X h p, p <> "N"%string -> 0 < X "N"%string p -> 0 < h "N"%string <= h p ->
  used_mirror X h "N" p < mirror X h "N" p.
Proof.
  intros X h p Np X0 (H0 & HL). unfold used_mirror, mirror. assert (NE : String.eqb "N" p = false) by (apply String.eqb_neq; congruence). rewrite NE. cbn [String.eqb].
  assert (Eb : String.eqb "N" "N" = true) by reflexivity. rewrite ?Eb. rewrite <- (sqrt_square (2 * h "N"%string)) by lra. apply sqrt_lt_1; nra.
Qed.
(** diameters are in inches, distances in feet *)
Lemma inches : forall X (rad : string -> R) S p, 0 < rad p -> 0 < S p p ->
  coeff X rad S p p = coeff X (fun q => rad q / 12) S p p - 11.17689 * ln 12.
Proof.
  intros X rad S p R0 S0. unfold coeff. rewrite String.eqb_refl. replace (S p p / (rad p / 12)) with (S p p / rad p * 12) by (field; lra).
  rewrite ln_mult; [ring | now apply Rdiv_lt_0_compat | lra].
Qed.
Lemma uneven_mirror : forall X h p q, p <> "N"%string -> q <> "N"%string -> p <> q -> X p q = X q p -> 0 < h p < h q ->
  used_mirror X h p q < mirror X h p q < used_mirror X h q p.
Proof.
  intros X h p q Np Nq NE SX (H0 & H1). unfold used_mirror, mirror. apply String.eqb_neq in Np, Nq. assert (Q : String.eqb q p = false) by (apply String.eqb_neq; congruence).
  apply String.eqb_neq in NE. rewrite NE, Q, Np, Nq, <- SX. split; apply sqrt_lt_1; nra.
Qed.
