(** Proofs about the result files. *)
From Coq Require Import Reals ZArith String Ascii List Bool Lia Lra.
From Verif Require Import PyExc Components SpecComponents Results SpecResults TimeSeries SpecTimeSeries TimeSeriesProofs Output SpecOutput.
Import ListNotations.
Local Open Scope R_scope.
Local Open Scope string_scope.
Set Implicit Arguments.

Lemma rltb_spec x y : rltb x y = true <-> x < y.
Proof. unfold rltb. destruct (Rlt_dec x y); split; intros; try assumption; try reflexivity; [discriminate|contradiction]. Qed.
(** *** digits *)
Lemma app_assoc_o (a b c : string) : (a ++ b) ++ c = a ++ b ++ c. Proof. induction a; cbn; congruence. Qed.
Lemma digits_more s n k d : digits_of s n k -> (0 <= d < 10)%Z -> digits_of (s ++ digit d) (10 * n + d) (S k).
Proof. intros H D. unfold digit. rewrite <- (Z2Nat.id d) at 2 by lia. apply d_more; [exact H|lia]. Qed.
Lemma last_digits_ok k : forall n, (0 <= n < 10 ^ Z.of_nat k)%Z -> digits_of (last_digits k n) n k.
Proof.
  induction k as [|k IH]; intros n H.
  - change (10 ^ Z.of_nat 0)%Z with 1%Z in H. assert (n = 0%Z) as -> by lia. constructor.
  - cbn [last_digits]. rewrite (Z.div_mod n 10) at 3 by lia. apply digits_more; [|apply Z.mod_pos_bound; lia].
    apply IH. rewrite Nat2Z.inj_succ, Z.pow_succ_r in H by lia. split; [apply Z.div_pos; lia|apply Z.div_lt_upper_bound; lia].
Qed.
Lemma show_fuel_ok f : forall n, (0 <= n < 2 ^ Z.of_nat f)%Z -> (0 < f)%nat -> exists k, digits_of (show_fuel f n) n (S k).
Proof.
  induction f as [|f IH]; intros n H F; [lia|]. cbn [show_fuel]. destruct (Z.ltb_spec n 10).
  - exists 0%nat. change (digit n) with ("" ++ digit n). replace n with (10 * 0 + n)%Z at 2 by lia. apply digits_more; [constructor|lia].
  - rewrite Nat2Z.inj_succ, Z.pow_succ_r in H by lia. destruct f as [|f]; [change (2 ^ Z.of_nat 0)%Z with 1%Z in H; lia|].
    destruct (IH (n / 10)%Z) as (k & D); [split; [apply Z.div_pos; lia|apply Z.div_lt_upper_bound; lia]|lia|].
    exists (S k). rewrite (Z.div_mod n 10) at 3 by lia. apply digits_more; [exact D|apply Z.mod_pos_bound; lia].
Qed.
Lemma show_nonneg_ok n : (0 <= n)%Z -> exists k, digits_of (show_nonneg n) n (S k).
Proof.
  intros H. apply show_fuel_ok; [|lia]. split; [exact H|]. rewrite Nat2Z.inj_succ, Z2Nat.id by apply Z.log2_nonneg.
  destruct (Z.eq_dec n 0) as [->|N]; [reflexivity|]. apply Z.log2_spec. lia.
Qed.
Lemma show_int_ok z : integer (show_int z) z.
Proof.
  unfold show_int. destruct (Z.ltb_spec z 0).
  - destruct (show_nonneg_ok (n := - z)) as (k & D); [lia|]. exists (show_nonneg (- z)), (- z)%Z, k. split; [exact D|]. right. split; [reflexivity|lia].
  - destruct (show_nonneg_ok H) as (k & D). exists (show_nonneg z), z, k. auto.
Qed.
Lemma digits_free c : (forall d, (d < 10)%nat -> ascii_of_nat (48 + d) <> c) -> forall s n k, digits_of s n k -> free c s.
Proof.
  intros C s n k H. induction H as [|s n k d H IH D]; [intros []|]. intros I. assert (X : forall s t, list_ascii_of_string (s ++ t) = (list_ascii_of_string s ++ list_ascii_of_string t)%list).
  { clear. intros s t. induction s; cbn; congruence. }
  rewrite X in I. apply in_app_or in I as [I|I]; [exact (IH I)|]. cbn in I. destruct I as [I|[]]. exact (C d ltac:(lia) I).
Qed.
(** *** splitting *)
Lemma las_app (s t : string) : list_ascii_of_string (s ++ t) = (list_ascii_of_string s ++ list_ascii_of_string t)%list.
Proof. induction s; cbn; congruence. Qed.
Lemma free_app c s t : free c s -> free c t -> free c (s ++ t).
Proof. unfold free. rewrite las_app, in_app_iff. tauto. Qed.
Lemma split_none c s : free c s -> split c s = [s].
Proof.
  induction s as [|a s IH]; intros F; [reflexivity|]. cbn [split]. unfold free in F. cbn in F. destruct (Ascii.eqb_spec a c) as [->|]; [tauto|].
  rewrite IH; [reflexivity|]. intros I. tauto.
Qed.
Lemma split_app c s t : free c s -> split c (s ++ String c t) = s :: split c t.
Proof.
  induction s as [|a s IH]; intros F; cbn [append split]; [now rewrite Ascii.eqb_refl|]. unfold free in F. cbn in F. destruct (Ascii.eqb_spec a c) as [->|]; [tauto|].
  rewrite IH; [reflexivity|]. intros I. tauto.
Qed.
Lemma four a b c d : free comma a -> free comma b -> free comma c -> free comma d -> split comma (a ++ "," ++ b ++ "," ++ c ++ "," ++ d) = [a; b; c; d].
Proof.
  intros A B C D. change ("," ++ b ++ "," ++ c ++ "," ++ d) with (String comma (b ++ "," ++ c ++ "," ++ d)). rewrite split_app by exact A. f_equal.
  change ("," ++ c ++ "," ++ d) with (String comma (c ++ "," ++ d)). rewrite split_app by exact B. f_equal.
  change ("," ++ d) with (String comma d). rewrite split_app by exact C. f_equal. now apply split_none.
Qed.
(** *** rounding *)
Lemma round_near y : 0 <= y -> (0 <= round_even y)%Z /\ Rabs (IZR (round_even y) - y) <= 1 / 2 /\
  (Rabs (IZR (round_even y) - y) = 1 / 2 -> Z.even (round_even y) = true).
Proof.
  intros Y. destruct (base_Int_part y) as [A B]. assert (F : (0 <= Int_part y)%Z).
  { apply Z.lt_succ_r, lt_IZR. rewrite succ_IZR. lra. }
  unfold round_even. destruct (rltb (y - IZR (Int_part y)) (1 / 2)) eqn:S1.
  - apply rltb_spec in S1. split; [exact F|]. split; [apply Rabs_le; lra|]. intros Q. exfalso. rewrite Rabs_left1 in Q; lra.
  - assert (~ y - IZR (Int_part y) < 1 / 2) by (intros X; apply rltb_spec in X; congruence). destruct (rltb (1 / 2) (y - IZR (Int_part y))) eqn:S2.
    + apply rltb_spec in S2. rewrite plus_IZR. split; [lia|]. split; [apply Rabs_le; lra|]. intros Q. exfalso. rewrite Rabs_right in Q; lra.
    + assert (~ 1 / 2 < y - IZR (Int_part y)) by (intros X; apply rltb_spec in X; congruence).
      destruct (Z.even (Int_part y)) eqn:Ev; (split; [lia|]); rewrite ?plus_IZR; (split; [apply Rabs_le; lra|]); intros _; [exact Ev|].
      rewrite Z.add_1_r, Z.even_succ, <- Z.negb_even, Ev. reflexivity.
Qed.
Lemma pow_IZR k : IZR (10 ^ Z.of_nat k) = 10 ^ k. Proof. symmetry. exact (pow_IZR 10 k). Qed.
Lemma pow_pos k : 0 < 10 ^ k. Proof. apply pow_lt. lra. Qed.
Lemma fixed_ok k x : shows k x (fixed k x).
Proof.
  set (n := round_even (Rabs x * 10 ^ k)). set (p := (10 ^ Z.of_nat k)%Z). pose proof (pow_pos k) as P.
  assert (Pz : (0 < p)%Z) by (apply Z.pow_pos_nonneg; lia).
  destruct (@round_near (Rabs x * 10 ^ k)) as (N0 & N1 & N2); [apply Rmult_le_pos; [apply Rabs_pos|lra]|]. fold n in N0, N1, N2.
  destruct (show_nonneg_ok (n := (n / p)%Z)) as (j & D1); [apply Z.div_pos; lia|].
  assert (D2 : digits_of (last_digits k (n mod p)) (n mod p) k) by (apply last_digits_ok; apply Z.mod_pos_bound; exact Pz).
  assert (V : IZR (n / p) + IZR (n mod p) / 10 ^ k = IZR n / 10 ^ k).
  { rewrite (Z.div_mod n p) at 3 by lia. rewrite plus_IZR, mult_IZR. unfold p. rewrite pow_IZR. fold p. field. lra. }
  assert (A : Rabs (IZR n / 10 ^ k - Rabs x) = Rabs (IZR n - Rabs x * 10 ^ k) / 10 ^ k).
  { replace (IZR n / 10 ^ k - Rabs x) with ((IZR n - Rabs x * 10 ^ k) * / 10 ^ k) by (field; lra). rewrite Rabs_mult, (Rabs_right (/ 10 ^ k)); [reflexivity|]. left. now apply Rinv_0_lt_compat. }
  assert (Z : Rabs (IZR n / 10 ^ k - Rabs x) <= 1 / 2 / 10 ^ k).
  { rewrite A. apply Rmult_le_compat_r; [left; now apply Rinv_0_lt_compat|exact N1]. }
  assert (T : Rabs (IZR n / 10 ^ k - Rabs x) = 1 / 2 / 10 ^ k -> exists z, n = (2 * z)%Z).
  { rewrite A. intros Q. assert (Q2 : Rabs (IZR n - Rabs x * 10 ^ k) = 1 / 2).
    { apply (Rmult_eq_reg_r (/ 10 ^ k)); [exact Q|]. apply Rgt_not_eq. now apply Rinv_0_lt_compat. }
    apply Z.even_spec. exact (N2 Q2). }
  assert (M : forall u, free "-" (show_nonneg (n / p) ++ "." ++ u) -> ~ exists t, show_nonneg (n / p) ++ "." ++ u = "-" ++ t).
  { intros u F (t & Q). apply F. rewrite Q. now left. }
  unfold fixed. fold n p. destruct (rltb x 0) eqn:L.
  - apply rltb_spec in L. rewrite (Rabs_left x) in Z, T by exact L. assert (A2 : Rabs (- (IZR n / 10 ^ k) - x) = Rabs (IZR n / 10 ^ k - - x)) by (rewrite <- Rabs_Ropp; f_equal; ring).
    split; [exists (- (IZR n / 10 ^ k)); split; [|rewrite A2; split; [exact Z|]]|].
    + exists (show_nonneg (n / p)), (last_digits k (n mod p)), (n / p)%Z, (n mod p)%Z, j. split; [exact D1|]. split; [exact D2|]. right. split; [reflexivity|now rewrite V].
    + intros Q. destruct (T Q) as (z & ->). exists (- z)%Z. rewrite mult_IZR, opp_IZR. field. lra.
    + split; [intros _; eexists; reflexivity|intros _; exact L].
  - assert (~ x < 0) by (intros X; apply rltb_spec in X; congruence). rewrite (Rabs_right x) in Z, T by lra. split; [exists (IZR n / 10 ^ k); split; [|split; [exact Z|]]|].
    + exists (show_nonneg (n / p)), (last_digits k (n mod p)), (n / p)%Z, (n mod p)%Z, j. split; [exact D1|]. split; [exact D2|]. left. split; [reflexivity|now rewrite V].
    + intros Q. destruct (T Q) as (z & ->). exists z. rewrite mult_IZR. field. lra.
    + split; [contradiction|]. cbn [append]. intros X. exfalso. revert X. apply M.
      assert (C : forall d, (d < 10)%nat -> ascii_of_nat (48 + d) <> "-"%char) by (intros d Hd; do 10 (destruct d as [|d]; [discriminate|]); lia).
      apply free_app; [exact (digits_free C D1)|]. apply free_app; [intros [Q|[]]; discriminate Q|exact (digits_free C D2)].
Qed.
(** *** what can stand in a field *)
Lemma digit_not c : (forall d, (d < 10)%nat -> ascii_of_nat (48 + d) <> c) -> forall k x, free c "-" -> free c "." -> free c (fixed k x).
Proof.
  intros C k x M P. unfold fixed. apply free_app; [destruct (rltb x 0); [exact M|intros []]|]. set (n := round_even _). set (p := (10 ^ _)%Z).
  assert (Pz : (0 < p)%Z) by (apply Z.pow_pos_nonneg; lia).
  destruct (@round_near (Rabs x * 10 ^ k)) as (N0 & _); [apply Rmult_le_pos; [apply Rabs_pos|left; apply pow_pos]|]. fold n in N0.
  destruct (show_nonneg_ok (n := (n / p)%Z)) as (j & D1); [apply Z.div_pos; lia|]. apply free_app; [exact (digits_free C D1)|]. apply free_app; [exact P|].
  eapply digits_free; [exact C|]. apply last_digits_ok. apply Z.mod_pos_bound. exact Pz.
Qed.
Lemma int_not c : (forall d, (d < 10)%nat -> ascii_of_nat (48 + d) <> c) -> forall z, free c "-" -> free c (show_int z).
Proof.
  intros C z M. unfold show_int. destruct (Z.ltb_spec z 0).
  - apply free_app; [exact M|]. destruct (show_nonneg_ok (n := (- z)%Z)) as (k & D); [lia|]. exact (digits_free C D).
  - destruct (show_nonneg_ok (n := z)) as (k & D); [lia|]. exact (digits_free C D).
Qed.
Lemma no_comma d : (d < 10)%nat -> ascii_of_nat (48 + d) <> comma.
Proof. intros H. do 10 (destruct d as [|d]; [discriminate|]). lia. Qed.
Lemma no_end d : (d < 10)%nat -> ascii_of_nat (48 + d) <> line_end.
Proof. intros H. do 10 (destruct d as [|d]; [discriminate|]). lia. Qed.
Lemma free_b c s : existsb (Ascii.eqb c) (list_ascii_of_string s) = false -> free c s.
Proof. intros E I. assert (X : existsb (Ascii.eqb c) (list_ascii_of_string s) = true) by (apply existsb_exists; exists c; split; [exact I|apply Ascii.eqb_refl]). congruence. Qed.
Lemma plain_fixed k x : plain (fixed k x).
Proof. split; apply digit_not; try apply no_comma; try apply no_end; apply free_b; reflexivity. Qed.
Lemma plain_int z : plain (show_int z).
Proof. split; apply int_not; try apply no_comma; try apply no_end; apply free_b; reflexivity. Qed.
Lemma plain_app s t : plain s -> plain t -> plain (s ++ t).
Proof. intros [A B] [C D]. split; now apply free_app. Qed.
Lemma plain_b s : existsb (fun c => Ascii.eqb comma c || Ascii.eqb line_end c) (list_ascii_of_string s) = false -> plain s.
Proof.
  intros E. assert (X : forall c, c = comma \/ c = line_end -> free c s).
  { intros c Hc I. assert (X : existsb (fun c => Ascii.eqb comma c || Ascii.eqb line_end c) (list_ascii_of_string s) = true); [|congruence].
    apply existsb_exists. exists c. split; [exact I|]. destruct Hc as [->| ->]; reflexivity. }
  split; apply X; auto.
Qed.
(** *** voltages *)
Lemma atan2_range y x : - PI < atan2 y x <= PI.
Proof.
  pose proof PI_RGT_0. unfold atan2. destruct (Rlt_dec 0 x); [pose proof (atan_bound (y / x)); lra|]. destruct (Rlt_dec x 0) as [X|].
  - pose proof (atan_bound (y / x)). destruct (Rle_dec 0 y) as [Y|Y].
    + assert (Q : atan (y / x) <= 0).
      { rewrite <- atan_0. destruct Y as [Y|<-]; [|unfold Rdiv; rewrite Rmult_0_l; lra]. left. apply atan_increasing. unfold Rdiv. pose proof (Rinv_lt_0_compat _ X). nra. }
      lra.
    + assert (Q : 0 < atan (y / x)).
      { rewrite <- atan_0. apply atan_increasing. unfold Rdiv. pose proof (Rinv_lt_0_compat _ X). nra. }
      lra.
  - destruct (Rlt_dec 0 y); [lra|]. destruct (Rlt_dec y 0); lra.
Qed.
Lemma polar x y : (x, y) = (Results.modulus (x, y) * cos (atan2 y x), Results.modulus (x, y) * sin (atan2 y x)).
Proof.
  destruct (Req_dec x 0) as [->|X].
  1: destruct (Req_dec y 0) as [->|Y].
  - unfold Results.modulus. cbn [fst snd]. replace (0 * 0 + 0 * 0) with 0 by ring. rewrite sqrt_0. now rewrite !Rmult_0_l.
  - assert (N : (0, y) <> (0, 0)) by congruence. destruct (direction _ _ N) as [-> ->]. pose proof (apparent_pos _ N) as P.
    change (Results.modulus (0, y)) with (apparent (0, y)). apply injective_projections; cbn [fst snd]; field; lra.
  - assert (N : (x, y) <> (0, 0)) by congruence. destruct (direction _ _ N) as [-> ->]. pose proof (apparent_pos _ N) as P.
    change (Results.modulus (x, y)) with (apparent (x, y)). apply injective_projections; cbn [fst snd]; field; lra.
Qed.
Lemma show_single n : (0 <= n < 10)%Z -> show_nonneg n = digit n.
Proof. intros H. unfold show_nonneg. cbn [show_fuel]. destruct (Z.ltb_spec n 10); [reflexivity|lia]. Qed.
Lemma int_part_IZR n : Int_part (IZR n) = n.
Proof. unfold Int_part. rewrite <- (tech_up (IZR n) (n + 1)); rewrite ?plus_IZR; try lra. lia. Qed.
(** values with few digits are shown exactly *)
Lemma fixed_exact k x n : Rabs x * 10 ^ k = IZR n ->
  fixed k x = (if rltb x 0 then "-" else "") ++ show_nonneg (n / 10 ^ Z.of_nat k) ++ "." ++ last_digits k (n mod 10 ^ Z.of_nat k).
Proof.
  intros E. unfold fixed. rewrite E. assert (Q : round_even (IZR n) = n).
  { unfold round_even. rewrite int_part_IZR. assert (X : rltb (IZR n - IZR n) (1 / 2) = true) by (apply rltb_spec; lra). now rewrite X. }
  now rewrite Q.
Qed.
Lemma fixed_zero : fixed 3 0 = "0.000".
Proof.
  rewrite (@fixed_exact 3 0 0) by (rewrite Rabs_R0; ring). assert (X : rltb 0 0 = false) by (destruct (rltb 0 0) eqn:Q; [apply rltb_spec in Q; lra|reflexivity]).
  now rewrite X.
Qed.
Lemma voltage_shown vr vi : shows_voltage (vr, vi) (fixed 3 (Results.modulus (vr, vi))) (fixed 3 (degrees_of vr vi)).
Proof.
  exists (Results.modulus (vr, vi)), (atan2 vi vr). split; [apply sqrt_pos|]. split; [apply atan2_range|]. split; [apply polar|]. split; [apply fixed_ok|].
  unfold degrees_of. destruct (rltb (Results.modulus (vr, vi)) (1 / 100000000)) eqn:L.
  - apply rltb_spec in L. split; [lra|]. intros _. exact fixed_zero.
  - split; [intros _; apply fixed_ok|]. intros X. apply rltb_spec in X. congruence.
Qed.
(** *** rows *)
Definition body (row : string -> Prop) (s : string) : Prop := exists t, s = t ++ newline /\ plain t /\ row t.
Definition bare (s : string) : Prop := free line_end s.
Definition row_of (P : string -> Prop) (s : string) : Prop := exists t, s = t ++ newline /\ bare t /\ P t.
Lemma joined a b c d : plain a -> plain b -> plain c -> plain d ->
  bare (a ++ "," ++ b ++ "," ++ c ++ "," ++ d) /\ split comma (a ++ "," ++ b ++ "," ++ c ++ "," ++ d) = [a; b; c; d].
Proof.
  intros [A A'] [B B'] [C C'] [D D']. split; [|now apply four]. unfold bare. assert (X : free line_end ",") by (apply free_b; reflexivity).
  repeat (apply free_app; [assumption|]). exact D'.
Qed.
Lemma bus_row_ok v b : plain (ob_name b) -> plain (ob_phase b) -> row_of (fun t => bus_line v t b) (bus_row v b).
Proof.
  intros N P. unfold bus_row. set (vr := v (fst (ob_V b))). set (vi := v (snd (ob_V b))).
  destruct (@joined (show_int (ob_num b)) (ob_name b ++ ":" ++ ob_phase b) (fixed 3 (Results.modulus (vr, vi))) (fixed 3 (degrees_of vr vi))) as [B S];
    [apply plain_int|apply plain_app; [exact N|apply plain_app; [apply plain_b; reflexivity|exact P]]|apply plain_fixed|apply plain_fixed|].
  eexists. split; [|split; [exact B|]]; [now rewrite !app_assoc_o|]. exists (show_int (ob_num b)), (fixed 3 (Results.modulus (vr, vi))), (fixed 3 (degrees_of vr vi)).
  split; [exact S|]. split; [apply show_int_ok|]. exact (voltage_shown vr vi).
Qed.
Lemma gen_row_ok g : row_of (fun t => gen_line t g) (gen_row (fst g) (snd g)).
Proof.
  unfold gen_row. destruct (@joined (show_int (fst g)) (type_name (gr_type (snd g))) (fixed 2 (gr_P (snd g))) (fixed 2 (gr_Q (snd g)))) as [B S];
    [apply plain_int|destruct (gr_type (snd g)); apply plain_b; reflexivity|apply plain_fixed|apply plain_fixed|].
  eexists. split; [|split; [exact B|]]; [now rewrite !app_assoc_o|]. exists (show_int (fst g)), (fixed 2 (gr_P (snd g))), (fixed 2 (gr_Q (snd g))).
  split; [exact S|]. split; [apply show_int_ok|]. split; apply fixed_ok.
Qed.
Lemma load_row_ok l : plain (ol_node l) -> row_of (fun t => load_line t l) (load_row l).
Proof.
  intros N. unfold load_row. destruct (@joined (ol_node l) "PQ" (fixed 2 (ol_P l)) (fixed 2 (ol_Q l))) as [B S]; [exact N|apply plain_b; reflexivity|apply plain_fixed|apply plain_fixed|].
  eexists. split; [|split; [exact B|]]; [now rewrite !app_assoc_o|]. exists (fixed 2 (ol_P l)), (fixed 2 (ol_Q l)). split; [exact S|]. split; apply fixed_ok.
Qed.
Lemma rows_split X (f : X -> string) (P : string -> X -> Prop) rest : forall l, (forall x, In x l -> row_of (fun t => P t x) (f x)) ->
  exists rows, split line_end (glue (map f l) ++ rest) = (rows ++ split line_end rest)%list /\ Forall2 P rows l.
Proof.
  induction l as [|x l IH]; intros H; [exists []; now split|]. destruct IH as (rows & E & F); [intros y Hy; apply H; now right|].
  destruct (H x ltac:(now left)) as (t & Q & B & Pt). exists (t :: rows). split; [|now constructor]. cbn [map glue fold_right]. fold (glue (map f l)).
  rewrite Q, !app_assoc_o. change (newline ++ glue (map f l) ++ rest) with (String line_end (glue (map f l) ++ rest)). rewrite split_app by exact B. cbn [List.app]. now rewrite E.
Qed.
Lemma trailer_split r : split line_end (trailer r) = [trailer r] /\ last_line (or_violates r) (trailer r).
Proof. unfold trailer, last_line. destruct (or_violates r); (split; [reflexivity|auto]). Qed.
Lemma voltage_table r : or_success r = true -> (forall b, In b (or_buses r) -> plain (ob_name b) /\ plain (ob_phase b)) ->
  exists rows last, split line_end (voltage_file r) = ("bus,name,v_magnitude,v_ang_degrees" :: rows ++ [last])%list /\
    Forall2 (bus_line (or_v r)) rows (filter (fun b => negb (ob_virtual b)) (or_buses r)) /\ last_line (or_violates r) last.
Proof.
  intros S N. unfold voltage_file. rewrite S. destruct (@rows_split _ (bus_row (or_v r)) (fun t b => bus_line (or_v r) t b) (trailer r) (shown_buses r)) as (rows & E & F).
  { intros b Hb. apply filter_In in Hb as [Hb _]. destruct (N b Hb). now apply bus_row_ok. }
  destruct (trailer_split r) as [T L]. rewrite T in E. exists rows, (trailer r). split; [|split; [exact F|exact L]].
  change (newline ++ ?x) with (String line_end x). rewrite split_app by (apply free_b; reflexivity). now rewrite E.
Qed.
Lemma power_table r : or_success r = true -> (forall l, In l (or_loads r) -> plain (ol_node l)) ->
  exists gens loads last, split line_end (power_file r) = ("bus,name,P(MW),Q(MVar)" :: gens ++ loads ++ [last])%list /\
    Forall2 gen_line gens (map (fun g => (fst g, gen_res (or_v r) (snd g))) (or_gens r) ++ map (fun s => (fst s, slack_res (or_v r) (snd s))) (or_slacks r)
      ++ match or_inf r with Some l => map (fun i => (fst i, inf_res (or_v r) (snd i))) l | None => [] end)%list /\
    Forall2 load_line loads (or_loads r) /\ last_line (or_violates r) last.
Proof.
  intros S N. unfold power_file. rewrite S. destruct (@rows_split _ load_row load_line (trailer r) (or_loads r)) as (loads & E & F); [intros l Hl; apply load_row_ok; auto|].
  destruct (trailer_split r) as [T L]. rewrite T in E.
  destruct (@rows_split _ (fun g => gen_row (fst g) (snd g)) gen_line (glue (map load_row (or_loads r)) ++ trailer r) (shown_gens r)) as (gens & E2 & F2); [intros g _; apply gen_row_ok|].
  exists gens, loads, (trailer r). split; [|split; [exact F2|split; [exact F|exact L]]].
  change (newline ++ ?x) with (String line_end x). rewrite split_app by (apply free_b; reflexivity). now rewrite E2, E.
Qed.
(** *** files *)
Lemma failed_files r : or_success r = false -> voltage_file r = "FAILURE" /\ power_file r = "FAILURE".
Proof. intros S. unfold voltage_file, power_file. now rewrite S. Qed.
Lemma string_inj s t : list_ascii_of_string s = list_ascii_of_string t -> s = t.
Proof. intros E. rewrite <- (string_of_list_ascii_of_string s), <- (string_of_list_ascii_of_string t). now rewrite E. Qed.
Lemma digit_inj d e : (d < 10)%nat -> (e < 10)%nat -> ascii_of_nat (48 + d) = ascii_of_nat (48 + e) -> d = e.
Proof. intros D E Q. apply (f_equal nat_of_ascii) in Q. rewrite !nat_ascii_embedding in Q by lia. lia. Qed.
Lemma digits_unique s n k : digits_of s n k -> forall m j, digits_of s m j -> n = m.
Proof.
  induction 1 as [|s n k d H IH D]; intros m j G.
  - inversion G as [|s' n' k' d' H' D' Q]; [reflexivity|]. apply (f_equal list_ascii_of_string) in Q. rewrite las_app in Q. now destruct (list_ascii_of_string s').
  - inversion G as [Q|s' n' k' d' H' D' Q].
    + apply (f_equal list_ascii_of_string) in Q. rewrite las_app in Q. now destruct (list_ascii_of_string s).
    + apply (f_equal list_ascii_of_string) in Q. rewrite !las_app in Q. cbn in Q. apply app_inj_tail in Q as [Q1 Q2]. apply string_inj in Q1. subst s'.
      rewrite (IH _ _ H'). apply (@digit_inj d' d) in Q2; [|lia|lia]. now subst.
Qed.
Lemma integer_unique s a b : integer s a -> integer s b -> a = b.
Proof.
  intros (t & n & k & D & H) (t' & n' & k' & D' & H').
  assert (M : forall s n k, digits_of s n k -> free "-" s).
  { apply digits_free. intros d L. do 10 (destruct d as [|d]; [discriminate|]). lia. }
  destruct H as [[-> ->]|[-> ->]], H' as [[Q ->]|[Q ->]].
  - subst t'. exact (digits_unique D D').
  - exfalso. apply (M _ _ _ D). rewrite Q. now left.
  - exfalso. apply (M _ _ _ D'). rewrite <- Q. now left.
  - injection Q as <-. f_equal. exact (digits_unique D D').
Qed.
Lemma cancel (p s t : string) : p ++ s = p ++ t -> s = t.
Proof. induction p; cbn; [auto|]. intros E. injection E as E. auto. Qed.
Definition voltages_at (path : string) : string := path ++ "_voltage.csv".
Definition powers_at (path : string) : string := path ++ "_power.csv".
Lemma name_inj p a b s t : free "_" s -> free "_" t -> (p ++ "_" ++ show_int a) ++ "_" ++ s = (p ++ "_" ++ show_int b) ++ "_" ++ t -> a = b /\ s = t.
Proof.
  intros S T E. rewrite !app_assoc_o in E. apply cancel in E. cbn [append] in E. injection E as E.
  assert (F : forall z, free "_" (show_int z)).
  { intros z. apply int_not; [|apply free_b; reflexivity]. intros d L. do 10 (destruct d as [|d]; [discriminate|]). lia. }
  apply (f_equal (split "_")) in E. rewrite !split_app in E by apply F. injection E as E1 E2. rewrite !split_none in E2 by assumption. injection E2 as E2. split; [|exact E2].
  apply (@integer_unique (show_int a)); [apply show_int_ok|rewrite E1; apply show_int_ok].
Qed.
Lemma other_suffix path : voltages_at path <> powers_at path.
Proof. intros E. apply cancel in E. discriminate. Qed.
Lemma output_writes path r d : path <> "" -> output path r d (voltages_at path) = Some (voltage_file r) /\ output path r d (powers_at path) = Some (power_file r) /\
  forall f, f <> voltages_at path -> f <> powers_at path -> output path r d f = d f.
Proof.
  intros P. unfold output. destruct (String.eqb_spec path ""); [contradiction|]. unfold write. fold (voltages_at path) (powers_at path). split; [|split].
  - destruct (String.eqb_spec (voltages_at path) (powers_at path)) as [E|_]; [now apply other_suffix in E|]. now rewrite String.eqb_refl.
  - now rewrite String.eqb_refl.
  - intros f F1 F2. destruct (String.eqb_spec f (powers_at path)); [contradiction|]. destruct (String.eqb_spec f (voltages_at path)); [contradiction|reflexivity].
Qed.
Lemma output_nothing r d : output "" r d = d. Proof. reflexivity. Qed.
Lemma hour_path p h : p ++ "_" ++ show_int h <> "". Proof. destruct p; discriminate. Qed.
Definition of_hour (p : string) (h : Z) : string := p ++ "_" ++ show_int h.
Lemma vp_inj p a b : voltages_at (of_hour p a) = voltages_at (of_hour p b) -> a = b.
Proof. intros E. apply (@name_inj p a b "voltage.csv" "voltage.csv") in E; [tauto|apply free_b; reflexivity|apply free_b; reflexivity]. Qed.
Lemma pp_inj p a b : powers_at (of_hour p a) = powers_at (of_hour p b) -> a = b.
Proof. intros E. apply (@name_inj p a b "power.csv" "power.csv") in E; [tauto|apply free_b; reflexivity|apply free_b; reflexivity]. Qed.
Lemma vp_pp p a b : voltages_at (of_hour p a) <> powers_at (of_hour p b).
Proof. intros E. apply (@name_inj p a b "voltage.csv" "power.csv") in E as [_ E]; [discriminate|apply free_b; reflexivity|apply free_b; reflexivity]. Qed.
Lemma series_frame p f rs : (forall h r, In (h, r) rs -> f <> voltages_at (of_hour p h) /\ f <> powers_at (of_hour p h)) -> forall d, output_series (Some p) rs d f = d f.
Proof.
  cbn [output_series]. induction rs as [|[h r] rs IH]; intros H d; [reflexivity|]. cbn [fold_left fst snd]. rewrite IH by (intros; eapply H; right; eassumption).
  destruct (H h r ltac:(now left)). fold (of_hour p h). destruct (@output_writes (of_hour p h) r d (hour_path p h)) as (_ & _ & O). now apply O.
Qed.
Lemma series_writes p rs d : NoDup (map fst rs) ->
  (forall h r, In (h, r) rs -> output_series (Some p) rs d (voltages_at (of_hour p h)) = Some (voltage_file r) /\ output_series (Some p) rs d (powers_at (of_hour p h)) = Some (power_file r)) /\
  (forall f, (forall h r, In (h, r) rs -> f <> voltages_at (of_hour p h) /\ f <> powers_at (of_hour p h)) -> output_series (Some p) rs d f = d f).
Proof.
  intros ND. split; [|intros f F; now apply series_frame]. revert d. induction rs as [|[h0 r0] rs IH]; intros d h r H; [destruct H|].
  cbn [map fst] in ND. apply NoDup_cons_iff in ND as [N ND]. change (output_series (Some p) ((h0, r0) :: rs) d) with (output_series (Some p) rs (output (of_hour p h0) r0 d)).
  destruct H as [E|H]; [|now apply IH]. injection E as -> ->. destruct (@output_writes (of_hour p h) r d (hour_path p h)) as (O1 & O2 & _).
  assert (X : forall h' r', In (h', r') rs -> h <> h') by (intros h' r' I ->; apply N; apply in_map_iff; now exists (h', r')).
  split; rewrite series_frame; try assumption; intros h' r' I; pose proof (X _ _ I) as Y; split; intros Q.
  - now apply vp_inj in Q.
  - now apply vp_pp in Q.
  - symmetry in Q. now apply vp_pp in Q.
  - now apply pp_inj in Q.
Qed.
