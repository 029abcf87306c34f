(** kron_reduction: eliminating the neutral currents. *)
From Coq Require Import Reals ZArith String Ascii List Bool Lia Lra Arith.
From Verif Require Import PyExc SpecComponents SpecUnbalanced Components UnbalancedLine GlmText LineImpedance SpecReader SpecLineZ.
Import ListNotations.
Local Open Scope R_scope.
Set Implicit Arguments.

(** *** complex numbers *)
Ltac cring := unfold Csub, Cadd, Cmul, Copp, C0; cbn [fst snd]; f_equal; ring.
Lemma Cpair : forall z : C, z = (fst z, snd z).
Proof. now intros []. Qed.
Lemma Cadd_comm : forall a b, Cadd a b = Cadd b a.
Proof. intros. cring. Qed.
Lemma Cadd_assoc : forall a b c, Cadd a (Cadd b c) = Cadd (Cadd a b) c.
Proof. intros. cring. Qed.
Lemma Cmul_assoc : forall a b c, Cmul a (Cmul b c) = Cmul (Cmul a b) c.
Proof. intros. cring. Qed.
Lemma Cadd_0 : forall a, Cadd C0 a = a.
Proof. intros []. cring. Qed.
Lemma Crecip_ok : forall z, z <> C0 -> Cmul (Crecip z) z = (1, 0).
Proof.
  intros [a b] H. assert (D : a * a + b * b <> 0).
  { intros D. apply H. unfold C0. assert (A : a * a = 0) by nra. assert (B : b * b = 0) by nra.
    apply Rmult_integral in A, B. f_equal; tauto. }
  unfold Crecip, Cmul. cbn [fst snd]. f_equal; field; exact D.
Qed.

(** *** sums *)
Definition lsum (h : nat -> C) (l : list nat) : C := fold_right (fun k acc => Cadd (h k) acc) C0 l.
Lemma Csum_lsum : forall h n, Csum h n = lsum h (seq 0 n).
Proof. reflexivity. Qed.
Lemma lsum_cons : forall h a l, lsum h (a :: l) = Cadd (h a) (lsum h l).
Proof. reflexivity. Qed.
Lemma lsum_ext : forall h g l, (forall k, In k l -> h k = g k) -> lsum h l = lsum g l.
Proof. induction l as [| a l IH]; intros H; [reflexivity |]. rewrite !lsum_cons, (H a), IH; [reflexivity | |]; intros; try apply H; cbn; tauto. Qed.
Lemma lsum_add : forall h g l, lsum (fun k => Cadd (h k) (g k)) l = Cadd (lsum h l) (lsum g l).
Proof. induction l as [| a l IH]; [cbn; cring |]. rewrite !lsum_cons, IH. cring. Qed.
Lemma lsum_mul : forall c h l, Cmul c (lsum h l) = lsum (fun k => Cmul c (h k)) l.
Proof. induction l as [| a l IH]; [cbn; cring |]. rewrite !lsum_cons, <- IH. cring. Qed.
Lemma lsum_mul_r : forall c h l, Cmul (lsum h l) c = lsum (fun k => Cmul (h k) c) l.
Proof. induction l as [| a l IH]; [cbn; cring |]. rewrite !lsum_cons, <- IH. cring. Qed.
Lemma lsum_zero : forall l, lsum (fun _ => C0) l = C0.
Proof. induction l as [| a l IH]; [reflexivity |]. rewrite lsum_cons, IH. cring. Qed.
Lemma lsum_swap : forall (h : nat -> nat -> C) l m, lsum (fun i => lsum (h i) m) l = lsum (fun j => lsum (fun i => h i j) l) m.
Proof.
  induction l as [| a l IH]; intros m.
  - symmetry. apply lsum_zero.
  - rewrite lsum_cons, IH, <- lsum_add. reflexivity.
Qed.
Lemma lsum_opp : forall h l, lsum (fun k => Copp (h k)) l = Copp (lsum h l).
Proof. induction l as [| a l IH]; [cbn; cring |]. rewrite !lsum_cons, IH. cring. Qed.

(** *** finite matrices *)
Lemma xsum_ok : forall g h l, (forall k, In k l -> g k = Some (h k)) -> fold_right xadd c0 (map g l) = Some (lsum h l).
Proof.
  induction l as [| a l IH]; intros H; [reflexivity |]. cbn. rewrite IH by (intros; apply H; cbn; tauto).
  rewrite (H a) by (cbn; tauto). reflexivity.
Qed.
Lemma holds_entry : forall r c m f i j, holds r c m f -> (i < r)%nat -> (j < c)%nat -> entry m i j = Some (f i j).
Proof.
  intros r c m f i j (_ & H) Hi Hj. destruct (H i Hi) as (_ & H'). unfold entry.
  apply nth_error_nth. now apply H'.
Qed.
Lemma holds_row : forall r c m f row i, holds r c m f -> nth_error m i = Some row -> (i < r)%nat /\
  List.length row = c /\ forall j, (j < c)%nat -> nth_error row j = Some (Some (f i j)).
Proof.
  intros r c m f row i (L & H) N. assert (Hi : (i < r)%nat) by (rewrite <- L; apply nth_error_Some; congruence).
  split; [exact Hi |]. rewrite <- (nth_error_nth m i [] N). now apply H.
Qed.
(** a matrix given by its rows *)
Lemma holds_intro : forall r c m f, List.length m = r ->
  (forall i row, nth_error m i = Some row -> List.length row = c /\ forall j, (j < c)%nat -> nth_error row j = Some (Some (f i j))) -> holds r c m f.
Proof.
  intros r c m f L H. split; [exact L |]. intros i Hi. apply H. apply nth_error_nth'. rewrite <- L in Hi. exact Hi.
Qed.
Lemma seq_nth_error : forall n j, (j < n)%nat -> nth_error (seq 0 n) j = Some j.
Proof. intros n j H. rewrite (nth_error_nth' _ 0%nat) by now rewrite seq_length. now rewrite seq_nth. Qed.
Lemma mat_mul_holds : forall a b c x y f g, (0 < b)%nat -> holds a b x f -> holds b c y g ->
  holds a c (mat_mul x y) (fun i j => Csum (fun k => Cmul (f i k) (g k j)) b).
Proof.
  intros a b c x y f g Hb Hx Hy. pose proof (proj1 Hx) as Lx. pose proof (proj1 Hy) as Ly.
  assert (Lc : List.length (hd [] y) = c).
  { destruct y as [| row y]; [cbn in Ly; lia |]. exact (proj1 (proj2 Hy 0%nat Hb)). }
  apply holds_intro; [unfold mat_mul; now rewrite map_length |].
  intros i row N. unfold mat_mul in N. rewrite nth_error_map in N. destruct (nth_error x i) as [rx |] eqn:Nx; [| discriminate].
  injection N as <-. destruct (holds_row _ Hx Nx) as (Hi & Lr & Hr).
  split; [now rewrite map_length, seq_length |]. intros j Hj.
  rewrite Lc, nth_error_map, seq_nth_error by exact Hj. cbn [option_map]. f_equal.
  rewrite Ly. apply xsum_ok with (h := fun k => Cmul (f i k) (g k j)). intros k Hk. apply in_seq in Hk.
  rewrite (nth_error_nth rx k c0 (Hr k ltac:(lia))). rewrite (holds_entry Hy) by lia. reflexivity.
Qed.
Lemma map2_nth : forall A B D (h : A -> B -> D) l m i, nth_error (map2 h l m) i =
  match nth_error l i, nth_error m i with Some a, Some b => Some (h a b) | _, _ => None end.
Proof.
  induction l as [| x l IH]; intros m i; [now destruct i |].
  destruct m as [| y m]; [cbn; destruct i; [reflexivity | cbn; now destruct (nth_error l i)] |].
  destruct i; [reflexivity |]. cbn [map2 nth_error]. apply IH.
Qed.
Lemma map2_length : forall A B D (h : A -> B -> D) l m, List.length l = List.length m -> List.length (map2 h l m) = List.length l.
Proof. induction l as [| x l IH]; intros [| y m] H; cbn in *; try lia. rewrite IH; lia. Qed.
Lemma mat_sub_holds : forall a c x y f g, holds a c x f -> holds a c y g -> holds a c (mat_sub x y) (fun i j => Csub (f i j) (g i j)).
Proof.
  intros a c x y f g Hx Hy. pose proof (proj1 Hx) as Lx. pose proof (proj1 Hy) as Ly.
  apply holds_intro; [unfold mat_sub; rewrite map2_length; congruence |].
  intros i row N. unfold mat_sub in N. rewrite map2_nth in N.
  destruct (nth_error x i) as [rx |] eqn:Nx; [| discriminate]. destruct (nth_error y i) as [ry |] eqn:Ny; [| discriminate].
  injection N as <-. destruct (holds_row _ Hx Nx) as (Hi & Lrx & Hrx). destruct (holds_row _ Hy Ny) as (_ & Lry & Hry).
  split; [rewrite map2_length; congruence |]. intros j Hj. now rewrite map2_nth, (Hrx j Hj), (Hry j Hj).
Qed.

(** *** Kron reduction *)
Lemma kron_holds : forall E a b zij zin znj znn y fij fin fnj fy k,
  (0 < b)%nat -> holds a a zij fij -> holds a b zin fin -> holds b a znj fnj -> p_inv E znn = Some y -> holds b b y fy ->
  kron E zij zin znj znn = Ok k ->
  holds a a k (fun i j => Csub (fij i j) (Csum (fun n => Cmul (Csum (fun m => Cmul (fin i m) (fy m n)) b) (fnj n j)) b)).
Proof.
  intros E a b zij zin znj znn y fij fin fnj fy k Hb Hij Hin Hnj P Hy K. unfold kron in K. rewrite P in K. injection K as <-.
  apply mat_sub_holds; [exact Hij |]. apply mat_mul_holds; [exact Hb | | exact Hnj]. now apply mat_mul_holds.
Qed.
Lemma times_comp : forall b c f g v i,
  times c (fun i j => Csum (fun n => Cmul (f i n) (g n j)) b) v i = times b f (times c g v) i.
Proof.
  intros b c f g v i. unfold times. rewrite !Csum_lsum.
  rewrite (lsum_ext _ (fun j => lsum (fun n => Cmul (f i n) (Cmul (g n j) (v j))) (seq 0 b))).
  - rewrite lsum_swap. apply lsum_ext. intros n _. rewrite !Csum_lsum. symmetry. apply lsum_mul.
  - intros j _. rewrite !Csum_lsum, lsum_mul_r. apply lsum_ext. intros n _. now rewrite Cmul_assoc.
Qed.
Lemma times_sub : forall c f g v i, times c (fun i j => Csub (f i j) (g i j)) v i = Csub (times c f v i) (times c g v i).
Proof.
  intros c f g v i. unfold times. rewrite !Csum_lsum.
  rewrite (lsum_ext _ (fun j => Cadd (Cmul (f i j) (v j)) (Copp (Cmul (g i j) (v j))))).
  - rewrite lsum_add, lsum_opp. cring.
  - intros j _. cring.
Qed.
Lemma times_ext : forall c f v w i, (forall j, (j < c)%nat -> v j = w j) -> times c f v i = times c f w i.
Proof. intros c f v w i H. unfold times. rewrite !Csum_lsum. apply lsum_ext. intros j Hj. apply in_seq in Hj. rewrite H by lia. reflexivity. Qed.
Lemma times_opp : forall c f v i, times c f (fun j => Copp (v j)) i = Copp (times c f v i).
Proof. intros c f v i. unfold times. rewrite !Csum_lsum, <- lsum_opp. apply lsum_ext. intros. cring. Qed.
Lemma kron_law : forall E a b zij zin znj znn y fij fin fnj fnn fy k,
  (0 < b)%nat -> holds a a zij fij -> holds a b zin fin -> holds b a znj fnj -> holds b b znn fnn ->
  p_inv E znn = Some y -> holds b b y fy -> left_inverse b fy fnn -> kron E zij zin znj znn = Ok k ->
  exists fk, holds a a k fk /\ forall ia inn,
    (forall n, (n < b)%nat -> Cadd (times a fnj ia n) (times b fnn inn n) = C0) ->
    forall i, (i < a)%nat -> Cadd (times a fij ia i) (times b fin inn i) = times a fk ia i.
Proof.
  intros E a b zij zin znj znn y fij fin fnj fnn fy k Hb Hij Hin Hnj Hnn P Hy L K.
  eexists. split; [eapply kron_holds; eassumption |].
  intros ia inn H i Hi. rewrite times_sub.
  rewrite (times_comp b a (fun i n => Csum (fun m => Cmul (fin i m) (fy m n)) b) fnj), times_comp.
  assert (X : forall n, (n < b)%nat -> times b fy (times a fnj ia) n = Copp (inn n)).
  { intros n Hn. rewrite (times_ext fy _ (fun m => Copp (times b fnn inn m))).
    - rewrite times_opp, L by exact Hn. reflexivity.
    - intros m Hm. specialize (H m Hm). revert H. generalize (times a fnj ia m), (times b fnn inn m). intros [u1 u2] [w1 w2] H.
      unfold Cadd, C0 in H. cbn [fst snd] in H. injection H; intros. unfold Copp. cbn [fst snd]. f_equal; lra. }
  rewrite (times_ext fin _ (fun n => Copp (inn n)) i X), times_opp. cring.
Qed.
