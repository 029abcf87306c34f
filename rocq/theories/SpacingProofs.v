(** The distances read from a spacing object, compute_overhead_spacing and read.py:940. *)
From Coq Require Import Reals ZArith String Ascii List Bool Lia Lra Arith.
From Verif Require Import PyExc SpecComponents SpecUnbalanced Components UnbalancedLine GlmText LineImpedance ThreePhase GlmReader SpecReader
  SpecLineZ ReaderBase ReaderFrame KronProofs CarsonProofs.
Import ListNotations.
Local Open Scope R_scope.
Set Implicit Arguments.

(** *** the table *)
Definition five (d : dmat) : Prop := List.length d = 5%nat /\ forall i, (i < 5)%nat -> List.length (nth i d []) = 5%nat.
Lemma five_none : five no_dist.
Proof. split; [reflexivity |]. intros i H. destruct i as [| [| [| [| [| i]]]]]; try lia; reflexivity. Qed.
Lemma at_none : forall i j, at2 no_dist i j = -1.
Proof.
  intros i j. unfold at2, no_dist. destruct i as [| [| [| [| [| i]]]]]; destruct j as [| [| [| [| [| j]]]]]; cbn; try reflexivity;
  repeat match goal with |- context [match ?n with _ => _ end] => destruct n; try reflexivity end.
Qed.
Lemma five_put2 : forall d i j x, five d -> (i < 5)%nat -> five (put2 d i j x).
Proof.
  intros d i j x (L & H) Hi. unfold put2. split; [now rewrite upd_length |]. intros k Hk. rewrite nth_upd by lia.
  destruct (Nat.eqb_spec k i); [rewrite upd_length; auto | auto].
Qed.
Lemma at_put2 : forall d i j x i' j', five d -> (i < 5)%nat -> (j < 5)%nat ->
  at2 (put2 d i j x) i' j' = if (Nat.eqb i' i && Nat.eqb j' j)%bool then x else at2 d i' j'.
Proof.
  intros d i j x i' j' (L & H) Hi Hj. unfold at2, put2. rewrite nth_upd by lia.
  destruct (Nat.eqb_spec i' i) as [-> |]; cbn [andb]; [| reflexivity]. apply nth_upd. now rewrite H.
Qed.
Lemma five_pair : forall d i j x, five d -> (i < 5)%nat -> (j < 5)%nat -> five (put_pair d i j x).
Proof. intros. unfold put_pair. auto using five_put2. Qed.
Lemma at_pair : forall d i j x i' j', five d -> (i < j)%nat -> (j < 5)%nat ->
  at2 (put_pair d i j x) i' j' =
  if Nat.eqb i' j' then (if (Nat.eqb i' i || Nat.eqb i' j)%bool then 0 else at2 d i' j')
  else if ((Nat.eqb i' i && Nat.eqb j' j) || (Nat.eqb i' j && Nat.eqb j' i))%bool then x else at2 d i' j'.
Proof.
  intros d i j x i' j' F Hij Hj. unfold put_pair.
  rewrite !at_put2 by (repeat apply five_put2; try assumption; lia).
  destruct (Nat.eqb_spec i' j') as [<- |]; destruct (Nat.eqb_spec i' i), (Nat.eqb_spec i' j); try destruct (Nat.eqb_spec j' i); try destruct (Nat.eqb_spec j' j); subst; cbn; try reflexivity; try lia; congruence.
Qed.

(** *** the loop *)
Lemma pair_dec : forall u v : nat * nat, {u = v} + {u <> v}.
Proof. decide equality; apply Nat.eq_dec. Qed.
Section Loop.
Variable E : prims.
Variable o : gobj.
(** what the object gives for one pair *)
Definition given (ij : nat * nat) : option R :=
  match gattr o (dname (fst ij) (snd ij)) with
  | Some t => match p_float E (digits t) with Some x => if reqb x 0 then None else Some x | None => None end
  | None => None
  end.
Definition pair_ok (ij : nat * nat) : Prop := (fst ij < snd ij)%nat /\ (snd ij < 5)%nat.
Definition put_given (d : dmat) (ij : nat * nat) : dmat := match given ij with Some x => put_pair d (fst ij) (snd ij) x | None => d end.
Lemma dname_inj : forall a b, In a pairs5 -> In b pairs5 -> dname (fst a) (snd a) = dname (fst b) (snd b) -> a = b.
Proof.
  intros a b Ha Hb. unfold pairs5 in Ha, Hb. cbn in Ha, Hb.
  repeat (destruct Ha as [<- | Ha]; [repeat (destruct Hb as [<- | Hb]; [cbn; intros X; first [reflexivity | discriminate X] |]); destruct Hb |]). destruct Ha.
Qed.
Lemma loop_given : forall l o' d mx s, NoDup l -> incl l pairs5 ->
  (forall ij, In ij l -> gattr o' (dname (fst ij) (snd ij)) = gattr o (dname (fst ij) (snd ij))) ->
  mfold (oh_pair E) l (o', d, mx) = Ok s -> snd (fst s) = fold_left put_given l d.
Proof.
  induction l as [| [i j] l IH]; intros o' d mx s N I H R.
  - injection R as <-. reflexivity.
  - inversion N as [| ? ? N1 N2]; subst. cbn [mfold] in R. apply bind_ok in R. destruct R as ([[o2 d2] mx2] & R1 & R).
    assert (S : d2 = put_given d (i, j) /\ forall ij, In ij l -> gattr o2 (dname (fst ij) (snd ij)) = gattr o (dname (fst ij) (snd ij))).
    { unfold oh_pair in R1. pose proof (H (i, j) ltac:(cbn; tauto)) as G. cbn [fst snd] in G. unfold put_given, given. cbn [fst snd].
      unfold gattr in G at 1. destruct (dget (dname i j) (go_attrs o')) as [t |] eqn:D.
      - rewrite <- G. apply bind_ok in R1. destruct R1 as (x & Fx & R1). apply fl_ok in Fx. rewrite Fx.
        assert (K : forall ij, In ij l -> gattr (gset_raw o' (dname i j) (digits t)) (dname (fst ij) (snd ij)) = gattr o (dname (fst ij) (snd ij))).
        { intros ij Hij. rewrite gattr_set. destruct (String.eqb_spec (dname (fst ij) (snd ij)) (dname i j)) as [e |].
          - exfalso. apply (@dname_inj ij (i, j)) in e; [subst; contradiction | apply I; cbn; tauto | apply I; cbn; tauto].
          - apply H. cbn. tauto. }
        destruct (reqb x 0); injection R1 as <- <- <-; auto.
      - rewrite <- G. injection R1 as <- <- <-. split; [reflexivity |]. intros ij Hij. apply H. cbn. tauto. }
    destruct S as (-> & S). cbn [fold_left]. apply (IH o2 (put_given d (i, j)) mx2 s N2); [| exact S | exact R].
    intros ij Hij. apply I. cbn. tauto.
Qed.
Lemma fold_five : forall l d, Forall pair_ok l -> five d -> five (fold_left put_given l d).
Proof.
  intros l d H. revert d. induction H as [| [i j] l [Hi Hj] H IH]; intros d F; [exact F |]. cbn [fold_left]. apply IH.
  unfold put_given. destruct (given (i, j)); [| exact F]. cbn in *. apply five_pair; [exact F | lia | lia].
Qed.
Lemma fold_off : forall l d i j, Forall pair_ok l -> five d -> (i < j)%nat ->
  let d' := fold_left put_given l d in
  (forall x, In (i, j) l -> given (i, j) = Some x -> at2 d' i j = x /\ at2 d' j i = x) /\
  (given (i, j) = None \/ ~ In (i, j) l -> at2 d' i j = at2 d i j /\ at2 d' j i = at2 d j i).
Proof.
  intros l d i j H. revert d. induction H as [| [a b] l [Ha Hb] H IH]; intros d F Hij; cbn [fold_left].
  - split; [cbn; tauto | auto].
  - cbn [fst snd] in *. assert (F' : five (put_given d (a, b))).
    { unfold put_given. destruct (given (a, b)); [| exact F]. cbn. apply five_pair; [exact F | lia | lia]. }
    destruct (IH (put_given d (a, b)) F' Hij) as (H1 & H2).
    assert (At : forall x, given (a, b) = Some x -> (a, b) = (i, j) -> at2 (put_given d (a, b)) i j = x /\ at2 (put_given d (a, b)) j i = x).
    { intros x G X. injection X as -> ->. unfold put_given. rewrite G. cbn [fst snd]. rewrite !at_pair by assumption.
      destruct (Nat.eqb_spec i j); [lia |]. destruct (Nat.eqb_spec j i); [lia |]. rewrite !Nat.eqb_refl. cbn. rewrite ?orb_true_r, ?andb_false_r; cbn; auto. }
    assert (Ne : (a, b) <> (i, j) \/ given (a, b) = None -> at2 (put_given d (a, b)) i j = at2 d i j /\ at2 (put_given d (a, b)) j i = at2 d j i).
    { intros X. unfold put_given. destruct (given (a, b)) as [x |]; [| auto]. destruct X as [X |]; [| discriminate]. cbn [fst snd]. rewrite !at_pair by assumption.
      destruct (Nat.eqb_spec i j); [lia |]. destruct (Nat.eqb_spec j i); [lia |].
      destruct (Nat.eqb_spec i a), (Nat.eqb_spec j b), (Nat.eqb_spec i b), (Nat.eqb_spec j a); subst; cbn; auto; try congruence; lia. }
    assert (Dec : (a, b) = (i, j) \/ (a, b) <> (i, j)) by (destruct (Nat.eq_dec a i), (Nat.eq_dec b j); subst; auto; right; congruence).
    split.
    + intros x I G. destruct (in_dec pair_dec (i, j) l) as [Il | Il].
      * now apply H1.
      * destruct I as [X | I]; [| contradiction]. destruct (H2 (or_intror Il)) as (-> & ->). apply At; [now rewrite X | exact X].
    + intros X. destruct (H2) as (-> & ->); [destruct X; [now left | right; cbn in *; tauto] |].
      apply Ne. destruct X as [X | X]; [| left; intros Y; apply X; cbn; tauto].
      destruct Dec as [D | D]; [right; now rewrite D | now left].
Qed.
Lemma fold_diag : forall l d i, Forall pair_ok l -> five d ->
  let d' := fold_left put_given l d in
  ((exists ab x, In ab l /\ given ab = Some x /\ (fst ab = i \/ snd ab = i)) -> at2 d' i i = 0) /\
  ((forall ab x, In ab l -> given ab = Some x -> fst ab <> i /\ snd ab <> i) -> at2 d' i i = at2 d i i).
Proof.
  intros l d i H. revert d. induction H as [| [a b] l [Ha Hb] H IH]; intros d F; cbn [fold_left].
  - split; [intros (ab & x & [] & _) | reflexivity].
  - cbn [fst snd] in *. assert (F' : five (put_given d (a, b))).
    { unfold put_given. destruct (given (a, b)); [| exact F]. cbn. apply five_pair; [exact F | lia | lia]. }
    destruct (IH (put_given d (a, b)) F') as (H1 & H2).
    assert (Keep : at2 (put_given d (a, b)) i i = 0 -> at2 (fold_left put_given l (put_given d (a, b))) i i = 0).
    { clear -H Ha Hb F'. revert F'. generalize (put_given d (a, b)) as e. induction H as [| [u v] l [Hu Hv] H IH]; intros e Fe Z; [exact Z |].
      cbn [fold_left fst snd] in *. apply IH.
      - unfold put_given. destruct (given (u, v)); [| exact Fe]. cbn. apply five_pair; [exact Fe | lia | lia].
      - unfold put_given. destruct (given (u, v)); [| exact Z]. cbn [fst snd]. rewrite at_pair by assumption. rewrite Nat.eqb_refl.
        destruct (Nat.eqb i u || Nat.eqb i v)%bool; [reflexivity | exact Z]. }
    split.
    + intros (ab & x & [<- | I] & G & W).
      * apply Keep. unfold put_given. rewrite G. cbn [fst snd] in *. rewrite at_pair by assumption. rewrite Nat.eqb_refl.
        destruct W as [<- | <-]; rewrite Nat.eqb_refl, ?orb_true_r; reflexivity.
      * apply H1. eauto.
    + intros X. rewrite H2 by (intros ab x I; apply X; cbn; tauto).
      unfold put_given. destruct (given (a, b)) as [x |] eqn:G; [| reflexivity]. cbn [fst snd]. rewrite at_pair by assumption. rewrite Nat.eqb_refl.
      destruct (X (a, b) x ltac:(cbn; tauto) G) as (X1 & X2). cbn in X1, X2.
      destruct (Nat.eqb_spec i a), (Nat.eqb_spec i b); subst; cbn; try reflexivity; congruence.
Qed.

(** *** the whole table *)
Lemma pairs_ok : Forall pair_ok pairs5.
Proof. apply Forall_forall. intros [i j] H. unfold pairs5 in H. cbn in H. unfold pair_ok. cbn. repeat (destruct H as [X | H]; [injection X; lia |]). destruct H. Qed.
Lemma pairs_all : forall i j, (i < j)%nat -> (j < 5)%nat -> In (i, j) pairs5.
Proof. intros i j H1 H2. destruct i as [| [| [| [| i]]]]; destruct j as [| [| [| [| [| j]]]]]; try lia; cbn; tauto. Qed.
Lemma pairs_nodup : NoDup pairs5.
Proof. unfold pairs5. cbn. repeat constructor; cbn; intuition discriminate. Qed.
Definition touched (i : nat) : bool :=
  existsb (fun ab => (Nat.eqb (fst ab) i || Nat.eqb (snd ab) i) && match given ab with Some _ => true | None => false end)%bool pairs5.
Lemma touched_iff : forall i, touched i = true <-> exists ab x, In ab pairs5 /\ given ab = Some x /\ (fst ab = i \/ snd ab = i).
Proof.
  intros i. unfold touched. rewrite existsb_exists. split.
  - intros (ab & I & H). apply andb_prop in H. destruct H as (H1 & H2). apply orb_prop in H1. rewrite !Nat.eqb_eq in H1.
    destruct (given ab) as [x |] eqn:G; [| discriminate]. exists ab, x. tauto.
  - intros (ab & x & I & G & H). exists ab. split; [exact I |]. rewrite G, andb_true_r. apply orb_true_iff. rewrite !Nat.eqb_eq. exact H.
Qed.
Lemma given_nonzero : forall ij x, given ij = Some x -> x <> 0.
Proof.
  intros ij x. unfold given. destruct (gattr o (dname (fst ij) (snd ij))); [| discriminate]. destruct (p_float E (digits s)); [| discriminate].
  unfold reqb. destruct (Req_EM_T r 0); [discriminate |]. intros X. injection X as <-. exact n.
Qed.
Definition table5 : dmat := fold_left put_given pairs5 no_dist.
Lemma table_off : forall i j, (i < j)%nat -> (j < 5)%nat ->
  let x := match given (i, j) with Some x => x | None => -1 end in at2 table5 i j = x /\ at2 table5 j i = x.
Proof.
  intros i j H1 H2. destruct (fold_off (i := i) (j := j) pairs_ok five_none H1) as (A & B). unfold table5.
  destruct (given (i, j)) as [x |] eqn:G; cbn zeta.
  - apply A; [now apply pairs_all | reflexivity].
  - destruct (B (or_introl eq_refl)) as (-> & ->). now rewrite !at_none.
Qed.
Lemma table_diag : forall i, at2 table5 i i = if touched i then 0 else -1.
Proof.
  intros i. destruct (fold_diag i pairs_ok five_none) as (A & B). unfold table5. destruct (touched i) eqn:T.
  - apply A. now apply touched_iff.
  - rewrite B; [apply at_none |]. intros ab x I G. split; intros X; (assert (W : touched i = true) by (apply touched_iff; exists ab, x; tauto)); congruence.
Qed.
Lemma touched_lt : forall i, touched i = true -> (i < 5)%nat.
Proof.
  intros i H. apply touched_iff in H. destruct H as (ab & x & I & _ & H). pose proof (proj1 (Forall_forall _ _) pairs_ok ab I) as (P1 & P2). lia.
Qed.
Lemma reqb_iff : forall x y, reqb x y = true <-> x = y.
Proof. intros x y. unfold reqb. destruct (Req_EM_T x y); split; congruence. Qed.
Lemma zero_at : forall i j, (i < 5)%nat -> (j < 5)%nat -> (at2 table5 i j = 0 <-> i = j /\ touched i = true).
Proof.
  intros i j Hi Hj. destruct (lt_eq_lt_dec i j) as [[H | <-] | H].
  - destruct (table_off H Hj) as (-> & _). split; [| lia]. destruct (given (i, j)) eqn:G; intros X; [destruct (given_nonzero _ G X) | lra].
  - rewrite table_diag. destruct (touched i); split; try tauto; [intros; lra | intros [_ X]; discriminate].
  - destruct (table_off H Hi) as (_ & ->). split; [| lia]. destruct (given (j, i)) eqn:G; intros X; [destruct (given_nonzero _ G X) | lra].
Qed.
Lemma table_len : List.length table5 = 5%nat.
Proof. apply (fold_five pairs_ok five_none). Qed.
Lemma strip_table : strip_dist table5 = map (fun i => map (at2 table5 i) (filter touched (seq 0 5))) (filter touched (seq 0 5)).
Proof.
  unfold strip_dist. rewrite table_len.
  assert (R : filter (fun i => existsb (fun j => reqb (at2 table5 i j) 0) (seq 0 5)) (seq 0 5) = filter touched (seq 0 5)).
  { apply filter_ext_in. intros i Hi. apply in_seq in Hi. apply eq_true_iff_eq. rewrite existsb_exists. split.
    - intros (j & Hj & Z). apply in_seq in Hj. apply reqb_iff in Z. apply zero_at in Z; [tauto | lia | lia].
    - intros T. exists i. split; [apply in_seq; lia |]. apply reqb_iff, zero_at; [lia | lia | tauto]. }
  assert (Cc : filter (fun j => existsb (fun i => reqb (at2 table5 i j) 0) (seq 0 5)) (seq 0 5) = filter touched (seq 0 5)).
  { apply filter_ext_in. intros j Hj. apply in_seq in Hj. apply eq_true_iff_eq. rewrite existsb_exists. split.
    - intros (i & Hi & Z). apply in_seq in Hi. apply reqb_iff in Z. apply zero_at in Z; [destruct Z as [-> Z]; exact Z | lia | lia].
    - intros T. exists j. split; [apply in_seq; lia |]. apply reqb_iff, zero_at; [lia | lia | tauto]. }
  cbv zeta. now rewrite R, Cc.
Qed.

(** *** in terms of what the object says *)
Definition spot (i : nat) : string := nth i spots ""%string.
Lemma before_iff : forall p q, before p q <-> exists i j, (i < j)%nat /\ (j < 5)%nat /\ p = spot i /\ q = spot j.
Proof.
  intros p q. split.
  - intros (l & m & r & H). exists (List.length l), (List.length l + S (List.length m))%nat. unfold spot. rewrite H.
    assert (L : List.length spots = 5%nat) by reflexivity. rewrite H, !app_length in L. cbn in L. rewrite app_length in L. cbn in L.
    repeat split; try lia.
    + now rewrite nth_middle.
    + rewrite app_nth2 by lia. replace (List.length l + S (List.length m) - List.length l)%nat with (S (List.length m)) by lia. cbn. now rewrite nth_middle.
  - intros (i & j & H1 & H2 & -> & ->). exists (firstn i spots), (firstn (j - S i) (skipn (S i) spots)), (skipn (S j) spots).
    destruct i as [| [| [| [| i]]]]; destruct j as [| [| [| [| [| j]]]]]; try lia; reflexivity.
Qed.
Lemma spot_inj : forall i j, (i < 5)%nat -> (j < 5)%nat -> spot i = spot j -> i = j.
Proof. intros i j Hi Hj. destruct i as [| [| [| [| [| i]]]]]; destruct j as [| [| [| [| [| j]]]]]; try lia; unfold spot; cbn; intros X; (reflexivity || discriminate X). Qed.
Lemma apart_iff : forall i j x, (i < 5)%nat -> (j < 5)%nat -> (apart E o (spot i) (spot j) x <-> (i < j)%nat /\ given (i, j) = Some x).
Proof.
  intros i j x Hi Hj. unfold apart. rewrite before_iff. unfold given. cbn [fst snd].
  change (dname i j) with ("distance_" ++ spot i ++ spot j)%string. split.
  - intros ((i' & j' & H1 & H2 & E1 & E2) & t & t' & S & N & F & Z).
    apply spot_inj in E1; [| lia | lia]. apply spot_inj in E2; [| lia | lia]. subst i' j'. split; [exact H1 |].
    apply gattr_says in S. rewrite S. apply only_number_digits in N. subst t'. rewrite F. destruct (reqb x 0) eqn:Q; [| reflexivity].
    apply reqb_iff in Q. contradiction.
  - intros (H & G). split; [exists i, j; auto |].
    destruct (gattr o ("distance_" ++ spot i ++ spot j)) as [t |] eqn:A; [| discriminate].
    destruct (p_float E (digits t)) as [y |] eqn:F; [| discriminate].
    destruct (reqb y 0) eqn:Q; [discriminate |]. injection G as ->.
    exists t, (digits t). split; [now apply gattr_says |]. split; [apply only_digits |]. split; [exact F |].
    intros X. apply reqb_iff in X. congruence.
Qed.
Lemma gap_iff : forall i j x, (i < j)%nat -> (j < 5)%nat -> (gap E o (spot i) (spot j) x <-> given (i, j) = Some x).
Proof. intros i j x H1 H2. unfold gap. rewrite !apart_iff by lia. split; [intros [[_ H] | [H _]]; [exact H | lia] | intros H; left; auto]. Qed.
Lemma gap_sym : forall p q x, gap E o p q x <-> gap E o q p x.
Proof. intros. unfold gap. tauto. Qed.
Lemma gap_spots : forall p q x, gap E o p q x -> exists i j, (i < 5)%nat /\ (j < 5)%nat /\ i <> j /\ p = spot i /\ q = spot j.
Proof.
  intros p q x [(B & _) | (B & _)]; apply before_iff in B; destruct B as (i & j & H1 & H2 & -> & ->); [exists i, j | exists j, i]; repeat split; lia.
Qed.
Lemma placed_iff : forall i, (i < 5)%nat -> (placed E o (spot i) <-> touched i = true).
Proof.
  intros i Hi. rewrite touched_iff. split.
  - intros (q & x & G). destruct (gap_spots G) as (i' & j & H1 & H2 & H3 & E1 & ->). apply spot_inj in E1; [| lia | lia]. subst i'.
    destruct (lt_eq_lt_dec i j) as [[L | L] | L]; [| lia |].
    + exists (i, j), x. split; [now apply pairs_all |]. split; [apply gap_iff; auto | auto].
    + exists (j, i), x. split; [now apply pairs_all |]. split; [apply gap_iff; [exact L | lia | now apply gap_sym] | auto].
  - intros ([a b] & x & I & G & W). pose proof (proj1 (Forall_forall _ _) pairs_ok _ I) as (P1 & P2). cbn in *.
    destruct W as [-> | ->]; [exists (spot b), x; apply gap_iff; assumption | exists (spot a), x; apply gap_sym, gap_iff; assumption].
Qed.
Lemma strip_tabled : tabled E o (map spot (filter touched (seq 0 5))) (strip_dist table5).
Proof.
  rewrite strip_table. set (T := filter touched (seq 0 5)). split; [now rewrite !map_length |].
  intros i p Hp. rewrite nth_error_map in Hp. destruct (nth_error T i) as [a |] eqn:Na; [| discriminate]. injection Hp as <-.
  exists (map (at2 table5 a) T). split; [rewrite nth_error_map, Na; reflexivity |]. split; [now rewrite !map_length |].
  intros j q Hq. rewrite nth_error_map in Hq. destruct (nth_error T j) as [b |] eqn:Nb; [| discriminate]. injection Hq as <-.
  exists (at2 table5 a b). split; [rewrite nth_error_map, Nb; reflexivity |].
  apply nth_error_In, filter_In in Na, Nb. destruct Na as (Ha & Ta). destruct Nb as (Hb & Tb). apply in_seq in Ha, Hb.
  split; [| split].
  - intros X. apply spot_inj in X; [| lia | lia]. subst b. rewrite table_diag, Ta. reflexivity.
  - intros y X G. assert (a <> b) by congruence. destruct (lt_eq_lt_dec a b) as [[L | L] | L]; [| lia |].
    + apply gap_iff in G; [| lia | lia]. destruct (table_off L) as (-> & _); [lia |]. now rewrite G.
    + apply gap_sym, gap_iff in G; [| lia | lia]. destruct (table_off L) as (_ & ->); [lia |]. now rewrite G.
  - intros X N. assert (a <> b) by congruence. destruct (lt_eq_lt_dec a b) as [[L | L] | L]; [| lia |].
    + destruct (table_off L) as (-> & _); [lia |]. destruct (given (a, b)) as [y |] eqn:G; [| reflexivity].
      exfalso. apply (N y). apply gap_iff; [lia | lia | exact G].
    + destruct (table_off L) as (_ & ->); [lia |]. destruct (given (b, a)) as [y |] eqn:G; [| reflexivity].
      exfalso. apply (N y). apply gap_sym, gap_iff; [lia | lia | exact G].
Qed.
End Loop.

Lemma spacing_table : forall E o phases o' d, overhead_spacing E o phases = Ok (o', d) -> d = table5 E o.
Proof.
  intros E o phases o' d H. unfold overhead_spacing in H. apply bind_ok in H. destruct H as ([[o2 d2] mx] & R & H).
  apply bind_ok in H. destruct H as (u & _ & H). injection H as <- <-.
  apply (@loop_given E o) in R; [exact R | exact pairs_nodup | apply incl_refl | reflexivity].
Qed.
Lemma spacing_ok : forall E o phases o' d, overhead_spacing E o phases = Ok (o', d) ->
  exists l, places E o l /\ tabled E o l (strip_dist d).
Proof.
  intros E o phases o' d H. apply spacing_table in H. subst d. exists (map spot (filter (touched E o) (seq 0 5))).
  split; [| apply strip_tabled].
  exists (fun p => touched E o (if String.eqb p "A" then 0 else if String.eqb p "B" then 1 else if String.eqb p "C" then 2 else if String.eqb p "N" then 3 else 4))%nat.
  split.
  - intros p Hp. cbn in Hp. destruct Hp as [<- | [<- | [<- | [<- | [<- | []]]]]]; cbn [String.eqb Ascii.eqb Bool.eqb];
    symmetry; [apply (placed_iff E o (i := 0)) | apply (placed_iff E o (i := 1)) | apply (placed_iff E o (i := 2)) | apply (placed_iff E o (i := 3)) | apply (placed_iff E o (i := 4))]; lia.
  - unfold spots. cbn [filter seq String.eqb Ascii.eqb Bool.eqb].
    destruct (touched E o 0), (touched E o 1), (touched E o 2), (touched E o 3), (touched E o 4); reflexivity.
Qed.
