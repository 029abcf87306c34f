From Coq Require Import List Bool Arith Reals Lia Lra.
From Verif Require Import Builder SpecBuilder.
Import ListNotations.

Section P.
Context {V : Type}.
Variable isz : V -> bool.
Variable isbad : V -> bool.
Variable debug : bool.
Notation entry := (nat * nat * V)%type.
Notation run := (b_run isz isbad debug).

Lemma set_nth_length : forall n (x : entry) l, length (set_nth n x l) = length l.
Proof. induction n; destruct l; simpl; auto. Qed.

Lemma set_nth_firstn : forall n (x : entry) l, n < length l -> firstn (S n) (set_nth n x l) = firstn n l ++ [x].
Proof.
  induction n; destruct l; simpl; intros; try lia; auto.
  f_equal. apply IHn. lia.
Qed.

Lemma set_nth_nth : forall n (x : entry) l i, n < length l ->
  nth_error (set_nth n x l) i = if n =? i then Some x else nth_error l i.
Proof.
  induction n; destruct l; simpl; intros; try lia; destruct i; simpl; auto. apply IHn. lia.
Qed.

(** invariant connecting the state with the history seen so far *)
Definition inv (b : builder) (u : list entry) (pk : nat) (la : nat -> option entry) : Prop :=
  b_index b = length u /\ firstn (b_index b) (b_entries b) = u /\ length (b_entries b) = pk /\ length u <= pk /\
  (forall i, nth_error (b_entries b) i = la i).

Lemma inv_run : forall ops b u pk la b',
  inv b u pk la -> valid_from isz u ops -> run b ops = BOk b' ->
  inv b' (fold_left (use_step isz) ops u) (Nat.max pk (peak_from isz u ops)) (fun i => last_at_from isz u ops i (la i)).
Proof.
  induction ops as [|o ops IH]; intros b u pk la b' Hinv Hv Hrun.
  - simpl in *. injection Hrun as <-. destruct Hinv as [A [B [C [D E]]]].
    repeat split; auto; lia.
  - simpl in Hv. destruct Hv as [Hv1 Hv2]. simpl in Hrun.
    destruct (b_step isz isbad debug b o) as [b1|] eqn:E1; [|discriminate].
    cbn [fold_left peak_from last_at_from].
    assert (Hp : length u <= pk) by apply Hinv.
    replace (Nat.max pk (Nat.max (length u) (peak_from isz (use_step isz u o) ops)))
      with (Nat.max (Nat.max pk (length (use_step isz u o))) (peak_from isz (use_step isz u o) ops)).
    2:{ assert (length (use_step isz u o) <= peak_from isz (use_step isz u o) ops) by (destruct ops; simpl; lia). lia. }
    specialize (IH b1 (use_step isz u o) (Nat.max pk (length (use_step isz u o)))
      (fun i => match o with
                | Stamp e => if isz (snd e) then la i else if length u =? i then Some e else la i
                | Clear _ => la i
                end) b').
    apply IH; auto. clear IH Hrun Hv2.
    destruct Hinv as [A [B [C [D E]]]].
    destruct o as [e|k]; simpl in *.
    + unfold b_stamp in E1. destruct (isz (snd e)) eqn:Ez.
      * injection E1 as <-. repeat split; auto; lia.
      * destruct (debug && isbad (snd e)); [discriminate|].
        unfold b_max_index in E1. rewrite app_length. simpl.
        destruct (Nat.eqb_spec (b_index b) (length (b_entries b))) as [Eq|Ne].
        { injection E1 as <-. unfold inv. cbn [b_index b_entries]. rewrite !app_length. cbn [length].
          assert (HL : b_entries b = u) by (rewrite <- B, Eq; now rewrite firstn_all).
          repeat split; try lia.
          - rewrite firstn_all2 by (rewrite app_length; simpl; lia). now rewrite HL.
          - intros i. rewrite <- E. rewrite <- A, Eq. destruct (Nat.eqb_spec (length (b_entries b)) i).
            + subst i. rewrite nth_error_app2 by lia. now rewrite Nat.sub_diag.
            + destruct (le_lt_dec (length (b_entries b)) i).
              * rewrite nth_error_app2 by lia.
                assert (i - length (b_entries b) = S (i - length (b_entries b) - 1)) as -> by lia.
                simpl. destruct (i - length (b_entries b) - 1); simpl; symmetry; apply nth_error_None; lia.
              * now rewrite nth_error_app1 by lia. }
        { destruct (Nat.ltb_spec (b_index b) (length (b_entries b))) as [Lt|]; [|discriminate].
          injection E1 as <-. unfold inv. cbn [b_index b_entries]. rewrite set_nth_length.
          rewrite set_nth_firstn by lia. rewrite B, app_length. simpl. repeat split; try lia.
          intros i. rewrite set_nth_nth by lia. rewrite A. destruct (length u =? i); auto. }
    + injection E1 as <-. unfold inv. cbn [b_index b_entries b_clear].
      rewrite firstn_length. repeat split; auto; try lia.
      rewrite <- B. rewrite A. rewrite firstn_firstn. now rewrite Nat.min_l by lia.
Qed.

Lemma inv_start : forall ops b, valid_history isz ops -> run b_init ops = BOk b ->
  inv b (in_use isz ops) (peak isz ops) (last_at isz ops).
Proof.
  intros ops b Hv Hr.
  assert (H := inv_run ops b_init [] 0 (fun _ => None) b).
  simpl in H. apply H; auto.
  repeat split; auto. intros [|i]; reflexivity.
Qed.

(** without debug mode a valid history never fails *)
Lemma run_total : forall ops b u, debug = false ->
  b_index b = length u -> length u <= length (b_entries b) -> valid_from isz u ops ->
  exists b', run b ops = BOk b'.
Proof.
  induction ops as [|o ops IH]; intros b u Hd Hi Hl Hv; simpl; [eauto|].
  destruct Hv as [Hv1 Hv2]. destruct o as [e|k]; simpl in *.
  - unfold b_stamp, b_max_index. destruct (isz (snd e)) eqn:Ez; [eapply IH; eauto|].
    assert (Eb : debug && isbad (snd e) = false) by (rewrite Hd; reflexivity). rewrite Eb.
    destruct (Nat.eqb_spec (b_index b) (length (b_entries b))).
    + apply IH with (u := u ++ [e]); auto; simpl; rewrite ?app_length; simpl; lia.
    + destruct (Nat.ltb_spec (b_index b) (length (b_entries b))); [|lia].
      apply IH with (u := u ++ [e]); auto; simpl; rewrite ?app_length, ?set_nth_length; simpl; lia.
  - apply IH with (u := firstn k u); auto; simpl; rewrite ?firstn_length; lia.
Qed.

Theorem builder_usage : forall ops b, valid_history isz ops -> run b_init ops = BOk b ->
  b_get_usage b = length (in_use isz ops) /\
  (forall r, b_get_row b r = map (fun e => (snd (fst e), snd e)) (filter (fun e => fst (fst e) =? r) (in_use isz ops))) /\
  (forall c, b_get_col b c = map (fun e => (fst (fst e), snd e)) (filter (fun e => snd (fst e) =? c) (in_use isz ops))).
Proof.
  intros ops b Hv Hr. destruct (inv_start ops b Hv Hr) as [A [B _]].
  unfold b_get_usage, b_get_row, b_get_col. rewrite B. auto.
Qed.

Theorem builder_exact : forall ops b, valid_history isz ops -> run b_init ops = BOk b ->
  length (in_use isz ops) = peak isz ops -> b_to_matrix debug b = BOk (in_use isz ops).
Proof.
  intros ops b Hv Hr Hp. destruct (inv_start ops b Hv Hr) as [A [B [C [D E]]]].
  unfold b_to_matrix, b_max_index. rewrite C, A, Hp, Nat.eqb_refl, andb_false_r. f_equal.
  rewrite <- B. rewrite A, Hp, <- C. now rewrite firstn_all.
Qed.

(** exact description of what is solved in general *)
Theorem builder_surplus : forall ops b es, valid_history isz ops -> run b_init ops = BOk b ->
  b_to_matrix debug b = BOk es ->
  exists stale, es = in_use isz ops ++ stale /\
    length es = peak isz ops /\
    forall i, i < length stale -> nth_error stale i = last_at isz ops (length (in_use isz ops) + i).
Proof.
  intros ops b es Hv Hr He. destruct (inv_start ops b Hv Hr) as [A [B [C [D E]]]].
  unfold b_to_matrix in He. destruct (debug && _); [discriminate|]. injection He as <-.
  exists (skipn (b_index b) (b_entries b)). split; [rewrite <- B at 1; now rewrite firstn_skipn|].
  split; auto. intros i Hi. rewrite <- E, <- A.
  rewrite <- (firstn_skipn (b_index b) (b_entries b)) at 2.
  rewrite nth_error_app2; rewrite firstn_length; rewrite skipn_length in Hi; [|lia].
  f_equal. lia.
Qed.

Theorem builder_debug : forall ops b es, debug = true -> valid_history isz ops -> run b_init ops = BOk b ->
  b_to_matrix debug b = BOk es -> es = in_use isz ops.
Proof.
  intros ops b es Hd Hv Hr He. destruct (inv_start ops b Hv Hr) as [A [B [C [D E]]]].
  unfold b_to_matrix in He. rewrite Hd in He. simpl in He.
  destruct (Nat.eqb_spec (b_max_index b) (b_index b)) as [Eq|]; [|discriminate].
  injection He as <-. unfold b_max_index in Eq. rewrite <- B, <- Eq. now rewrite firstn_all.
Qed.

Theorem builder_debug_raises_iff : forall ops b, debug = true -> valid_history isz ops -> run b_init ops = BOk b ->
  (b_to_matrix debug b = BErr GarbageRemains <-> length (in_use isz ops) < peak isz ops).
Proof.
  intros ops b Hd Hv Hr. destruct (inv_start ops b Hv Hr) as [A [B [C [D E]]]].
  unfold b_to_matrix, b_max_index. rewrite Hd, C, A. simpl.
  destruct (Nat.eqb_spec (peak isz ops) (length (in_use isz ops))); simpl; split; intros; try discriminate; try lia; auto.
Qed.

Lemma builder_total_aux : forall ops, debug = false -> valid_history isz ops -> exists b, run b_init ops = BOk b.
Proof. intros. apply run_total with (u := []); auto. Qed.
End P.

Theorem builder_total : forall (V : Type) (isz isbad : V -> bool) ops,
  valid_history isz ops -> exists b, b_run isz isbad false b_init ops = BOk b.
Proof. intros. now apply builder_total_aux. Qed.

Local Open Scope R_scope.
Lemma mat_at_app : forall a b r c, mat_at (a ++ b) r c = mat_at a r c + mat_at b r c.
Proof.
  induction a as [|[[i j] v] a IH]; intros; simpl; [ring|]. rewrite IH. ring.
Qed.

Definition Rzerob (x : R) : bool := if Req_EM_T x 0 then true else false.

Theorem builder_stale_iff : forall isbad ops b es,
  valid_history Rzerob ops -> b_run Rzerob isbad false b_init ops = BOk b ->
  b_to_matrix false b = BOk es ->
  ((forall r c, mat_at es r c = mat_at (in_use Rzerob ops) r c) <->
   (forall r c, mat_at (skipn (length (in_use Rzerob ops)) es) r c = 0)).
Proof.
  intros isbad ops b es Hv Hr He.
  destruct (builder_surplus Rzerob isbad false ops b es Hv Hr He) as [st [E _]].
  rewrite E. rewrite skipn_app, skipn_all, Nat.sub_diag. simpl.
  split; intros H r c; specialize (H r c); rewrite mat_at_app in *; simpl in *; lra.
Qed.

Lemma builder_stale_aux : forall a b z, Rzerob a = false -> Rzerob b = false -> Rzerob z = true -> b <> 0 ->
  exists ops st es r c,
  valid_history Rzerob ops /\ b_run Rzerob (fun _ => false) false b_init ops = BOk st /\
  b_to_matrix false st = BOk es /\ mat_at es r c <> mat_at (in_use Rzerob ops) r c.
Proof.
  intros a b z Ha Hb Hz Hn.
  (* one linear entry, then two iterations; the second one stamps a zero at (0,1) *)
  exists [Stamp (0%nat, 0%nat, a); Stamp (0%nat, 1%nat, b); Clear 1; Stamp (0%nat, 1%nat, z)].
  exists {| b_entries := [(0%nat, 0%nat, a); (0%nat, 1%nat, b)]; b_index := 1 |}.
  exists [(0%nat, 0%nat, a); (0%nat, 1%nat, b)], 0%nat, 1%nat.
  unfold valid_history, in_use, b_run, b_step, b_stamp.
  do 6 (cbn; rewrite ?Ha, ?Hb, ?Hz). cbn.
  repeat split; try lia. lra.
Qed.

Theorem builder_stale_witness : exists ops st es r c,
  valid_history Rzerob ops /\ b_run Rzerob (fun _ => false) false b_init ops = BOk st /\
  b_to_matrix false st = BOk es /\ mat_at es r c <> mat_at (in_use Rzerob ops) r c.
Proof.
  apply (builder_stale_aux 1 2 0); try lra;
    unfold Rzerob; match goal with |- context [Req_EM_T ?x ?y] => destruct (Req_EM_T x y) end; auto; lra.
Qed.
