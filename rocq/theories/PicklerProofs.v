From Coq Require Import List Bool Arith Lia.
From Verif Require Import Pickler.
Import ListNotations.

Section P.
Context {Key Name D Byte : Type}.
Variable name_eqb : Name -> Name -> bool.
Hypothesis name_eqb_eq : forall a b, name_eqb a b = true <-> a = b.
Variable hash : Key -> Name.
Variable gen : Key -> D.
Variable enc : D -> list Byte.
Variable dec : list Byte -> option D.
Variable key_of : nat -> Key.
(** reading back a complete file gives the object, a strict prefix raises *)
Hypothesis dec_complete : forall d, dec (enc d) = Some d.
Hypothesis dec_prefix : forall d n, n < length (enc d) -> dec (firstn n (enc d)) = None.

Notation run := (run name_eqb hash gen enc dec key_of).
Notation get := (get_derivatives name_eqb hash gen enc dec).

Lemma dec_any : forall d n, dec (firstn n (enc d)) = Some d \/ dec (firstn n (enc d)) = None.
Proof.
  intros d n. destruct (le_lt_dec (length (enc d)) n).
  - left. rewrite firstn_all2; auto.
  - right. auto.
Qed.

Definition inv (s : @state Name D Byte) : Prop :=
  (forall n c, st_fs s n = Some c -> exists k m, hash k = n /\ c = firstn m (enc (gen k))) /\
  (forall i d, st_memo s i = Some d -> exists k, hash k = hash (key_of i) /\ d = gen k).

Lemma write_inv : forall f k m,
  (forall n c, f n = Some c -> exists k m, hash k = n /\ c = firstn m (enc (gen k))) ->
  forall n c, fs_write name_eqb f (hash k) (firstn m (enc (gen k))) n = Some c ->
  exists k m, hash k = n /\ c = firstn m (enc (gen k)).
Proof.
  intros f k m H n c E. unfold fs_write in E. destruct (name_eqb (hash k) n) eqn:Eq.
  - apply name_eqb_eq in Eq. injection E as <-. eauto.
  - eauto.
Qed.

Lemma generate_inv : forall s i o, inv s -> inv (fst (generate name_eqb hash gen enc s i (key_of i) o)).
Proof.
  intros s i o [H1 H2]. unfold generate.
  assert (Hm : forall j d, set_memo (st_memo s) i (gen (key_of i)) j = Some d ->
     exists k, hash k = hash (key_of j) /\ d = gen k).
  { intros j d E. unfold set_memo in E. destruct (Nat.eqb_spec i j); [|eauto]. subst. injection E as <-. eauto. }
  destruct o; split; simpl; auto; try (apply write_inv; auto); try discriminate.
  rewrite <- (firstn_all (enc (gen (key_of i)))). apply write_inv; auto.
Qed.

Lemma get_inv : forall s i o, inv s -> inv (fst (get s i (key_of i) o)).
Proof.
  intros s i o H. unfold get_derivatives.
  destruct (st_memo s i) eqn:Em; [exact H|].
  destruct (has_pickle hash (st_fs s) (key_of i)) eqn:Eh; [|now apply generate_inv].
  unfold try_unpickle. unfold has_pickle in Eh.
  destruct (st_fs s (hash (key_of i))) as [c|] eqn:Ec; [|discriminate].
  destruct (dec c) as [d|] eqn:Ed; [|now apply generate_inv].
  destruct H as [H1 H2]. split; simpl; auto.
  intros j d' E. unfold set_memo in E. destruct (Nat.eqb_spec i j); [|eauto]. subst. injection E as <-.
  destruct (H1 _ _ Ec) as [k [m [Hk ->]]]. exists k. split; auto.
  destruct (dec_any (gen k) m) as [E|E]; congruence.
Qed.

Lemma run_inv : forall es s, inv s -> inv (run s es).
Proof.
  induction es as [|e es IH]; intros s H; auto. unfold Pickler.run. simpl. apply IH. clear IH.
  destruct e as [i o|k n|n|]; simpl.
  - now apply get_inv.
  - destruct H as [H1 H2]. split; simpl; auto. apply write_inv; auto.
  - destruct H as [H1 H2]. split; simpl; auto. intros n' c E. unfold fs_delete in E.
    destruct (name_eqb n n'); [discriminate|eauto].
  - destruct H as [H1 H2]. split; simpl; auto; discriminate.
Qed.

Lemma start_inv : inv start.
Proof. split; simpl; discriminate. Qed.

Lemma get_answer : forall s i o d, inv s -> snd (get s i (key_of i) o) = Returned d ->
  exists k, hash k = hash (key_of i) /\ d = gen k.
Proof.
  intros s i o d [H1 H2] E. unfold get_derivatives in E.
  assert (G : snd (generate name_eqb hash gen enc s i (key_of i) o) = Returned d -> exists k, hash k = hash (key_of i) /\ d = gen k).
  { unfold generate. destruct o; simpl; intros E'; try discriminate. injection E' as <-. eauto. }
  destruct (st_memo s i) eqn:Em; [simpl in E; injection E as <-; eauto|].
  destruct (has_pickle hash (st_fs s) (key_of i)) eqn:Eh; [|auto].
  unfold try_unpickle in E. unfold has_pickle in Eh.
  destruct (st_fs s (hash (key_of i))) as [c|] eqn:Ec; [|discriminate].
  destruct (dec c) as [d'|] eqn:Ed; [|auto].
  simpl in E. injection E as <-. destruct (H1 _ _ Ec) as [k [m [Hk ->]]]. exists k. split; auto.
  destruct (dec_any (gen k) m) as [E|E]; congruence.
Qed.

(** never an answer for another segment, and an answer unless a write fails or the process dies *)
Theorem cache_correct : (forall a b, hash a = hash b -> a = b) ->
  forall es i o, let s := run start es in
  (forall d, snd (get s i (key_of i) o) = Returned d -> d = gen (key_of i)) /\
  (o = WriteOk -> snd (get s i (key_of i) o) = Returned (gen (key_of i))).
Proof.
  intros Hinj es i o s. assert (H : inv s) by (apply run_inv, start_inv).
  assert (A : forall d, snd (get s i (key_of i) o) = Returned d -> d = gen (key_of i)).
  { intros d E. apply get_answer in E as [k [Hk ->]]; auto. now apply Hinj in Hk as ->. }
  split; auto. intros ->.
  assert (exists d, snd (get s i (key_of i) WriteOk) = Returned d) as [d E].
  { unfold get_derivatives. destruct (st_memo s i); simpl; eauto.
    destruct (has_pickle hash (st_fs s) (key_of i)); simpl; eauto.
    destruct (try_unpickle hash dec (st_fs s) (key_of i)); simpl; eauto. }
  rewrite E. f_equal. auto.
Qed.

(** once answered (or once a write has failed) the file does not matter any more *)
Theorem cache_remembered : (forall a b, hash a = hash b -> a = b) ->
  forall es i o, let s := run start es in
  let (s1, a) := get s i (key_of i) o in
  a <> Died -> forall f o', get {| st_fs := f; st_memo := st_memo s1 |} i (key_of i) o' =
     ({| st_fs := f; st_memo := st_memo s1 |}, Returned (gen (key_of i))).
Proof.
  intros Hinj es i o s. assert (H : inv s) by (apply run_inv, start_inv).
  destruct (get s i (key_of i) o) as [s1 a] eqn:E. intros Ha f o'.
  assert (I1 : inv s1). { replace s1 with (fst (get s i (key_of i) o)) by now rewrite E. now apply get_inv. }
  assert (M : exists d, st_memo s1 i = Some d).
  { unfold get_derivatives, generate in E. destruct (st_memo s i) eqn:Em; [injection E as <- <-; eauto|].
    assert (K : forall m (d : D), set_memo m i d i = Some d) by (intros; unfold set_memo; now rewrite Nat.eqb_refl).
    destruct (has_pickle hash (st_fs s) (key_of i));
      [destruct (try_unpickle hash dec (st_fs s) (key_of i)); [injection E as <- <-; simpl; eauto|]|];
      destruct o; injection E as <- <-; simpl; eauto; congruence. }
  destruct M as [d M]. unfold get_derivatives. simpl. rewrite M.
  destruct I1 as [_ I2]. destruct (I2 _ _ M) as [k [Hk ->]]. now apply Hinj in Hk as ->.
Qed.

(** a collision returns the other segment's derivatives *)
Theorem cache_collision : forall i j, i <> j -> hash (key_of i) = hash (key_of j) ->
  snd (get (run start [Get i WriteOk]) j (key_of j) WriteOk) = Returned (gen (key_of i)).
Proof.
  intros i j Hij Hh. unfold Pickler.run. simpl. unfold get_derivatives. simpl. unfold set_memo.
  destruct (Nat.eqb_spec i j); [contradiction|].
  unfold has_pickle, try_unpickle. simpl. unfold fs_write.
  assert (Eq : name_eqb (hash (key_of i)) (hash (key_of j)) = true) by now apply name_eqb_eq.
  rewrite !Eq.
  now rewrite dec_complete.
Qed.
(** the files survive a restart: nothing is generated again *)
Theorem cache_survives : forall i o, snd (get (run start [Get i WriteOk; Restart]) i (key_of i) o) = Returned (gen (key_of i)).
Proof.
  intros i o. unfold Pickler.run. simpl. unfold get_derivatives, has_pickle, try_unpickle. simpl. unfold fs_write.
  assert (Eq : name_eqb (hash (key_of i)) (hash (key_of i)) = true) by now apply name_eqb_eq.
  rewrite Eq. now rewrite dec_complete.
Qed.
(** a write that fails or is cut short leaves what was written so far under the segment's name, and no other file changes *)
Theorem cache_torn : forall es i o n, o = WriteFails n \/ o = Dies n -> let s := run start es in
  snd (get s i (key_of i) o) = Raised \/ snd (get s i (key_of i) o) = Died ->
  forall m, st_fs (fst (get s i (key_of i) o)) m = if name_eqb (hash (key_of i)) m then Some (firstn n (enc (gen (key_of i)))) else st_fs s m.
Proof.
  intros es i o n Ho s. unfold get_derivatives, generate. destruct (st_memo s i); cbn [fst snd]; [intros [|]; discriminate|].
  destruct (has_pickle hash (st_fs s) (key_of i)); [destruct (try_unpickle hash dec (st_fs s) (key_of i)); [cbn [fst snd]; intros [|]; discriminate|]|];
    destruct Ho as [-> | ->]; cbn [fst snd st_fs]; intros _ m; reflexivity.
Qed.
End P.

(** a concrete instance for examples: three segments, files are unary *)
Definition ex_enc (d : nat) : list bool := repeat true d ++ [false].
Fixpoint ex_dec (l : list bool) : option nat :=
  match l with
  | [] => None
  | false :: r => match r with [] => Some 0 | _ => None end
  | true :: r => option_map S (ex_dec r)
  end.
Lemma ex_dec_complete : forall d, ex_dec (ex_enc d) = Some d.
Proof. induction d; simpl; auto. unfold ex_enc in *. rewrite IHd. reflexivity. Qed.
Lemma ex_dec_prefix : forall d n, n < length (ex_enc d) -> ex_dec (firstn n (ex_enc d)) = None.
Proof.
  induction d; intros [|n] H; simpl in *; auto; try lia.
  change (repeat true d ++ [false]) with (ex_enc d). rewrite IHd; auto. unfold ex_enc. lia.
Qed.
