(** The impedance matrix of an overhead line, compute_overhead_impedance. *)
From Coq Require Import Reals ZArith String Ascii List Bool Lia Lra Arith.
From Verif Require Import PyExc SpecComponents SpecUnbalanced Components UnbalancedLine GlmText LineImpedance SpecReader SpecLineZ KronProofs.
Import ListNotations.
Local Open Scope R_scope.
Set Implicit Arguments.

(** *** one entry *)
Lemma upd_length : forall A (l : list A) n x, List.length (upd l n x) = List.length l.
Proof. induction l as [| a l IH]; intros [| n] x; cbn; try reflexivity. now rewrite IH. Qed.
Lemma upd_nth : forall A (l : list A) n x k, nth_error (upd l n x) k = if (Nat.eqb k n && Nat.ltb n (List.length l))%bool then Some x else nth_error l k.
Proof.
  induction l as [| a l IH]; intros n x k.
  - cbn. now rewrite andb_false_r.
  - destruct n as [| n], k as [| k]; cbn; try reflexivity. rewrite IH. reflexivity.
Qed.
Lemma nth_upd : forall A (l : list A) n x k e, (n < List.length l)%nat -> nth k (upd l n x) e = if Nat.eqb k n then x else nth k l e.
Proof.
  induction l as [| a l IH]; intros n x k e H; cbn in H; [lia |].
  destruct n as [| n], k as [| k]; cbn; try reflexivity. apply IH. lia.
Qed.
Definition sized (K : nat) (m : matrix) : Prop := List.length m = K /\ forall i, (i < K)%nat -> List.length (nth i m []) = K.
Lemma nth_repeat' : forall A (a e : A) n i, (i < n)%nat -> nth i (repeat a n) e = a.
Proof. intros A a e n. induction n as [| n IH]; intros i H; [lia |]. destruct i as [| i]; cbn; [reflexivity | apply IH; lia]. Qed.
Lemma sized_zeros : forall K, sized K (zeros K).
Proof. intros K. split; [apply repeat_length |]. intros i H. unfold zeros. rewrite nth_repeat' by exact H. apply repeat_length. Qed.
Lemma entry_zeros : forall K i j, (i < K)%nat -> (j < K)%nat -> entry (zeros K) i j = Some C0.
Proof. intros K i j Hi Hj. unfold entry, zeros. rewrite nth_repeat' by exact Hi. now rewrite nth_repeat' by exact Hj. Qed.
Lemma set_sized : forall K m a b x, (a < K)%nat -> sized K m -> sized K (set_entry m a b x).
Proof.
  intros K m a b x Ha (L & H). split; [unfold set_entry; now rewrite upd_length |].
  intros i Hi. unfold set_entry. rewrite nth_upd by (unfold matrix in *; lia).
  destruct (Nat.eqb_spec i a); [rewrite upd_length; apply H; exact Ha | now apply H].
Qed.
Lemma entry_set : forall K m a b x a' b', (a < K)%nat -> (b < K)%nat -> sized K m ->
  entry (set_entry m a b x) a' b' = if (Nat.eqb a' a && Nat.eqb b' b)%bool then x else entry m a' b'.
Proof.
  intros K m a b x a' b' Ha Hb (L & H). unfold entry, set_entry. rewrite nth_upd by (unfold matrix in *; lia).
  destruct (Nat.eqb_spec a' a) as [-> | n]; cbn [andb]; [| reflexivity].
  rewrite nth_upd; [reflexivity |]. rewrite H by exact Ha. exact Hb.
Qed.
Lemma sized_holds : forall K m f, sized K m -> (forall a b, (a < K)%nat -> (b < K)%nat -> entry m a b = Some (f a b)) -> holds K K m f.
Proof.
  intros K m f (L & H) F. split; [exact L |]. intros i Hi. split; [now apply H |]. intros j Hj.
  etransitivity; [apply (nth_error_nth' _ (Some (0, 0))); rewrite H by exact Hi; exact Hj |]. exact (f_equal Some (F i j Hi Hj)).
Qed.

(** *** all cells *)
Section Cells.
Variable K : nat.
Variable val : nat -> nat -> xnum.
Variable idx : nat -> nat.
Definition put_cell (m : matrix) (ij : nat * nat) : matrix := set_entry m (idx (fst ij)) (idx (snd ij)) (val (fst ij) (snd ij)).
Definition in_range (n : nat) (ij : nat * nat) : Prop := (fst ij < n)%nat /\ (snd ij < n)%nat.
Lemma cells_sized : forall n l m, (forall i, (i < n)%nat -> (idx i < K)%nat) -> Forall (in_range n) l -> sized K m -> sized K (fold_left put_cell l m).
Proof.
  intros n l m Hidx H. revert m. induction H as [| ij l [Hi Hj] H IH]; intros m F; [exact F |]. cbn [fold_left].
  apply IH. apply set_sized; [now apply Hidx | exact F].
Qed.
Lemma cells_hit : forall n l m i j, (forall i, (i < n)%nat -> (idx i < K)%nat) ->
  (forall i j, (i < n)%nat -> (j < n)%nat -> idx i = idx j -> i = j) -> Forall (in_range n) l -> sized K m ->
  (i < n)%nat -> (j < n)%nat ->
  entry (fold_left put_cell l m) (idx i) (idx j) = val i j \/ entry (fold_left put_cell l m) (idx i) (idx j) = entry m (idx i) (idx j) /\ ~ In (i, j) l.
Proof.
  intros n l m i j Hidx Hinj H. revert m. induction H as [| [a b] l [Ha Hb] H IH]; intros m F Hi Hj; [right; cbn; tauto |].
  cbn [fold_left fst snd] in *. destruct (IH (put_cell m (a, b))) as [E | [E N]]; try assumption.
  - apply set_sized; [now apply Hidx | exact F].
  - now left.
  - rewrite E. unfold put_cell. cbn [fst snd]. rewrite (@entry_set K) by (try apply Hidx; assumption).
    destruct (Nat.eqb_spec (idx i) (idx a)) as [e1 |], (Nat.eqb_spec (idx j) (idx b)) as [e2 |]; cbn [andb].
    + apply Hinj in e1; try assumption. apply Hinj in e2; try assumption. subst. now left.
    + right. split; [reflexivity |]. intros [X | X]; [injection X as -> ->; tauto | tauto].
    + right. split; [reflexivity |]. intros [X | X]; [injection X as -> ->; tauto | tauto].
    + right. split; [reflexivity |]. intros [X | X]; [injection X as -> ->; tauto | tauto].
Qed.
Lemma cells_miss : forall n l m a b, (forall i, (i < n)%nat -> (idx i < K)%nat) -> Forall (in_range n) l -> sized K m ->
  (forall i, (i < n)%nat -> idx i <> a) \/ (forall i, (i < n)%nat -> idx i <> b) ->
  entry (fold_left put_cell l m) a b = entry m a b.
Proof.
  intros n l m a b Hidx H. revert m. induction H as [| [i j] l [Hi Hj] H IH]; intros m F Hm; [reflexivity |].
  cbn [fold_left fst snd] in *. rewrite IH; [| apply set_sized; [now apply Hidx | exact F] | exact Hm].
  unfold put_cell. cbn [fst snd]. rewrite (@entry_set K) by (try apply Hidx; assumption).
  destruct (Nat.eqb_spec a (idx i)) as [e1 |], (Nat.eqb_spec b (idx j)) as [e2 |]; try reflexivity.
  exfalso. destruct Hm as [Hm | Hm]; [apply (Hm i) | apply (Hm j)]; auto.
Qed.
End Cells.

(** *** the phases and their rows *)
Definition row_of (p : string) : nat := match rev_lookup p with Some i => i | None => 5%nat end.
Lemma row_spec : forall p, In p line_phases -> rev_lookup p = Some (row_of p) /\ (row_of p < 4)%nat /\ nth (row_of p) line_phases ""%string = p.
Proof. intros p H. cbn in H. destruct H as [<- | [<- | [<- | [<- | []]]]]; cbn; repeat split; lia. Qed.
Lemma row_inj : forall p q, In p line_phases -> In q line_phases -> row_of p = row_of q -> p = q.
Proof.
  intros p q Hp Hq H. destruct (row_spec Hp) as (_ & _ & E1). destruct (row_spec Hq) as (_ & _ & E2). congruence.
Qed.
Lemma row_nth : forall a, (a < 4)%nat -> In (nth a line_phases ""%string) line_phases /\ row_of (nth a line_phases ""%string) = a.
Proof. intros a H. do 4 (destruct a as [| a]; [cbn; tauto |]). lia. Qed.

Lemma log_inv_pos : forall x, 0 < x -> log_inv x = Some (ln (1 / x)).
Proof. intros x H. unfold log_inv, rltb. destruct (Rlt_dec 0 x); [reflexivity | lra]. Qed.
Lemma self_ok : forall w r g, w_res w = Some r -> w_gmr w = Some g -> 0 < g -> self_z w = Ok (Some (carson_self r g)).
Proof.
  intros w r g Hr Hg P. unfold self_z, zii. rewrite Hr, Hg. unfold reqb. destruct (Req_EM_T g 0); [lra |]. cbn.
  rewrite log_inv_pos by exact P. cbn. unfold carson_self.
  replace 0.0953 with (953 / 10000) by lra. replace 0.12134 with (12134 / 100000) by lra. replace 7.93402 with (793402 / 100000) by lra. reflexivity.
Qed.
Lemma self_is : forall w x, self_of w x -> (forall r g, w_res w = Some r -> w_gmr w = Some g -> 0 < g) -> self_z w = Ok (Some x).
Proof.
  intros w x [(r & g & Hr & Hg & ->) | ([N | N] & ->)] P; [exact (self_ok _ Hr Hg (P r g Hr Hg)) | |]; unfold self_z; rewrite N; [reflexivity |]. now destruct (w_res w).
Qed.
Lemma mutual_ok : forall d, 0 < d -> zij d = Some (carson_mutual d).
Proof. intros d P. unfold zij. rewrite log_inv_pos by exact P. cbn. unfold carson_mutual.
  replace 0.0953 with (953 / 10000) by lra. replace 0.12134 with (12134 / 100000) by lra. replace 7.93402 with (793402 / 100000) by lra. reflexivity. Qed.

Section Matrix.
Variables (ws : list wire) (d : dmat) (D : nat -> nat -> R) (z : string -> string -> C).
Hypothesis Hw : wired ws d D.
Hypothesis Hz : primitive ws D z.
Let n := List.length ws.
Let ph (i : nat) : string := w_phase (nth i ws (new_wire "")).
Lemma ph_nth : forall i w, nth_error ws i = Some w -> ph i = w_phase w.
Proof. intros i w H. unfold ph. now rewrite (nth_error_nth _ _ _ H). Qed.
Lemma ph_in : forall i, (i < n)%nat -> In (ph i) line_phases.
Proof.
  intros i H. destruct Hw as (_ & I & _). apply I. unfold ph. apply in_map. apply nth_In. exact H.
Qed.
Lemma ph_inj : forall i j, (i < n)%nat -> (j < n)%nat -> ph i = ph j -> i = j.
Proof.
  intros i j Hi Hj E. destruct Hw as (N & _). rewrite NoDup_nth_error in N. apply N; [now rewrite map_length |].
  rewrite !nth_error_map, (nth_error_nth' ws (new_wire "") Hi), (nth_error_nth' ws (new_wire "") Hj). cbn. f_equal. exact E.
Qed.
Lemma cell_ok : forall m i j, (i < n)%nat -> (j < n)%nat ->
  oh_cell ws d m (i, j) = Ok (set_entry m (row_of (ph i)) (row_of (ph j)) (Some (z (ph i) (ph j)))).
Proof.
  intros m i j Hi Hj. unfold oh_cell, wire_at, index_of.
  pose proof (nth_error_nth' ws (new_wire "") Hi) as Ni. pose proof (nth_error_nth' ws (new_wire "") Hj) as Nj.
  rewrite Ni. cbn [pbind]. fold (ph i). destruct (row_spec (ph_in Hi)) as (Ri & Li & _). rewrite Ri. cbn [pbind].
  destruct Hw as (_ & _ & Hdata & Hd). destruct Hz as (Z1 & Z2 & _).
  destruct (Nat.eqb_spec i j) as [<- | ne].
  - rewrite (self_is (Z1 i _ Ni) (fun r g => Hdata _ r g (nth_error_In _ _ Ni))). cbn [pbind]. destruct (Nat.ltb_spec (row_of (ph i)) 4); [| lia]. reflexivity.
  - destruct (Hd i j Hi Hj ne) as (row & E1 & E2 & P). unfold dist_at. rewrite E1, E2. cbn [pbind]. rewrite Nj. cbn [pbind].
    fold (ph j). destruct (row_spec (ph_in Hj)) as (Rj & Lj & _). rewrite Rj. cbn [pbind].
    destruct (Nat.ltb_spec (row_of (ph i)) 4); [| lia]. destruct (Nat.ltb_spec (row_of (ph j)) 4); [| lia]. cbn.
    rewrite mutual_ok by exact P. pose proof (Z2 i j _ _ Ni Nj ne) as E. fold (ph i) (ph j) in E. now rewrite E.
Qed.
Lemma matrix_ok : exists m, oh_matrix ws d = Ok m /\ holds 4 4 m (fun a b => z (nth a line_phases "") (nth b line_phases ""))%string.
Proof.
  set (val := fun i j => Some (z (ph i) (ph j))). set (idx := fun i => row_of (ph i)).
  set (l := list_prod (seq 0 n) (seq 0 n)).
  assert (Rg : Forall (in_range n) l).
  { apply Forall_forall. intros [i j] H. apply in_prod_iff in H. rewrite !in_seq in H. split; cbn; lia. }
  assert (Hidx : forall i, (i < n)%nat -> (idx i < 4)%nat) by (intros i Hi; apply (row_spec (ph_in Hi))).
  assert (Hinj : forall i j, (i < n)%nat -> (j < n)%nat -> idx i = idx j -> i = j).
  { intros i j Hi Hj E. apply ph_inj; auto. apply row_inj; auto using ph_in. }
  exists (fold_left (put_cell val idx) l (zeros 4)). split.
  - unfold oh_matrix. fold n. fold l. generalize (zeros 4). induction Rg as [| [i j] l' [Hi Hj] Rg IH]; intros m; [reflexivity |].
    cbn [mfold fold_left]. rewrite cell_ok by assumption. cbn [pbind]. apply IH.
  - apply sized_holds; [exact (cells_sized val idx Hidx Rg (sized_zeros 4)) |].
    intros a b Ha Hb. destruct (row_nth Ha) as (Ia & Ra). destruct (row_nth Hb) as (Ib & Rb).
    set (p := nth a line_phases ""%string) in *. set (q := nth b line_phases ""%string) in *.
    destruct (in_dec string_dec p (map w_phase ws)) as [Hp | Hp]; [destruct (in_dec string_dec q (map w_phase ws)) as [Hq | Hq] |].
    + apply in_map_iff in Hp, Hq. destruct Hp as (wp & Ep & Hp). destruct Hq as (wq & Eq & Hq).
      apply In_nth_error in Hp, Hq. destruct Hp as (i & Ni). destruct Hq as (j & Nj).
      assert (Hi : (i < n)%nat) by (apply nth_error_Some; congruence). assert (Hj : (j < n)%nat) by (apply nth_error_Some; congruence).
      assert (Ea : idx i = a) by (unfold idx; now rewrite (ph_nth _ Ni), Ep). assert (Eb : idx j = b) by (unfold idx; now rewrite (ph_nth _ Nj), Eq).
      rewrite <- Ea, <- Eb. destruct (cells_hit val idx Hidx Hinj Rg (sized_zeros 4) Hi Hj) as [E | [_ N]].
      * rewrite E. unfold val. now rewrite (ph_nth _ Ni), (ph_nth _ Nj), Ep, Eq.
      * exfalso. apply N. apply in_prod_iff. rewrite !in_seq. lia.
    + rewrite (cells_miss val idx Hidx Rg (sized_zeros 4)).
      * destruct Hz as (_ & _ & Z3). rewrite (proj2 (Z3 q p Hq)). now apply entry_zeros.
      * right. intros i Hi E. apply Hq. unfold idx in E. rewrite <- Rb in E. apply row_inj in E; [| now apply ph_in | exact Ib].
        rewrite <- E. unfold ph. apply in_map, nth_In, Hi.
    + rewrite (cells_miss val idx Hidx Rg (sized_zeros 4)).
      * destruct Hz as (_ & _ & Z3). rewrite (proj1 (Z3 p q Hp)). now apply entry_zeros.
      * left. intros i Hi E. apply Hp. unfold idx in E. rewrite <- Ra in E. apply row_inj in E; [| now apply ph_in | exact Ia].
        rewrite <- E. unfold ph. apply in_map, nth_In, Hi.
Qed.
End Matrix.

(** *** reduction and deletion *)
Lemma block_holds : forall r c m f rows cols, holds r c m f -> (forall i, In i rows -> (i < r)%nat) -> (forall j, In j cols -> (j < c)%nat) ->
  holds (List.length rows) (List.length cols) (block m rows cols) (fun i j => f (nth i rows 0%nat) (nth j cols 0%nat)).
Proof.
  intros r c m f rows cols H Hr Hc. apply holds_intro; [unfold block; now rewrite map_length |].
  intros i row N. unfold block in N. rewrite nth_error_map in N. destruct (nth_error rows i) as [a |] eqn:Na; [| discriminate].
  injection N as <-. split; [now rewrite map_length |]. intros j Hj. rewrite nth_error_map, (nth_error_nth' cols 0%nat Hj). cbn [option_map].
  rewrite (holds_entry H), (nth_error_nth _ _ 0%nat Na).
  - reflexivity.
  - apply Hr, (nth_error_In _ _ Na).
  - apply Hc, nth_In, Hj.
Qed.
Lemma holds3 : forall m f, holds 3 3 m f ->
  m = [[Some (f 0 0); Some (f 0 1); Some (f 0 2)]; [Some (f 1 0); Some (f 1 1); Some (f 1 2)]; [Some (f 2 0); Some (f 2 1); Some (f 2 2)]]%nat.
Proof.
  intros m f (L & H). destruct m as [| r0 [| r1 [| r2 [| r3 m]]]]; cbn in L; try discriminate.
  assert (R : forall i (r : list xnum), (i < 3)%nat -> nth i [r0; r1; r2] [] = r -> r = [Some (f i 0); Some (f i 1); Some (f i 2)]%nat).
  { intros i r Hi E. destruct (H i Hi) as (Lr & Hr). rewrite E in Lr, Hr.
    destruct r as [| a [| b [| c [| e r]]]]; cbn in Lr; try discriminate.
    pose proof (Hr 0%nat ltac:(lia)) as H0. pose proof (Hr 1%nat ltac:(lia)) as H1. pose proof (Hr 2%nat ltac:(lia)) as H2.
    cbn in H0, H1, H2. injection H0 as ->; injection H1 as ->; injection H2 as ->; reflexivity. }
  rewrite <- (R 0%nat r0), <- (R 1%nat r1), <- (R 2%nat r2); [reflexivity | lia | reflexivity | lia | reflexivity | lia | reflexivity].
Qed.
Definition delete_others (phases : list string) (r : matrix) : matrix :=
  fold_left (fun m pi => if GlmText.mem (fst pi) phases then m else delete_phase m (snd pi)) [("C", 2); ("B", 1); ("A", 0)]%string%nat r.
Lemma delete_holds : forall phases r (f : string -> string -> C),
  holds 3 3 r (fun i j => f (nth i line_phases "") (nth j line_phases ""))%string ->
  holds (List.length (abc_of phases)) (List.length (abc_of phases)) (delete_others phases r)
        (fun i j => f (nth i (abc_of phases) "") (nth j (abc_of phases) ""))%string.
Proof.
  intros phases r f H. apply holds3 in H. subst r. unfold delete_others, abc_of, GlmText.mem. cbn [fold_left fst snd filter].
  destruct (existsb (String.eqb "A") phases), (existsb (String.eqb "B") phases), (existsb (String.eqb "C") phases);
  (split; [reflexivity |]; cbn; intros i Hi;
   destruct i as [| [| [| i]]]; try lia; (split; [reflexivity |]); intros j Hj;
   destruct j as [| [| [| j]]]; try lia; reflexivity).
Qed.
Lemma overhead_carson : forall E ws d D z phases neutral, wired ws d D -> primitive ws D z ->
  (neutral = true -> inverts_neutral E (z "N" "N")%string) ->
  exists m, overhead_z E ws d phases neutral = Ok m /\
    holds (List.length (abc_of phases)) (List.length (abc_of phases)) m
          (fun i j => reduced neutral z (nth i (abc_of phases) "") (nth j (abc_of phases) ""))%string.
Proof.
  intros E ws d D z phases neutral Hw Hz Hinv. destruct (matrix_ok Hw Hz) as (m & Hm & H4).
  unfold overhead_z. rewrite Hm. cbn [pbind].
  assert (Babc : holds 3 3 (block m [0; 1; 2] [0; 1; 2])%nat (fun i j => z (nth i line_phases ""%string) (nth j line_phases ""%string))%string).
  { assert (B : holds 3 3 (block m [0; 1; 2] [0; 1; 2])%nat (fun i j => z (nth (nth i [0; 1; 2]%nat 0%nat) line_phases ""%string) (nth (nth j [0; 1; 2]%nat 0%nat) line_phases ""%string)))
      by (apply (@block_holds _ _ m _ [0; 1; 2]%nat [0; 1; 2]%nat H4); cbn; lia).
    destruct B as (L & B). split; [exact L |]. intros i Hi. destruct (B i Hi) as (Lr & B'). split; [exact Lr |].
    intros j Hj. rewrite (B' j Hj). do 3 (destruct i as [| i]; [do 3 (destruct j as [| j]; [reflexivity |]); lia |]). lia. }
  destruct neutral.
  - assert (Bn : holds 3 1 (block m [0; 1; 2] [3])%nat (fun i j => z (nth (nth i [0; 1; 2]%nat 0%nat) line_phases ""%string) (nth (nth j [3]%nat 0%nat) line_phases ""%string)))
      by (apply (@block_holds _ _ m _ [0; 1; 2]%nat [3]%nat H4); cbn; lia).
    assert (Nb : holds 1 3 (block m [3] [0; 1; 2])%nat (fun i j => z (nth (nth i [3]%nat 0%nat) line_phases ""%string) (nth (nth j [0; 1; 2]%nat 0%nat) line_phases ""%string)))
      by (apply (@block_holds _ _ m _ [3]%nat [0; 1; 2]%nat H4); cbn; lia).
    assert (Nn : block m [3%nat] [3%nat] = [[Some (z "N" "N")]]%string).
    { unfold block. cbn [map]. now rewrite (holds_entry H4) by lia. }
    rewrite Nn. destruct (kron E (block m [0; 1; 2] [0; 1; 2]) (block m [0; 1; 2] [3]) (block m [3] [0; 1; 2]) [[Some (z "N" "N")]])%nat%string as [k | e] eqn:K.
    2: { unfold kron in K. rewrite (Hinv eq_refl) in K. discriminate K. }
    cbn [pbind]. eexists. split; [reflexivity |]. apply (@delete_holds phases k (reduced true z)).
    assert (Hy : holds 1 1 [[Some (Crecip (z "N" "N"))]]%string (fun _ _ => Crecip (z "N" "N")%string)).
    { split; [reflexivity |]. intros i Hi. destruct i; [| lia]. split; [reflexivity |]. intros j Hj. destruct j; [reflexivity | lia]. }
    pose proof (@kron_holds E 3 1 _ _ _ _ _ _ _ _ _ k ltac:(lia) Babc Bn Nb (Hinv eq_refl) Hy K) as Hk.
    destruct Hk as (Lk & Hk). split; [exact Lk |]. intros i Hi. destruct (Hk i Hi) as (Lr & B'). split; [exact Lr |].
    intros j Hj. rewrite (B' j Hj). apply (f_equal (fun c : C => Some (Some c))).
    destruct i as [| [| [| i]]]; try lia; destruct j as [| [| [| j]]]; try lia; unfold reduced, Csum; cbn [seq fold_right nth line_phases]; cring.
  - cbn [pbind]. eexists. split; [reflexivity |]. apply (@delete_holds phases _ (reduced false z)). exact Babc.
Qed.
Lemma reduced_sym : forall neutral z, (forall p q, z p q = z q p) -> forall p q, reduced neutral z p q = reduced neutral z q p.
Proof.
  intros neutral z S p q. unfold reduced. destruct neutral; [| apply S]. rewrite (S p q), (S p "N"%string), (S "N"%string q). cring.
Qed.
(** N among the phases, but no wire for it *)
Lemma overhead_no_neutral : forall E ws d D z phases, wired ws d D -> primitive ws D z -> ~ In "N"%string (map w_phase ws) ->
  p_inv E [[Some C0]] = None -> overhead_z E ws d phases true = Err Raised.
Proof.
  intros E ws d D z phases Hw Hz N P. destruct (matrix_ok Hw Hz) as (m & Hm & H4). unfold overhead_z. rewrite Hm. cbn [pbind].
  replace (block m [3%nat] [3%nat]) with [[Some C0]].
  - unfold kron. rewrite P. reflexivity.
  - unfold block. cbn [map]. rewrite (holds_entry H4) by lia. destruct Hz as (_ & _ & Z3).
    cbn [nth line_phases]. now rewrite (proj1 (Z3 "N" "N" N))%string.
Qed.
