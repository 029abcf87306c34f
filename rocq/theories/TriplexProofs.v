(** The impedance matrix of a triplex line, compute_triplex_impedance. *)
From Coq Require Import Reals ZArith String Ascii List Bool Lia Lra Arith.
From Verif Require Import PyExc SpecComponents SpecUnbalanced Components UnbalancedLine GlmText LineImpedance SpecReader SpecLineZ KronProofs CarsonProofs.
Import ListNotations.
Local Open Scope R_scope.
Set Implicit Arguments.

Definition spot3 (p : string) : nat := if String.eqb p "1" then 0%nat else if String.eqb p "2" then 1%nat else 2%nat.
Lemma spot3_spec : forall p, In p triplex_phases -> (spot3 p < 3)%nat /\ nth (spot3 p) triplex_phases ""%string = p.
Proof. intros p H. cbn in H. destruct H as [<- | [<- | [<- | []]]]; cbn; split; try lia; reflexivity. Qed.
Lemma spot3_inj : forall p q, In p triplex_phases -> In q triplex_phases -> spot3 p = spot3 q -> p = q.
Proof. intros p q Hp Hq H. destruct (spot3_spec Hp) as (_ & E1). destruct (spot3_spec Hq) as (_ & E2). congruence. Qed.
Lemma spot3_nth : forall a, (a < 3)%nat -> In (nth a triplex_phases ""%string) triplex_phases /\ spot3 (nth a triplex_phases ""%string) = a.
Proof. intros a H. do 3 (destruct a as [| a]; [cbn; tauto |]). lia. Qed.
Lemma wire_map_ok : forall w, In (w_phase w) triplex_phases -> wire_map w = Ok (spot3 (w_phase w)).
Proof. intros w H. unfold wire_map, spot3. cbn in H. destruct H as [<- | [<- | [<- | []]]]; reflexivity. Qed.
Lemma tp_dist_ok : forall ws d12 d1n, insulated ws d12 d1n -> tp_dist ws = Some (d12, d1n) /\ 0 < d12 /\ 0 < d1n.
Proof.
  intros ws d12 d1n (l & w & r & d & t & -> & N & Hd & Ht & Pd & Pt & -> & ->). split; [| lra].
  induction l as [| v l IH]; cbn [app tp_dist].
  - now rewrite Hd, Ht.
  - rewrite IH by (intros u I; apply N; now right). destruct (N v (or_introl eq_refl)) as [-> | X]; [reflexivity |]. rewrite X. now destruct (w_diam v).
Qed.
Section Matrix.
Variables (ws : list wire) (d12 d1n : R) (z : string -> string -> C).
Hypothesis Hw : triplex_wired ws.
Hypothesis Hi : insulated ws d12 d1n.
Hypothesis Hz : triplex_primitive ws d12 d1n z.
Let n := List.length ws.
Let ph (i : nat) : string := w_phase (nth i ws (new_wire "")).
Lemma ph3_nth : forall i w, nth_error ws i = Some w -> ph i = w_phase w.
Proof. intros i w H. unfold ph. now rewrite (nth_error_nth _ _ _ H). Qed.
Lemma ph3_in : forall i, (i < n)%nat -> In (ph i) triplex_phases.
Proof. intros i H. destruct Hw as (_ & I & _). apply I. unfold ph. apply in_map. apply nth_In. exact H. Qed.
Lemma ph3_inj : forall i j, (i < n)%nat -> (j < n)%nat -> ph i = ph j -> i = j.
Proof.
  intros i j Hi' Hj E. destruct Hw as (N & _). rewrite NoDup_nth_error in N. apply N; [now rewrite map_length |].
  rewrite !nth_error_map, (nth_error_nth' ws (new_wire "") Hi'), (nth_error_nth' ws (new_wire "") Hj). cbn. f_equal. exact E.
Qed.
Lemma cell3_ok : forall m i j, (i < n)%nat -> (j < n)%nat ->
  tp_cell ws m (i, j) = Ok (set_entry m (spot3 (ph i)) (spot3 (ph j)) (Some (z (ph i) (ph j)))).
Proof.
  intros m i j Hi' Hj. unfold tp_cell, wire_at.
  pose proof (nth_error_nth' ws (new_wire "") Hi') as Ni. pose proof (nth_error_nth' ws (new_wire "") Hj) as Nj.
  rewrite Ni. cbn [pbind]. rewrite wire_map_ok by (apply (ph3_in Hi')). fold (ph i). cbn [pbind].
  destruct Hw as (_ & _ & Hdata). destruct Hz as (Z1 & Z2 & _).
  destruct (Nat.eqb_spec i j) as [<- | ne].
  - rewrite (self_is (Z1 _ (nth_error_In _ _ Ni)) (fun r g => Hdata _ r g (nth_error_In _ _ Ni))). reflexivity.
  - rewrite Nj. cbn [pbind]. rewrite wire_map_ok by (apply (ph3_in Hj)). fold (ph j). cbn [pbind].
    destruct (tp_dist_ok Hi) as (T & P12 & P1n). rewrite T.
    assert (NE : ph i <> ph j) by (intros X; apply ne; now apply ph3_inj).
    destruct (Z2 _ _ (nth_error_In _ _ Ni) (nth_error_In _ _ Nj) NE) as [Zn Zh]. fold (ph i) (ph j) in Zn, Zh.
    assert (Zpy : forall d, 0 < d -> zij_py d = Ok (Some (carson_mutual d))).
    { intros d P. unfold zij_py, reqb. destruct (Req_EM_T d 0); [lra |]. cbn. now rewrite mutual_ok. }
    destruct (String.eqb_spec (ph i) "N") as [e1 | n1], (String.eqb_spec (ph j) "N") as [e2 | n2]; cbn [orb];
    (rewrite Zpy by assumption); cbn [pbind].
    + rewrite Zn by (now left). reflexivity.
    + rewrite Zn by (now left). reflexivity.
    + rewrite Zn by (now right). reflexivity.
    + rewrite Zh by assumption. reflexivity.
Qed.
Lemma matrix3_ok : exists m, mfold (tp_cell ws) (list_prod (seq 0 n) (seq 0 n)) (zeros 3) = Ok m /\
  holds 3 3 m (fun a b => z (nth a triplex_phases "") (nth b triplex_phases ""))%string.
Proof.
  set (val := fun i j => Some (z (ph i) (ph j))). set (idx := fun i => spot3 (ph i)).
  set (l := list_prod (seq 0 n) (seq 0 n)).
  assert (Rg : Forall (in_range n) l).
  { apply Forall_forall. intros [i j] H. apply in_prod_iff in H. rewrite !in_seq in H. split; cbn; lia. }
  assert (Hidx : forall i, (i < n)%nat -> (idx i < 3)%nat) by (intros i Hi'; apply (spot3_spec (ph3_in Hi'))).
  assert (Hinj : forall i j, (i < n)%nat -> (j < n)%nat -> idx i = idx j -> i = j).
  { intros i j Hi' Hj E. apply ph3_inj; auto. apply spot3_inj; auto using ph3_in. }
  exists (fold_left (put_cell val idx) l (zeros 3)). split.
  - generalize (zeros 3). induction Rg as [| [i j] l' [Hi' Hj] Rg IH]; intros m; [reflexivity |].
    cbn [mfold fold_left]. rewrite cell3_ok by assumption. cbn [pbind]. apply IH.
  - apply sized_holds; [exact (cells_sized val idx Hidx Rg (sized_zeros 3)) |].
    intros a b Ha Hb. destruct (spot3_nth Ha) as (Ia & Ra). destruct (spot3_nth Hb) as (Ib & Rb).
    set (p := nth a triplex_phases ""%string) in *. set (q := nth b triplex_phases ""%string) in *.
    destruct (in_dec string_dec p (map w_phase ws)) as [Hp | Hp]; [destruct (in_dec string_dec q (map w_phase ws)) as [Hq | Hq] |].
    + apply in_map_iff in Hp, Hq. destruct Hp as (wp & Ep & Hp). destruct Hq as (wq & Eq & Hq).
      apply In_nth_error in Hp, Hq. destruct Hp as (i & Ni). destruct Hq as (j & Nj).
      assert (Hi' : (i < n)%nat) by (apply nth_error_Some; congruence). assert (Hj : (j < n)%nat) by (apply nth_error_Some; congruence).
      assert (Ea : idx i = a) by (unfold idx; now rewrite (ph3_nth _ Ni), Ep). assert (Eb : idx j = b) by (unfold idx; now rewrite (ph3_nth _ Nj), Eq).
      rewrite <- Ea, <- Eb. destruct (cells_hit val idx Hidx Hinj Rg (sized_zeros 3) Hi' Hj) as [E | [_ N]].
      * rewrite E. unfold val. now rewrite (ph3_nth _ Ni), (ph3_nth _ Nj), Ep, Eq.
      * exfalso. apply N. apply in_prod_iff. rewrite !in_seq. lia.
    + rewrite (cells_miss val idx Hidx Rg (sized_zeros 3)).
      * destruct Hz as (_ & _ & Z3). rewrite (proj2 (Z3 q p Hq)). now apply entry_zeros.
      * right. intros i Hi' E. apply Hq. unfold idx in E. rewrite <- Rb in E. apply spot3_inj in E; [| now apply ph3_in | exact Ib].
        rewrite <- E. unfold ph. apply in_map, nth_In, Hi'.
    + rewrite (cells_miss val idx Hidx Rg (sized_zeros 3)).
      * destruct Hz as (_ & _ & Z3). rewrite (proj1 (Z3 p q Hp)). now apply entry_zeros.
      * left. intros i Hi' E. apply Hp. unfold idx in E. rewrite <- Ra in E. apply spot3_inj in E; [| now apply ph3_in | exact Ia].
        rewrite <- E. unfold ph. apply in_map, nth_In, Hi'.
Qed.
End Matrix.
Lemma triplex_carson : forall E ws d12 d1n z, triplex_wired ws -> insulated ws d12 d1n -> triplex_primitive ws d12 d1n z ->
  inverts_neutral E (z "N" "N")%string ->
  exists m, triplex_z E ws = Ok m /\ holds 2 2 m (fun i j => reduced true z (nth i ["1"; "2"] "") (nth j ["1"; "2"] ""))%string.
Proof.
  intros E ws d12 d1n z Hw Hi Hz Hinv. destruct (matrix3_ok Hw Hi Hz) as (m & Hm & H3). unfold triplex_z. cbv zeta. rewrite Hm. cbn [pbind].
  assert (Bh : holds 2 2 (block m [0; 1] [0; 1])%nat (fun i j => z (nth (nth i [0; 1]%nat 0%nat) triplex_phases ""%string) (nth (nth j [0; 1]%nat 0%nat) triplex_phases ""%string)))
    by (apply (@block_holds _ _ m _ [0; 1]%nat [0; 1]%nat H3); cbn; lia).
  assert (Bn : holds 2 1 (block m [0; 1] [2])%nat (fun i j => z (nth (nth i [0; 1]%nat 0%nat) triplex_phases ""%string) (nth (nth j [2]%nat 0%nat) triplex_phases ""%string)))
    by (apply (@block_holds _ _ m _ [0; 1]%nat [2]%nat H3); cbn; lia).
  assert (Nb : holds 1 2 (block m [2] [0; 1])%nat (fun i j => z (nth (nth i [2]%nat 0%nat) triplex_phases ""%string) (nth (nth j [0; 1]%nat 0%nat) triplex_phases ""%string)))
    by (apply (@block_holds _ _ m _ [2]%nat [0; 1]%nat H3); cbn; lia).
  assert (Nn : block m [2%nat] [2%nat] = [[Some (z "N" "N")]]%string).
  { unfold block. cbn [map]. now rewrite (holds_entry H3) by lia. }
  rewrite Nn. destruct (kron E (block m [0; 1] [0; 1]) (block m [0; 1] [2]) (block m [2] [0; 1]) [[Some (z "N" "N")]])%nat%string as [k | e] eqn:K.
  2: { unfold kron in K. rewrite Hinv in K. discriminate K. }
  exists k. split; [reflexivity |].
  assert (Hy : holds 1 1 [[Some (Crecip (z "N" "N"))]]%string (fun _ _ => Crecip (z "N" "N")%string)).
  { split; [reflexivity |]. intros i Hi'. destruct i; [| lia]. split; [reflexivity |]. intros j Hj. destruct j; [reflexivity | lia]. }
  pose proof (@kron_holds E 2 1 _ _ _ _ _ _ _ _ _ k ltac:(lia) Bh Bn Nb Hinv Hy K) as Hk.
  destruct Hk as (Lk & Hk). split; [exact Lk |]. intros i Hi'. destruct (Hk i Hi') as (Lr & B'). split; [exact Lr |].
  intros j Hj. rewrite (B' j Hj). apply (f_equal (fun c : C => Some (Some c))).
  destruct i as [| [| i]]; try lia; destruct j as [| [| j]]; try lia; unfold reduced, Csum; cbn [seq fold_right nth triplex_phases]; cring.
Qed.
(** no neutral wire *)
Lemma triplex_no_neutral : forall E ws d12 d1n z, triplex_wired ws -> insulated ws d12 d1n -> triplex_primitive ws d12 d1n z ->
  ~ In "N"%string (map w_phase ws) -> p_inv E [[Some C0]] = None -> triplex_z E ws = Err Raised.
Proof.
  intros E ws d12 d1n z Hw Hi Hz N P. destruct (matrix3_ok Hw Hi Hz) as (m & Hm & H3). unfold triplex_z. cbv zeta. rewrite Hm. cbn [pbind].
  replace (block m [2%nat] [2%nat]) with [[Some C0]].
  - unfold kron. rewrite P. reflexivity.
  - unfold block. cbn [map]. rewrite (holds_entry H3) by lia. destruct Hz as (_ & _ & Z3).
    cbn [nth triplex_phases]. now rewrite (proj1 (Z3 "N" "N" N))%string.
Qed.
(** no wires at all *)
Lemma triplex_bare : forall E, p_inv E [[Some C0]] = None -> triplex_z E [] = Err Raised.
Proof. intros E P. unfold triplex_z, kron. cbv zeta. cbn [List.length seq list_prod mfold pbind].
  change (block (zeros 3) [2%nat] [2%nat]) with [[Some C0]]. now rewrite P. Qed.
