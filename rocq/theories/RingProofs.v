(** Roots, tables filled cell by cell, and the data of the cables of an underground line. *)
From Coq Require Import Reals ZArith String Ascii List Bool Lia Lra Arith.
From Verif Require Import PyExc SpecComponents SpecUnbalanced Components UnbalancedLine GlmText LineImpedance SpecReader SpecLineZ KronProofs CarsonProofs Cables SpecCables ShuntProofs ChargeProofs.
Import ListNotations.
Local Open Scope R_scope.
Set Implicit Arguments.

(** *** powers and roots *)
Definition kroot (k : Z) (y : R) : R := if Z.eqb k 1 then y else Rpower y (/ IZR k).
Lemma power_nat : forall x k, (0 <= k)%Z -> powerRZ x k = x ^ Z.to_nat k.
Proof. intros x k H. rewrite <- (Z2Nat.id k H) at 1. symmetry. apply pow_powerRZ. Qed.
Lemma pow_mono : forall n x y, 0 < x < y -> x ^ S n < y ^ S n.
Proof.
  induction n as [| n IH]; intros x y H; [cbn; lra |]. cbn [pow] in *. specialize (IH x y H).
  assert (0 < x * x ^ n) by (apply Rmult_lt_0_compat; [lra | apply pow_lt; lra]). nra.
Qed.
Lemma pow_lt_pos : forall k x y, (0 < k)%Z -> 0 <= x < y -> x ^ Z.to_nat k < y ^ Z.to_nat k.
Proof.
  intros k x y K (X & L). destruct (Z.to_nat k) as [| n] eqn:Q; [lia |]. destruct X as [X | <-]; [now apply pow_mono |].
  rewrite pow_i by lia. apply pow_lt. lra.
Qed.
Lemma root_unique : forall k y x x', (0 < k)%Z -> root k y x -> root k y x' -> x = x'.
Proof.
  intros k y x x' K (A & B) (A' & B'). destruct (Rtotal_order x x') as [L | [L | L]]; [| exact L |].
  - assert (x ^ Z.to_nat k < x' ^ Z.to_nat k) by (apply pow_lt_pos; [exact K | lra]). lra.
  - assert (x' ^ Z.to_nat k < x ^ Z.to_nat k) by (apply pow_lt_pos; [exact K | lra]). lra.
Qed.
Lemma kroot_ok : forall k y, (0 < k)%Z -> 0 < y -> root k y (kroot k y).
Proof.
  intros k y K Y. unfold kroot, root. destruct (Z.eqb_spec k 1) as [-> | _]; [change (Z.to_nat 1) with 1%nat; rewrite pow_1; split; [exact Y | reflexivity] |].
  assert (P : 0 < Rpower y (/ IZR k)) by apply exp_pos. split; [exact P |]. rewrite <- Rpower_pow by exact P.
  rewrite Rpower_mult, INR_IZR_INZ, Z2Nat.id by lia. rewrite Rinv_l, Rpower_1; [reflexivity | exact Y |]. apply Rgt_not_eq, IZR_pos, K.
Qed.
Lemma np_root_ok : forall k y, (0 < k)%Z -> 0 < y -> np_root y k = Some (kroot k y).
Proof.
  intros k y K Y. unfold np_root, kroot. destruct (Z.eqb_spec k 1); [reflexivity |]. rewrite (proj2 (reqb_false y 0)) by lra.
  rewrite (proj2 (Z.eqb_neq k (-1))) by lia. now rewrite (proj2 (rltb_false y 0)) by lra.
Qed.
Lemma py_root_ok : forall k y, (0 < k)%Z -> 0 < y -> py_root y k = Ok (Some (kroot k y)).
Proof. intros k y K Y. unfold py_root. rewrite (proj2 (Z.ltb_ge k 0)), andb_false_r by lia. now rewrite np_root_ok. Qed.
Lemma py_pow_ok : forall x k, (0 <= k)%Z -> py_pow x k = Ok (x ^ Z.to_nat k).
Proof. intros x k K. unfold py_pow. rewrite (proj2 (Z.ltb_ge k 0)), andb_false_r by lia. now rewrite power_nat. Qed.
Lemma np_pow_ok : forall x k, (0 <= k)%Z -> np_pow x k = Some (x ^ Z.to_nat k).
Proof. intros x k K. unfold np_pow. rewrite (proj2 (Z.ltb_ge k 0)), andb_false_r by lia. now rewrite power_nat. Qed.

(** *** tables *)
Section Tables.
Variable A : Type.
Variable e : A.
Definition get2 (t : list (list A)) (i j : nat) : A := nth j (nth i t []) e.
Definition set2 (t : list (list A)) (i j : nat) (x : A) : list (list A) := upd t i (upd (nth i t []) j x).
Definition sq (K : nat) (t : list (list A)) : Prop := List.length t = K /\ forall i, (i < K)%nat -> List.length (nth i t []) = K.
Lemma sq_set : forall K t a b x, (a < K)%nat -> sq K t -> sq K (set2 t a b x).
Proof.
  intros K t a b x Ha (L & H). split; [unfold set2; now rewrite upd_length |]. intros i Hi. unfold set2. rewrite nth_upd by (rewrite L; exact Ha).
  destruct (Nat.eqb_spec i a); [rewrite upd_length; apply H; exact Ha | now apply H].
Qed.
Lemma get_set : forall K t a b x a' b', (a < K)%nat -> (b < K)%nat -> sq K t ->
  get2 (set2 t a b x) a' b' = if (Nat.eqb a' a && Nat.eqb b' b)%bool then x else get2 t a' b'.
Proof.
  intros K t a b x a' b' Ha Hb (L & H). unfold get2, set2. rewrite nth_upd by (rewrite L; exact Ha).
  destruct (Nat.eqb_spec a' a) as [-> | n]; cbn [andb]; [| reflexivity]. rewrite nth_upd; [reflexivity |]. rewrite H by exact Ha. exact Hb.
Qed.
(** the cells in S have their value in G *)
Variable G : nat -> nat -> A.
Definition right (t : list (list A)) (S : nat -> nat -> Prop) : Prop := forall a b, S a b -> get2 t a b = G a b.
Lemma right_set : forall K t S a b x, (a < K)%nat -> (b < K)%nat -> sq K t -> right t S -> x = G a b ->
  right (set2 t a b x) (fun i j => S i j \/ (i = a /\ j = b)).
Proof.
  intros K t S a b x Ha Hb Q H -> i j D. rewrite (get_set (K := K)) by assumption.
  destruct (Nat.eqb_spec i a) as [-> |], (Nat.eqb_spec j b) as [-> |]; cbn [andb]; try reflexivity; apply H; tauto.
Qed.
Lemma right_less : forall t (S S' : nat -> nat -> Prop), (forall a b, S' a b -> S a b) -> right t S -> right t S'.
Proof. intros t S S' H R a b D. apply R. auto. Qed.
Lemma fold_right_cells : forall (X : Type) K (f : list (list A) -> X -> pres (list (list A))) (C : X -> nat -> nat -> Prop) l t S,
  (forall t S x, In x l -> sq K t -> right t S -> exists t', f t x = Ok t' /\ sq K t' /\ right t' (fun a b => S a b \/ C x a b)) ->
  sq K t -> right t S -> exists t', mfold f l t = Ok t' /\ sq K t' /\ right t' (fun a b => S a b \/ exists x, In x l /\ C x a b).
Proof.
  intros X K f C l. induction l as [| x l IH]; intros t S H Q R.
  - exists t. split; [reflexivity |]. split; [exact Q |]. eapply right_less; [| exact R]. intros a b [D | (x & [] & _)]. exact D.
  - destruct (H t S x) as (t1 & E1 & Q1 & R1); [cbn; tauto | exact Q | exact R |]. cbn [mfold]. rewrite E1. cbn [pbind].
    destruct (IH t1 (fun a b => S a b \/ C x a b)) as (t2 & E2 & Q2 & R2); [| exact Q1 | exact R1 |].
    + intros t' S' y Hy. apply H. cbn. tauto.
    + exists t2. split; [exact E2 |]. split; [exact Q2 |]. eapply right_less; [| exact R2].
      intros a b [D | (y & [<- | Hy] & D)]; [tauto | tauto |]. right. exists y. tauto.
Qed.
End Tables.
Lemma sq_repeat : forall A (x : A) K, sq K (repeat (repeat x K) K).
Proof. intros A x K. split; [apply repeat_length |]. intros i H. rewrite nth_repeat' by exact H. apply repeat_length. Qed.
Lemma all_pairs : forall n a b, (a < n)%nat -> (b < n)%nat -> In (a, b) (list_prod (seq 0 n) (seq 0 n)).
Proof. intros n a b Ha Hb. apply in_prod; apply in_seq; lia. Qed.
Lemma pair_range : forall n ij, In ij (list_prod (seq 0 n) (seq 0 n)) -> (fst ij < n)%nat /\ (snd ij < n)%nat.
Proof. intros n [i j] H. apply in_prod_iff in H as (A & B). apply in_seq in A, B. cbn. lia. Qed.

(** *** the data of the cables *)
Definition strand_gmr (c : cdata) : R := kroot (c_k c) (c_sg c * IZR (c_k c) * c_radius c ^ (Z.to_nat (c_k c) - 1)).
Definition after (u : ug_data) (cs : list cdata) : ug_data :=
  {| u_own := (u_own u ++ map c_radius cs)%list; u_cr := (u_cr u ++ map (fun c => Some (c_r c)) cs)%list;
     u_nr := (u_nr u ++ map (fun c => Some (c_sr c / IZR (c_k c))) cs)%list; u_cg := (u_cg u ++ map (fun c => Some (Some (c_g c))) cs)%list;
     u_ng := (u_ng u ++ map (fun c => Some (Some (strand_gmr c))) cs)%list;
     u_k := match rev cs with c :: _ => Some (c_k c) | [] => u_k u end |}.
Lemma strand_pos : forall w c, has_data w c -> 0 < c_sg c * IZR (c_k c) * c_radius c ^ (Z.to_nat (c_k c) - 1).
Proof.
  intros w c (_ & _ & _ & _ & _ & _ & _ & R0 & K & _ & S0). pose proof (IZR_pos K). repeat apply Rmult_lt_0_compat; try assumption. now apply pow_lt.
Qed.
Lemma scan_cable : forall u w c, has_data w c -> ug_scan u w = Ok (after u [c]).
Proof.
  intros u w c H. pose proof (strand_pos H) as SP. destruct H as (N & (od & nd & O & Nd & Rd) & K & Rs & G & SR & SG & R0 & K0 & G0 & S0).
  unfold ug_scan. rewrite (proj2 (neutral_false w) N), O, Nd, K, Rs, G, SR, SG. cbn [attribute number pbind].
  rewrite (proj2 (Z.eqb_neq (c_k c) 0)) by lia. cbn [negb guard pbind].
  replace ((od - nd) / (12 * 2)) with (c_radius c) by (rewrite Rd; lra).
  rewrite py_pow_ok by lia. cbn [pbind]. replace (Z.to_nat (c_k c - 1)) with (Z.to_nat (c_k c) - 1)%nat by lia.
  rewrite py_root_ok by assumption. cbn [pbind]. unfold after. cbn [map rev app option_map]. reflexivity.
Qed.
Lemma after_cons : forall u c cs, after (after u [c]) cs = after u (c :: cs).
Proof.
  intros u c cs. unfold after. cbn [u_own u_cr u_nr u_cg u_ng u_k map rev]. rewrite <- !app_assoc. cbn [app]. f_equal.
  destruct (rev cs); reflexivity.
Qed.
Lemma scan_cables : forall ps cs ns u, Forall2 has_data ps cs -> mfold ug_scan (ps ++ ns) u = mfold ug_scan ns (after u cs).
Proof.
  intros ps cs ns u H. revert u. induction H as [| w c ps cs Hw H IH]; intros u.
  - cbn [app]. unfold after. cbn [map rev]. rewrite !app_nil_r. now destruct u.
  - cbn [app mfold]. rewrite (scan_cable u Hw). cbn [pbind]. rewrite IH. now rewrite after_cons.
Qed.
Definition scanned (cs : list cdata) (neutral : option (R * R)) : ug_data :=
  {| u_own := (map c_radius cs ++ match neutral with Some _ => [0] | None => [] end)%list; u_cr := map (fun c => Some (c_r c)) cs;
     u_nr := (map (fun c => Some (c_sr c / IZR (c_k c))) cs ++ match neutral with Some (r, _) => [Some r] | None => [] end)%list;
     u_cg := map (fun c => Some (Some (c_g c))) cs;
     u_ng := (map (fun c => Some (Some (strand_gmr c))) cs ++ match neutral with Some (_, g) => [Some (Some g)] | None => [] end)%list;
     u_k := Some (last_k cs) |}.
Lemma scan_all : forall ws cs neutral, laid ws cs neutral -> mfold ug_scan ws no_data = Ok (scanned cs neutral).
Proof.
  intros ws cs neutral (ps & ns & -> & H & NE & HN). rewrite (scan_cables ns no_data H).
  assert (K : match rev cs with c :: _ => Some (c_k c) | [] => None end = Some (last_k cs)).
  { unfold last_k. destruct (rev cs) eqn:E; [| reflexivity]. apply (f_equal (@rev _)) in E. rewrite rev_involutive in E. now elim NE. }
  destruct neutral as [(r, g) |].
  - destruct HN as (w & -> & Nw & Rw & Gw & G0). cbn [mfold]. unfold ug_scan. rewrite (proj2 (neutral_true w) Nw), Rw, Gw. cbn [pbind].
    unfold after, scanned, no_data. cbn [u_own u_cr u_nr u_cg u_ng u_k app option_map]. now rewrite K.
  - subst ns. cbn [mfold]. unfold after, scanned, no_data. cbn [u_own u_cr u_nr u_cg u_ng u_k app]. now rewrite K, !app_nil_r.
Qed.
