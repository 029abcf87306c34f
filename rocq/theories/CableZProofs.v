(** The series impedance of an underground line. *)
From Coq Require Import Reals ZArith String Ascii List Bool Lia Lra Arith.
From Verif Require Import PyExc SpecComponents SpecUnbalanced Components UnbalancedLine GlmText LineImpedance SpecReader SpecLineZ KronProofs CarsonProofs Cables SpecCables ShuntProofs ChargeProofs RingProofs.
Import ListNotations.
Local Open Scope R_scope.
Set Implicit Arguments.

Lemma f2_length : forall A B (P : A -> B -> Prop) l m, Forall2 P l m -> List.length l = List.length m.
Proof. induction 1; cbn; congruence. Qed.
Section Line.
Variables (ws : list wire) (cs : list cdata) (neutral : option (R * R)) (d : dmat) (D : nat -> nat -> R).
Hypothesis LA : laid ws cs neutral.
Let n := List.length cs.
Let b := List.length ws.
Let k := last_k cs.
Hypothesis SU : surveyed b cs d D.

Lemma sizes : b = (n + match neutral with Some _ => 1 | None => 0 end)%nat.
Proof.
  destruct LA as (ps & ns & W & H & _ & HN). unfold b, n. rewrite W, app_length, (f2_length H). f_equal.
  destruct neutral as [[r g] |]; [destruct HN as (w & -> & _); reflexivity | now subst ns].
Qed.
Lemma n_pos : (0 < n)%nat.
Proof. destruct LA as (ps & ns & _ & _ & NE & _). unfold n. destruct cs; [now elim NE | cbn; lia]. Qed.
Lemma cable_in : forall i, (i < n)%nat -> exists c w, nth_error cs i = Some c /\ nth_error ws i = Some w /\ has_data w c.
Proof.
  destruct LA as (ps & ns & -> & H & _ & _). unfold n. clear -H. induction H as [| w c ps cs Hw H IH]; intros i Hi; [cbn in Hi; lia |].
  destruct i as [| i]; [exists c, w; auto |]. cbn in Hi. destruct (IH i) as (c' & w' & A & B & C); [lia |]. exists c', w'. auto.
Qed.
Lemma data_of : forall c, In c cs -> exists w, has_data w c.
Proof.
  intros c Hc. apply In_nth_error in Hc as (i & Hi). destruct (@cable_in i) as (c' & w & A & _ & B).
  - unfold n. apply nth_error_Some. congruence.
  - exists w. congruence.
Qed.
Lemma k_pos : (0 < k)%Z.
Proof.
  destruct LA as (_ & _ & _ & _ & NE & _). unfold k, last_k. destruct (rev cs) as [| c l] eqn:E.
  - apply (f_equal (@rev _)) in E. rewrite rev_involutive in E. now elim NE.
  - destruct (@data_of c) as (w & _ & _ & _ & _ & _ & _ & _ & _ & K & _); [| exact K]. apply in_rev. rewrite E. cbn. tauto.
Qed.
Lemma wire_in : forall i, (i < b)%nat -> exists w, wire_at ws i = Ok w /\ is_neutral w = negb (Nat.ltb i n).
Proof.
  intros i Hi. destruct (Nat.ltb_spec i n) as [L | L].
  - destruct (cable_in L) as (c & w & _ & W & Hw). exists w. split; [now apply nth_wire |]. apply neutral_false, Hw.
  - pose proof sizes as SZ. destruct LA as (ps & ns & W & H & _ & HN). destruct neutral as [[r g] |]; [| lia].
    destruct HN as (w & -> & Nw & _). assert (i = n) as -> by lia. exists w. split; [| now apply neutral_true].
    apply nth_wire. rewrite W, nth_error_app2 by (rewrite (f2_length H); unfold n; lia).
    rewrite (f2_length H). unfold n. now rewrite Nat.sub_diag.
Qed.
Lemma ring_cable : forall i c, nth_error cs i = Some c -> ring cs i = c_radius c.
Proof. intros i c H. unfold ring. now rewrite H. Qed.
Lemma ring_nonneg : forall i, 0 <= ring cs i.
Proof.
  intros i. unfold ring. destruct (nth_error cs i) as [c |] eqn:E; [| lra]. apply nth_error_In in E.
  destruct (data_of _ E) as (w & _ & _ & _ & _ & _ & _ & _ & R0 & _). lra.
Qed.
Lemma own_ring : forall i, nth i (u_own (scanned cs neutral)) 0 = ring cs i.
Proof.
  intros i. unfold scanned, ring. cbn [u_own]. destruct (nth_error cs i) as [c |] eqn:E.
  - apply nth_error_nth. rewrite nth_error_app1 by (rewrite map_length; apply nth_error_Some; congruence). now rewrite nth_error_map, E.
  - apply nth_error_None in E. rewrite app_nth2 by (rewrite map_length; exact E). destruct neutral as [[r g] |].
    + now destruct (_ - _)%nat as [| [| ?]].
    + now destruct (_ - _)%nat.
Qed.
Lemma dist_ok : forall i j, (i < b)%nat -> (j < b)%nat -> dist_at d i j = Ok (D i j).
Proof. intros i j Hi Hj. destruct (SU Hi Hj) as ((row & A & B) & _). unfold dist_at. now rewrite A, B. Qed.

(** conductor to neutral *)
Definition cn_of (i j : nat) : R := if Nat.eqb i j then ring cs i else kroot k (D i j ^ Z.to_nat k - ring cs j ^ Z.to_nat k).
Lemma power_diff : forall i j, (i < b)%nat -> (j < b)%nat -> i <> j -> 0 < D i j ^ Z.to_nat k - ring cs j ^ Z.to_nat k.
Proof.
  intros i j Hi Hj NE. destruct (SU Hi Hj) as (_ & P). destruct (P NE) as (D0 & DR).
  assert (ring cs j ^ Z.to_nat k < D i j ^ Z.to_nat k) by (apply pow_lt_pos; [apply k_pos | split; [apply ring_nonneg | exact DR]]). lra.
Qed.
Lemma to_neutral_ok : forall i j, (i < b)%nat -> (j < b)%nat -> to_neutral d (scanned cs neutral) i j = Ok (Some (cn_of i j)).
Proof.
  intros i j Hi Hj. unfold to_neutral, cn_of. rewrite !own_ring. destruct (Nat.eqb_spec i j) as [| NE]; [reflexivity |].
  rewrite dist_ok by assumption. cbn [pbind u_k scanned]. fold k. pose proof k_pos. rewrite py_pow_ok by lia. cbn [pbind].
  rewrite np_pow_ok by lia. rewrite np_root_ok; [reflexivity | assumption | now apply power_diff].
Qed.
Lemma cn_pos : forall i j, (i < n)%nat -> (j < b)%nat -> 0 < cn_of i j.
Proof.
  intros i j Hi Hj. pose proof sizes. unfold cn_of. destruct (Nat.eqb_spec i j) as [<- | NE].
  - destruct (cable_in Hi) as (c & w & C & _ & Hw). rewrite (ring_cable _ C). apply Hw.
  - apply kroot_ok; [apply k_pos |]. apply power_diff; lia.
Qed.
Lemma neutral_table : exists t, neutral_dists b d (scanned cs neutral) = Ok t /\
  forall i j, (i < b)%nat -> (j < b)%nat -> rget t i j = Some (cn_of i j).
Proof.
  destruct (@fold_right_cells (option R) (Some 0) (fun i j => Some (cn_of i j)) (nat * nat) b
    (fun t ij => do x <- to_neutral d (scanned cs neutral) (fst ij) (snd ij); Ok (rput t (fst ij) (snd ij) x))
    (fun ij a c => a = fst ij /\ c = snd ij) (list_prod (seq 0 b) (seq 0 b)) (rzeros b) (fun _ _ => False)) as (t & F & _ & R).
  - intros t S [i j] Hin Q R. apply pair_range in Hin as (Hi & Hj). cbn [fst snd] in *. rewrite to_neutral_ok by assumption. cbn [pbind].
    eexists. split; [reflexivity |]. split; [now apply sq_set |]. now apply (right_set (K := b)).
  - apply sq_repeat.
  - intros a c [].
  - exists t. split; [exact F |]. intros i j Hi Hj. apply R. right. exists (i, j). split; [now apply all_pairs | auto].
Qed.

(** all distances *)
Definition all_dist (a c : nat) : R :=
  if Nat.ltb a n then if Nat.ltb c n then D a c else cn_of a (c - n)
  else if Nat.ltb c n then cn_of c (a - n) else D (a - n) (c - n).
Lemma ltb_yes : forall x y, (x < y)%nat -> Nat.ltb x y = true.
Proof. intros. now apply Nat.ltb_lt. Qed.
Lemma ltb_no : forall x y, (y <= x)%nat -> Nat.ltb x y = false.
Proof. intros. now apply Nat.ltb_ge. Qed.
Lemma dist_table : forall cn, (forall i j, (i < b)%nat -> (j < b)%nat -> rget cn i j = Some (cn_of i j)) ->
  exists t, mfold (dist_step ws d cn n) (list_prod (seq 0 b) (seq 0 b)) (rzeros (n + b)) = Ok t /\
  forall a c, (a < n + b)%nat -> (c < n + b)%nat -> rget t a c = Some (all_dist a c).
Proof.
  intros cn HC. pose proof sizes as SZ.
  destruct (@fold_right_cells (option R) (Some 0) (fun a c => Some (all_dist a c)) (nat * nat) (n + b)
    (dist_step ws d cn n)
    (fun ij a c => ((fst ij < n)%nat /\ (snd ij < n)%nat /\ a = fst ij /\ c = snd ij) \/ ((fst ij < n)%nat /\ a = fst ij /\ c = (n + snd ij)%nat) \/
                   ((snd ij < n)%nat /\ a = (n + fst ij)%nat /\ c = snd ij) \/ (a = (n + fst ij)%nat /\ c = (n + snd ij)%nat))
    (list_prod (seq 0 b) (seq 0 b)) (rzeros (n + b)) (fun _ _ => False)) as (t & F & _ & R).
  - intros t S [i j] Hin Q R. apply pair_range in Hin as (Hi & Hj). cbn [fst snd] in *.
    destruct (wire_in Hi) as (wi & Wi & Ni). destruct (wire_in Hj) as (wj & Wj & Nj).
    unfold dist_step. rewrite Wi, Wj. cbn [pbind]. rewrite Ni, Nj, dist_ok by assumption. cbn [pbind].
    rewrite !HC by assumption.
    assert (T1 : exists t1, (if (negb (Nat.ltb i n) || negb (Nat.ltb j n))%bool then @Ok rtable t else Ok (rput t i j (Some (D i j)))) = Ok t1 /\
       sq (n + b) t1 /\ right (Some 0) (fun a c => Some (all_dist a c)) t1 (fun a c => S a c \/ ((i < n)%nat /\ (j < n)%nat /\ a = i /\ c = j))).
    { destruct (Nat.ltb_spec i n) as [Li | Li], (Nat.ltb_spec j n) as [Lj | Lj]; cbn [negb orb]; eexists; (split; [reflexivity |]);
        try (split; [exact Q |]; eapply right_less; [| exact R]; intros; lia || tauto).
      - split; [apply sq_set; [lia | exact Q] |]. eapply right_less; [| apply (right_set (K := n + b)) with (S := S); try lia; try assumption].
        + cbn beta. tauto.
        + unfold all_dist. now rewrite !ltb_yes.
      - split; [exact Q |]. eapply right_less; [| exact R]. cbn beta. intros a c [H | H]; [exact H | lia].
      - split; [exact Q |]. eapply right_less; [| exact R]. cbn beta. intros a c [H | H]; [exact H | lia].
      - split; [exact Q |]. eapply right_less; [| exact R]. cbn beta. intros a c [H | H]; [exact H | lia]. }
    destruct T1 as (t1 & E1 & Q1 & R1). rewrite E1. cbn [pbind].
    set (S1 := fun a c => S a c \/ ((i < n)%nat /\ (j < n)%nat /\ a = i /\ c = j)) in *.
    assert (T2 : exists t2, (if negb (Nat.ltb i n) then t1 else rput t1 i (n + j) (Some (cn_of i j))) = t2 /\
       sq (n + b) t2 /\ right (Some 0) (fun a c => Some (all_dist a c)) t2 (fun a c => S1 a c \/ ((i < n)%nat /\ a = i /\ c = (n + j)%nat))).
    { destruct (Nat.ltb_spec i n) as [Li | Li]; cbn [negb]; eexists; (split; [reflexivity |]).
      - split; [apply sq_set; [lia | exact Q1] |]. eapply right_less; [| apply (right_set (K := n + b)) with (S := S1); try lia; try assumption].
        + cbn beta. tauto.
        + unfold all_dist. rewrite ltb_yes, ltb_no by lia. do 2 f_equal. lia.
      - split; [exact Q1 |]. eapply right_less; [| exact R1]. cbn beta. intros a c [H | H]; [exact H | lia]. }
    destruct T2 as (t2 & -> & Q2 & R2).
    set (S2 := fun a c => S1 a c \/ ((i < n)%nat /\ a = i /\ c = (n + j)%nat)) in *.
    assert (T3 : exists t3, (if negb (Nat.ltb j n) then t2 else rput t2 (n + i) j (Some (cn_of j i))) = t3 /\
       sq (n + b) t3 /\ right (Some 0) (fun a c => Some (all_dist a c)) t3 (fun a c => S2 a c \/ ((j < n)%nat /\ a = (n + i)%nat /\ c = j))).
    { destruct (Nat.ltb_spec j n) as [Lj | Lj]; cbn [negb]; eexists; (split; [reflexivity |]).
      - split; [apply sq_set; [lia | exact Q2] |]. eapply right_less; [| apply (right_set (K := n + b)) with (S := S2); try lia; try assumption].
        + cbn beta. tauto.
        + unfold all_dist. rewrite (ltb_no (x := n + i)), (ltb_yes (x := j)) by lia. do 2 f_equal. lia.
      - split; [exact Q2 |]. eapply right_less; [| exact R2]. cbn beta. intros a c [H | H]; [exact H | lia]. }
    destruct T3 as (t3 & -> & Q3 & R3).
    set (S3 := fun a c => S2 a c \/ ((j < n)%nat /\ a = (n + i)%nat /\ c = j)) in *.
    eexists. split; [reflexivity |]. split; [apply sq_set; [lia | exact Q3] |].
    eapply right_less; [| apply (right_set (K := n + b)) with (S := S3); try lia; try assumption].
    + cbn beta. unfold S3, S2, S1. tauto.
    + unfold all_dist. rewrite !ltb_no by lia. do 2 f_equal; lia.
  - apply sq_repeat.
  - intros a c [].
  - exists t. split; [exact F |]. intros a c Ha Hc. apply R. right.
    exists (if Nat.ltb a n then a else a - n, if Nat.ltb c n then c else c - n)%nat.
    destruct (Nat.ltb_spec a n), (Nat.ltb_spec c n); (split; [apply all_pairs; lia |]); cbn [fst snd]; lia.
Qed.
Lemma all_dist_pos : forall a c, (a < n + b)%nat -> (c < n + b)%nat -> a <> c -> 0 < all_dist a c.
Proof.
  intros a c Ha Hc NE. pose proof sizes. unfold all_dist. destruct (Nat.ltb_spec a n), (Nat.ltb_spec c n).
  - apply (SU (i := a) (j := c)); lia.
  - apply cn_pos; lia.
  - apply cn_pos; lia.
  - apply (SU (i := (a - n)%nat) (j := (c - n)%nat)); lia.
Qed.

(** the primitive matrix *)
Variable z : nat -> nat -> C.
Hypothesis PR : cable_primitive cs neutral b D z.
Lemma cable_mutual_ok : forall x, 0 < x -> zij_ug (Some x) = Some (cable_mutual x).
Proof.
  intros x P. unfold zij_ug. rewrite log_inv_pos by exact P. cbn. unfold cable_mutual.
  replace 0.09327 with (9327 / 100000) by lra. replace 0.12134 with (12134 / 100000) by lra. replace 7.95153 with (795153 / 100000) by lra. reflexivity.
Qed.
Lemma cable_self_ok : forall py r g, 0 < g -> zii_ug py (Some r) (Some (Some g)) = Ok (Some (cable_self r g)).
Proof.
  intros py r g P. unfold zii_ug. cbn [number pbind]. rewrite (proj2 (reqb_false g 0)) by lra. rewrite andb_false_r. cbn [negb guard pbind].
  rewrite log_inv_pos by exact P. cbn. unfold cable_self.
  replace 0.09327 with (9327 / 100000) by lra. replace 0.12134 with (12134 / 100000) by lra. replace 7.95153 with (795153 / 100000) by lra. reflexivity.
Qed.
Lemma mutual_entry : forall a c, (a < n + b)%nat -> (c < n + b)%nat -> a <> c -> z a c = cable_mutual (all_dist a c).
Proof.
  intros a c Ha Hc NE. pose proof sizes as SZ. destruct PR as (P1 & _ & P3 & P4 & P5). fold n k in P1, P3, P4, P5. unfold all_dist.
  assert (CN : forall i j, (i < n)%nat -> (j < b)%nat -> z i (n + j)%nat = cable_mutual (cn_of i j) /\ z (n + j)%nat i = cable_mutual (cn_of i j)).
  { intros i j Hi Hj. unfold cn_of. destruct (Nat.eqb_spec i j) as [<- | NE'].
    - destruct (cable_in Hi) as (cd & w & Ci & _ & _). destruct (P1 i cd Ci) as (_ & _ & A & B). now rewrite (ring_cable _ Ci).
    - destruct (P5 i j Hi Hj NE') as (x & Rx & A & B). assert (x = kroot k (D i j ^ Z.to_nat k - ring cs j ^ Z.to_nat k)) as <-; [| auto].
      eapply root_unique; [apply k_pos | exact Rx |]. apply kroot_ok; [apply k_pos |]. apply power_diff; lia. }
  destruct (Nat.ltb_spec a n), (Nat.ltb_spec c n).
  - apply P3; assumption.
  - replace c with (n + (c - n))%nat at 1 by lia. apply CN; lia.
  - replace a with (n + (a - n))%nat at 1 by lia. apply CN; lia.
  - replace c with (n + (c - n))%nat at 1 by lia. replace a with (n + (a - n))%nat at 1 by lia. apply P4; lia.
Qed.
Lemma self_entry : forall py a, (a < n + b)%nat ->
  zii_ug py (nth a (u_cr (scanned cs neutral) ++ u_nr (scanned cs neutral)) None) (nth a (u_cg (scanned cs neutral) ++ u_ng (scanned cs neutral)) None) = Ok (Some (z a a)).
Proof.
  intros py a Ha. pose proof sizes as SZ. destruct PR as (P1 & P2 & _). fold n in P1, P2. unfold scanned. cbn [u_cr u_nr u_cg u_ng].
  destruct (Nat.ltb_spec a n) as [L | L].
  - destruct (cable_in L) as (c & w & Ci & _ & Hw). rewrite !app_nth1 by (rewrite map_length; exact L).
    rewrite (nth_error_nth (map _ cs) a None (x := Some (c_r c))) by (rewrite nth_error_map, Ci; reflexivity).
    rewrite (nth_error_nth (map _ cs) a None (x := Some (Some (c_g c)))) by (rewrite nth_error_map, Ci; reflexivity).
    destruct (P1 a c Ci) as (-> & _). apply cable_self_ok. apply Hw.
  - rewrite (app_nth2 (map (fun c => Some (c_r c)) cs)) by (rewrite map_length; exact L).
    rewrite (app_nth2 (map (fun c => Some (Some (c_g c))) cs)) by (rewrite map_length; exact L). rewrite !map_length. fold n.
    destruct (Nat.ltb_spec (a - n) n) as [L2 | L2].
    + destruct (cable_in L2) as (c & w & Ci & _ & Hw). rewrite !app_nth1 by (rewrite map_length; exact L2).
      rewrite (nth_error_nth (map _ cs) (a - n) None (x := Some (c_sr c / IZR (c_k c)))) by (rewrite nth_error_map, Ci; reflexivity).
      rewrite (nth_error_nth (map _ cs) (a - n) None (x := Some (Some (strand_gmr c)))) by (rewrite nth_error_map, Ci; reflexivity).
      destruct (P1 _ c Ci) as (_ & (g & Rg & Zg) & _). replace (n + (a - n))%nat with a in Zg by lia. rewrite Zg.
      assert (g = strand_gmr c) as ->.
      { eapply root_unique; [apply Hw | exact Rg |]. apply kroot_ok; [apply Hw |]. eapply strand_pos, Hw. }
      apply cable_self_ok. apply kroot_ok; [apply Hw |]. eapply strand_pos, Hw.
    + destruct neutral as [[r g] |] eqn:EN; [| lia]. rewrite !app_nth2 by (rewrite map_length; exact L2). rewrite !map_length. fold n.
      replace (a - n - n)%nat with 0%nat by lia. cbn [nth]. assert (a = n + n)%nat as -> by lia. rewrite (P2 r g eq_refl).
      apply cable_self_ok. destruct LA as (ps & ns & _ & _ & _ & HN). destruct HN as (w & _ & _ & _ & _ & G0). exact G0.
Qed.
Lemma z_table : forall t, (forall a c, (a < n + b)%nat -> (c < n + b)%nat -> rget t a c = Some (all_dist a c)) ->
  exists m, mfold (ug_cell (u_cr (scanned cs neutral) ++ u_nr (scanned cs neutral)) (u_cg (scanned cs neutral) ++ u_ng (scanned cs neutral)) t)
              (list_prod (seq 0 (n + b)) (seq 0 (n + b))) (zeros (n + b)) = Ok m /\ holds (n + b) (n + b) m z.
Proof.
  intros t HT.
  destruct (@fold_right_cells xnum (Some (0, 0)) (fun a c => Some (z a c)) (nat * nat) (n + b)
    (ug_cell (u_cr (scanned cs neutral) ++ u_nr (scanned cs neutral)) (u_cg (scanned cs neutral) ++ u_ng (scanned cs neutral)) t)
    (fun ij a c => a = fst ij /\ c = snd ij) (list_prod (seq 0 (n + b)) (seq 0 (n + b))) (zeros (n + b)) (fun _ _ => False)) as (m & F & Q & R).
  - intros m S [i j] Hin Q R. apply pair_range in Hin as (Hi & Hj). cbn [fst snd] in *. unfold ug_cell. destruct (Nat.eqb_spec i j) as [<- | NE].
    + rewrite self_entry by exact Hi. cbn [pbind]. eexists. split; [reflexivity |]. split; [now apply sq_set |]. now apply (right_set (K := n + b)).
    + eexists. split; [reflexivity |]. split; [now apply sq_set |]. apply (right_set (K := n + b)); auto.
      rewrite HT by assumption. rewrite cable_mutual_ok by now apply all_dist_pos. now rewrite mutual_entry.
  - apply sq_repeat.
  - intros a c [].
  - exists m. split; [exact F |]. apply sized_holds; [exact Q |]. intros a c Ha Hc. apply R. right. exists (a, c). split; [now apply all_pairs | auto].
Qed.
Lemma cable_matrix : forall E, inverts E b (fun i j => z (n + i)%nat (n + j)%nat) -> exists m y fy,
  underground_z E ws d = Ok m /\ holds n n m (fun i j => Csub (z i j) (Csum (fun l => Cmul (Csum (fun h => Cmul (z i (n + h)%nat) (fy h l)) b) (z (n + l)%nat j)) b))
  /\ holds b b y fy /\ left_inverse b fy (fun i j => z (n + i)%nat (n + j)%nat) /\ right_inverse b fy (fun i j => z (n + i)%nat (n + j)%nat)
  /\ grounded_law n b z (fun i j => Csub (z i j) (Csum (fun l => Cmul (Csum (fun h => Cmul (z i (n + h)%nat) (fy h l)) b) (z (n + l)%nat j)) b)).
Proof.
  intros E INV. pose proof sizes as SZ. pose proof n_pos as NP. unfold underground_z. rewrite (scan_all LA). cbn [pbind]. fold b.
  destruct neutral_table as (cn & -> & HC). cbn [pbind].
  assert (L1 : List.length (u_cr (scanned cs neutral)) = n) by (unfold scanned; cbn [u_cr]; apply map_length).
  assert (L2 : List.length (u_cr (scanned cs neutral) ++ u_nr (scanned cs neutral)) = (n + b)%nat).
  { rewrite app_length, L1. unfold scanned. cbn [u_nr]. rewrite app_length, map_length. fold n. rewrite SZ. destruct neutral as [[r g] |]; cbn [List.length]; lia. }
  rewrite L1, L2. destruct (dist_table _ HC) as (t & -> & HT). cbn [pbind]. destruct (z_table _ HT) as (m & -> & Hm). cbn [pbind].
  assert (HALF : ((n + b) / 2 = n)%nat).
  { rewrite SZ. destruct neutral; [replace (n + (n + 1))%nat with (1 + n * 2)%nat by lia | replace (n + (n + 0))%nat with (0 + n * 2)%nat by lia];
      rewrite Nat.div_add by lia; cbn; lia. }
  rewrite HALF. replace (n + b - n)%nat with b by lia.
  assert (Hl : forall i, In i (seq 0 n) -> (i < n + b)%nat) by (intros i Hi; apply in_seq in Hi; lia).
  assert (Hh : forall i, In i (seq n b) -> (i < n + b)%nat) by (intros i Hi; apply in_seq in Hi; lia).
  assert (B1 : holds n n (block m (seq 0 n) (seq 0 n)) z).
  { pose proof (block_holds _ _ Hm Hl Hl) as B. rewrite !seq_length in B. eapply holds_ext; [| exact B]. intros i j Hi Hj. cbn beta. now rewrite !seq_nth by assumption. }
  assert (B2 : holds n b (block m (seq 0 n) (seq n b)) (fun i j => z i (n + j)%nat)).
  { pose proof (block_holds _ _ Hm Hl Hh) as B. rewrite !seq_length in B. eapply holds_ext; [| exact B]. intros i j Hi Hj. cbn beta. now rewrite !seq_nth by assumption. }
  assert (B3 : holds b n (block m (seq n b) (seq 0 n)) (fun i j => z (n + i)%nat j)).
  { pose proof (block_holds _ _ Hm Hh Hl) as B. rewrite !seq_length in B. eapply holds_ext; [| exact B]. intros i j Hi Hj. cbn beta. now rewrite !seq_nth by assumption. }
  assert (B4 : holds b b (block m (seq n b) (seq n b)) (fun i j => z (n + i)%nat (n + j)%nat)).
  { pose proof (block_holds _ _ Hm Hh Hh) as B. rewrite !seq_length in B. eapply holds_ext; [| exact B]. intros i j Hi Hj. cbn beta. now rewrite !seq_nth by assumption. }
  destruct (INV _ B4) as (y & fy & Py & Hy & LI & RI).
  assert (Kr : exists k0, kron E (block m (seq 0 n) (seq 0 n)) (block m (seq 0 n) (seq n b)) (block m (seq n b) (seq 0 n)) (block m (seq n b) (seq n b)) = Ok k0).
  { unfold kron. rewrite Py. eauto. }
  destruct Kr as (k0 & Kr). assert (BP : (0 < b)%nat) by lia.
  exists k0, y, fy. split; [exact Kr |]. split; [eapply kron_holds; eassumption |]. split; [exact Hy |]. split; [exact LI |]. split; [exact RI |].
  intros ia inn H i Hi. rewrite times_sub.
  rewrite (times_comp b n (fun i l => Csum (fun h => Cmul (z i (n + h)%nat) (fy h l)) b) (fun l j => z (n + l)%nat j)), times_comp.
  assert (X : forall l, (l < b)%nat -> times b fy (times n (fun l j => z (n + l)%nat j) ia) l = Copp (inn l)).
  { intros l Hl'. rewrite (times_ext fy _ (fun h => Copp (times b (fun i j => z (n + i)%nat (n + j)%nat) inn h))).
    - rewrite times_opp, LI by exact Hl'. reflexivity.
    - intros h Hh'. specialize (H h Hh'). revert H. generalize (times n (fun l j => z (n + l)%nat j) ia h), (times b (fun i j => z (n + i)%nat (n + j)%nat) inn h).
      intros [u1 u2] [w1 w2] H. unfold Cadd, C0 in H. cbn [fst snd] in H. injection H; intros. unfold Copp. cbn [fst snd]. f_equal; lra. }
  rewrite (times_ext (fun i h => z i (n + h)%nat) _ (fun h => Copp (inn h)) i X), times_opp. cring.
Qed.
End Line.
