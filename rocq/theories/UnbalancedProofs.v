(** Proofs for C36, C37 and C64. *)
From Coq Require Import String List Bool Arith ZArith Reals Lra Lia.
From Verif Require Import Expr Segment ExprProofs Collect SpecSystem Components SpecComponents ComponentsProofs ElementProofs UnbalancedLine SpecUnbalanced UnbalancedBranch.
Import ListNotations.
Local Open Scope R_scope.

(** *** sums *)
Definition lsum {A} (g : A -> R) (l : list A) : R := fold_right (fun i acc => g i + acc) 0 l.
Lemma Rsum_lsum : forall g n, Rsum g n = lsum g (seq 0 n).
Proof. reflexivity. Qed.
Lemma lsum_ext : forall A (g h : A -> R) l, (forall x, In x l -> g x = h x) -> lsum g l = lsum h l.
Proof. induction l as [|x l IH]; intros H; [reflexivity|]. simpl. rewrite H by now left. rewrite IH; auto. intros; apply H; now right. Qed.
Lemma lsum_add : forall A (g h : A -> R) l, lsum (fun x => g x + h x) l = lsum g l + lsum h l.
Proof. induction l; simpl; [ring|]. rewrite IHl. ring. Qed.
Lemma lsum_scale : forall A (g : A -> R) k l, lsum (fun x => k * g x) l = k * lsum g l.
Proof. induction l; simpl; [ring|]. rewrite IHl. ring. Qed.
Lemma lsum_zero : forall A (g : A -> R) l, (forall x, In x l -> g x = 0) -> lsum g l = 0.
Proof. intros. rewrite (lsum_ext _ g (fun _ => 0)) by auto. clear H. induction l; simpl; [reflexivity|]. rewrite IHl. ring. Qed.
Lemma lsum_swap : forall A B (g : A -> B -> R) l m, lsum (fun i => lsum (g i) m) l = lsum (fun j => lsum (fun i => g i j) l) m.
Proof.
  induction l as [|x l IH]; intros m; simpl.
  - symmetry. now apply lsum_zero.
  - rewrite IH, <- lsum_add. reflexivity.
Qed.
Lemma lsum_one : forall (g : nat -> R) l i, NoDup l -> In i l -> (forall j, In j l -> j <> i -> g j = 0) -> lsum g l = g i.
Proof.
  induction l as [|x l IH]; intros i Hd Hi H; [destruct Hi|]. inversion Hd; subst. simpl. destruct Hi as [->|Hi].
  - rewrite lsum_zero; [ring|]. intros y Hy. apply H; [now right|]. intros ->. contradiction.
  - rewrite (IH i); auto; [|intros; apply H; auto; now right]. rewrite (H x); [ring|now left|]. intros ->. contradiction.
Qed.
Lemma Csum_fst : forall g n, fst (Csum g n) = Rsum (fun i => fst (g i)) n.
Proof. intros. unfold Csum, Rsum. induction (seq 0 n); simpl; [reflexivity|]. now rewrite IHl. Qed.
Lemma Csum_snd : forall g n, snd (Csum g n) = Rsum (fun i => snd (g i)) n.
Proof. intros. unfold Csum, Rsum. induction (seq 0 n); simpl; [reflexivity|]. now rewrite IHl. Qed.
Lemma in_seq0 : forall i n, In i (seq 0 n) <-> (i < n)%nat.
Proof. intros. rewrite in_seq. lia. Qed.

(** *** all rows *)
Definition Ffs (lines : list (nodes * nodes)) (i : nat) := fst (phase lines i).
Definition Tts (lines : list (nodes * nodes)) (i : nat) := snd (phase lines i).
Lemma F_flat : forall A (g : A -> list stamper) l v tx r,
  F (present (flat_map g l)) v tx r = lsum (fun x => F (present (g x)) v tx r) l.
Proof.
  induction l as [|x l IH]; intros; [reflexivity|]. cbn [flat_map lsum fold_right]. rewrite present_app, F_app, IH. reflexivity.
Qed.
Lemma unb_pair_row : forall lines g b B opt i j v tx r,
  let Y i j := (g i j, b i j) in
  let fi := fst (phase lines i) in let ti := snd (phase lines i) in let fj := fst (phase lines j) in let tj := snd (phase lines j) in
  F (present (unb_pair lines g b B opt i j)) v tx r =
  let I := Cscale (series_scale tx i j) (Cmul (Y i j) (Csub (volt v fj) (volt v tj))) in
  let D := Cscale (series_scale tx i j) (Cmul (Cconj (Y i j)) (Csub (mult v fj) (mult v tj))) in
  let Sh V := Cscale (1 - tx) (Cmul (0, B i j / 2) V) in
  let Sd L := Cscale (1 - tx) (Cmul (0, - B i j / 2) L) in
  balance opt fi (Cadd I (Sh (volt v fj))) r + balance opt ti (Cadd (Copp I) (Sh (volt v tj))) r +
  if opt then at_bus fi (Cadd D (Sd (mult v fj))) r + at_bus ti (Cadd (Copp D) (Sd (mult v tj))) r else 0.
Proof.
  intros lines g b B opt i j v tx r Y fi ti fj tj. unfold unb_pair. fold fi ti. destruct (phase lines i) as [fi' ti'], (phase lines j) as [fj' tj'].
  cbn [fst snd] in fi, ti, fj, tj. subst fi ti fj tj. rewrite !F_some, F_end. unfold series_scale.
  assert (G0 : forall b, Csub (volt v b) (volt v GROUND) = volt v b) by apply volt_gnd.
  assert (G1 : forall b, Csub (mult v b) (mult v GROUND) = mult v b).
  { intros. unfold Csub, mult. apply C_eq; simpl; ring. }
  assert (A0 : forall c r, at_bus GROUND c r = 0) by (intros; unfold at_bus; simpl; ring).
  rewrite !unb_shunt_branch. cbv zeta. rewrite !G0, !G1, !bal_gnd.
  replace (- B i j / 2) with (- (B i j / 2)) by (unfold Rdiv; ring).
  assert (Bopp : forall b x r, at_bus b (Copp x) r = - at_bus b x r) by (intros; unfold at_bus, Copp; simpl; ring).
  assert (Badd : forall b x y r, at_bus b (Cadd x y) r = at_bus b x r + at_bus b y r) by (intros; unfold at_bus, Cadd; simpl; ring).
  destruct (Nat.eqb i j); [rewrite unb_line_branch|rewrite unb_shunt_branch]; cbv zeta; unfold Y, Cconj; cbn [fst snd];
    rewrite !bal_add, !bal_opp; destruct opt; rewrite ?Badd, ?Bopp, ?A0; ring.
Qed.

Lemma bal_sum : forall opt b g n r, balance opt b (Csum g n) r = lsum (fun j => balance opt b (g j) r) (seq 0 n).
Proof. intros. unfold Csum. induction (seq 0 n) as [|x l IH]; simpl; [apply bal_0|]. rewrite bal_add, IH. reflexivity. Qed.
Lemma atb_sum : forall b g n r, at_bus b (Csum g n) r = lsum (fun j => at_bus b (g j) r) (seq 0 n).
Proof. intros. apply (bal_sum false). Qed.
Lemma Copp_sum : forall g n, Copp (Csum g n) = Csum (fun j => Copp (g j)) n.
Proof.
  intros. unfold Csum. induction (seq 0 n) as [|x l IH]; cbn [fold_right]; [apply C_eq; simpl; ring|].
  rewrite <- IH. apply C_eq; simpl; ring.
Qed.
Lemma Cadd_sum : forall g h n, Cadd (Csum g n) (Csum h n) = Csum (fun j => Cadd (g j) (h j)) n.
Proof. intros. apply C_eq; simpl; rewrite ?Csum_fst, ?Csum_snd, !Rsum_lsum, <- lsum_add; reflexivity. Qed.

Lemma unb_rows : forall lines g b B opt v tx r,
  let n := length lines in let Y i j := (g i j, b i j) in
  let f i := fst (phase lines i) in let t i := snd (phase lines i) in
  let Vf i := volt v (f i) in let Vt i := volt v (t i) in let Lf i := mult v (f i) in let Lt i := mult v (t i) in
  F (present (unb_stampers lines g b B opt)) v tx r =
  Rsum (fun i => balance opt (f i) (I_from n Y B Vf Vt tx i) r + balance opt (t i) (I_to n Y B Vf Vt tx i) r +
    if opt then at_bus (f i) (I_from n (fun i j => Cconj (Y i j)) (fun i j => - B i j) Lf Lt tx i) r +
                at_bus (t i) (I_to n (fun i j => Cconj (Y i j)) (fun i j => - B i j) Lf Lt tx i) r else 0) n.
Proof.
  intros lines g b B opt v tx r n Y f t Vf Vt Lf Lt. unfold unb_stampers. fold n. rewrite F_flat, Rsum_lsum. apply lsum_ext. intros i _.
  rewrite F_flat. unfold I_from, I_to, I_series, I_shunt. rewrite !Copp_sum, !Cadd_sum, !bal_sum, !atb_sum.
  destruct opt; rewrite <- !lsum_add.
  - apply lsum_ext. intros j _. rewrite unb_pair_row. cbv zeta. unfold Vf, Vt, Lf, Lt, f, t, Y. ring.
  - rewrite Rplus_0_r. apply lsum_ext. intros j _. rewrite unb_pair_row. cbv zeta. unfold Vf, Vt, f, t, Y. ring.
Qed.
(** series currents at both ends cancel *)
Lemma series_cancels : forall n Y B Vf Vt tx i, Cadd (I_from n Y B Vf Vt tx i) (I_to n Y B Vf Vt tx i) = Cadd (I_shunt n B tx Vf i) (I_shunt n B tx Vt i).
Proof. intros. unfold I_from, I_to, Cadd, Copp. apply C_eq; simpl; ring. Qed.

(** *** transposition *)
Definition Q n Y B tx (Lf Lt Vf Vt : nat -> C) : R :=
  Rsum (fun i => dot (Lf i) (I_from n Y B Vf Vt tx i) + dot (Lt i) (I_to n Y B Vf Vt tx i)) n.
Lemma dot_sum : forall a g n, dot a (Csum g n) = lsum (fun j => dot a (g j)) (seq 0 n).
Proof.
  intros. unfold dot. rewrite Csum_fst, Csum_snd, !Rsum_lsum, <- !lsum_scale, <- lsum_add. reflexivity.
Qed.
Lemma dot_add : forall a b c, dot a (Cadd b c) = dot a b + dot a c.
Proof. intros. unfold dot, Cadd. simpl. ring. Qed.
Lemma dot_sym : forall a b, dot a b = dot b a.
Proof. intros. unfold dot. ring. Qed.
Lemma scale_sym : forall tx i j, series_scale tx i j = series_scale tx j i.
Proof. intros. unfold series_scale. now rewrite Nat.eqb_sym. Qed.
Definition herm (Y : nat -> nat -> C) : nat -> nat -> C := fun i j => Cconj (Y j i).
Definition skew (B : nat -> nat -> R) : nat -> nat -> R := fun i j => - B j i.
Lemma transpose : forall n Y B tx Lf Lt Vf Vt,
  Q n Y B tx Lf Lt Vf Vt = Q n (herm Y) (skew B) tx Vf Vt Lf Lt.
Proof.
  intros. unfold Q. rewrite !Rsum_lsum.
  assert (E : forall Y B Lf Lt Vf Vt i, dot (Lf i) (I_from n Y B Vf Vt tx i) + dot (Lt i) (I_to n Y B Vf Vt tx i) =
     lsum (fun j => dot (Csub (Lf i) (Lt i)) (Cscale (series_scale tx i j) (Cmul (Y i j) (Csub (Vf j) (Vt j)))) +
                    (dot (Lf i) (Cscale (1 - tx) (Cmul (0, B i j / 2) (Vf j))) + dot (Lt i) (Cscale (1 - tx) (Cmul (0, B i j / 2) (Vt j))))) (seq 0 n)).
  { clear. intros. unfold I_from, I_to, I_series, I_shunt. rewrite !dot_add, Copp_sum, !dot_sum. rewrite <- !lsum_add.
    apply lsum_ext. intros j _. unfold dot, Csub, Copp. simpl. ring. }
  rewrite (lsum_ext _ _ _ _ (fun i _ => E Y B Lf Lt Vf Vt i)), (lsum_ext _ _ _ _ (fun i _ => E (herm Y) (skew B) Vf Vt Lf Lt i)).
  rewrite lsum_swap. apply lsum_ext. intros i _. apply lsum_ext. intros j _. rewrite (scale_sym tx j i).
  unfold herm, skew, dot, Cscale, Cmul, Cconj, Csub. simpl. unfold Rdiv. ring.
Qed.
Lemma dot_Q : forall n Y B tx Lf Lt Vf Vt Wf Wt,
  (forall i, (i < n)%nat -> Vf i = Wf i) -> (forall i, (i < n)%nat -> Vt i = Wt i) -> Q n Y B tx Vf Vt Lf Lt = Q n Y B tx Wf Wt Lf Lt.
Proof.
  intros. unfold Q. rewrite !Rsum_lsum. apply lsum_ext. intros i Hi. apply in_seq0 in Hi. now rewrite H, H0.
Qed.

(** *** indexes *)
Definition comp (q : nat) (b : nodes) : option nat := nth q (bus_indexes b) None.
Definition end_of (lines : list (nodes * nodes)) (i : nat) (e : bool) : nodes := let x := nth i lines (GROUND, GROUND) in if e then snd x else fst x.
Definition pos (i : nat) (e : bool) (q : nat) : nat := (8 * i + (if e then 4 else 0) + q)%nat.
Lemma pos_inj : forall i e q i' e' q', (q < 4)%nat -> (q' < 4)%nat -> pos i e q = pos i' e' q' -> i = i' /\ e = e' /\ q = q'.
Proof. unfold pos. intros i [|] q i' [|] q' H H' E; repeat split; lia. Qed.
Lemma nth_index : forall lines i e q, (i < length lines)%nat -> (q < 4)%nat ->
  nth (pos i e q) (line_indexes lines) None = comp q (end_of lines i e) /\ (pos i e q < length (line_indexes lines))%nat.
Proof.
  induction lines as [|[f t] lines IH]; intros i e q Hi Hq; [simpl in Hi; lia|]. destruct i as [|i].
  - unfold pos, line_indexes, end_of, comp. cbn [flat_map nth fst snd bus_indexes app length].
    destruct e; repeat (destruct q as [|q]; [split; [reflexivity|simpl; lia]|]); lia.
  - destruct (IH i e q) as [A B]; [simpl in Hi; lia|auto|]. unfold pos in *. replace (8 * S i)%nat with (8 + 8 * i)%nat by lia.
    unfold line_indexes in *. cbn [flat_map fst snd bus_indexes app Nat.add nth length] in *. split; [exact A|]. lia.
Qed.
Lemma comp_inj : forall lines i e q i' e' q', well_placed lines -> (i < length lines)%nat -> (i' < length lines)%nat -> (q < 4)%nat -> (q' < 4)%nat ->
  comp q (end_of lines i e) = comp q' (end_of lines i' e') -> i = i' /\ e = e' /\ q = q'.
Proof.
  intros lines i e q i' e' q' [Hd _] Hi Hi' Hq Hq' E. destruct (nth_index lines i e q Hi Hq) as [A B]. destruct (nth_index lines i' e' q' Hi' Hq') as [A' B'].
  apply pos_inj; auto. apply (proj1 (NoDup_nth (line_indexes lines) None) Hd); auto. congruence.
Qed.
Lemma comp_some : forall lines i e q, well_placed lines -> (i < length lines)%nat -> (q < 4)%nat -> exists c, comp q (end_of lines i e) = Some c.
Proof.
  intros lines i e q [_ Hn] Hi Hq. destruct (nth_index lines i e q Hi Hq) as [A B]. destruct (comp q (end_of lines i e)) as [c|] eqn:E; [eauto|].
  exfalso. apply Hn. rewrite <- A. now apply nth_In.
Qed.

Definition part (u : bool) (c : C) : R := if u then snd c else fst c.
Definition place (u : bool) : nat := if u then 1%nat else 0%nat.
Lemma read_set : forall v c t o, read (set_v v c t) o = if match o with Some m => Nat.eqb m c | None => false end then t else read v o.
Proof. intros v c t [m|]; simpl; auto. Qed.
Lemma volt_set : forall lines v c t i e u j e', well_placed lines -> (i < length lines)%nat -> (j < length lines)%nat -> comp (place u) (end_of lines i e) = Some c ->
  volt (set_v v c t) (end_of lines j e') =
  if Nat.eqb j i && Bool.eqb e' e then Cadd (volt v (end_of lines j e')) (if u then (0, t - v c) else (t - v c, 0)) else volt v (end_of lines j e').
Proof.
  intros lines v c t i e u j e' W Hi Hj Hc.
  assert (K : forall q, (q < 2)%nat -> (match comp q (end_of lines j e') with Some m => Nat.eqb m c | None => false end) = Nat.eqb j i && Bool.eqb e' e && Nat.eqb q (place u)).
  { intros q Hq. destruct (comp q (end_of lines j e')) as [m|] eqn:E.
    - destruct (Nat.eqb m c) eqn:M.
      + apply Nat.eqb_eq in M. rewrite M, <- Hc in E. destruct (comp_inj lines j e' q i e (place u) W Hj Hi) as (-> & -> & ->); auto; try lia. destruct u; simpl; lia.
        now rewrite !Nat.eqb_refl, Bool.eqb_reflx.
      + symmetry. apply andb_false_iff. destruct (Nat.eqb q (place u)) eqn:Eq; [left|now right]. apply Nat.eqb_eq in Eq as ->.
        destruct (Nat.eqb j i) eqn:Ej; [|reflexivity]. apply Nat.eqb_eq in Ej as ->. destruct (Bool.eqb e' e) eqn:Ee; [|reflexivity].
        apply Bool.eqb_prop in Ee as ->. rewrite Hc in E. injection E as ->. now rewrite Nat.eqb_refl in M.
    - destruct (comp_some lines j e' q W Hj ltac:(lia)) as [c' Hc']. congruence. }
  assert (Val : Nat.eqb j i && Bool.eqb e' e = true -> read v (comp (place u) (end_of lines j e')) = v c).
  { intros E. apply andb_true_iff in E as [E1 E2]. apply Nat.eqb_eq in E1 as ->. apply Bool.eqb_prop in E2 as ->. now rewrite Hc. }
  unfold volt. change (n_Vr (end_of lines j e')) with (comp 0 (end_of lines j e')). change (n_Vi (end_of lines j e')) with (comp 1 (end_of lines j e')).
  rewrite !read_set, !K by lia. destruct (Nat.eqb j i && Bool.eqb e' e) eqn:E; [|reflexivity]. specialize (Val eq_refl).
  destruct u; cbn [place andb Nat.eqb] in *; unfold Cadd; cbn [fst snd]; rewrite ?Val; f_equal; ring.
Qed.
Lemma mult_set : forall lines v c t i e u j e', well_placed lines -> (i < length lines)%nat -> (j < length lines)%nat -> comp (place u) (end_of lines i e) = Some c ->
  mult (set_v v c t) (end_of lines j e') = mult v (end_of lines j e').
Proof.
  intros lines v c t i e u j e' W Hi Hj Hc. unfold mult.
  change (n_Lr (end_of lines j e')) with (comp 2 (end_of lines j e')). change (n_Li (end_of lines j e')) with (comp 3 (end_of lines j e')).
  assert (K : forall q, (2 <= q < 4)%nat -> (match comp q (end_of lines j e') with Some m => Nat.eqb m c | None => false end) = false).
  { intros q Hq. destruct (comp q (end_of lines j e')) as [m|] eqn:E; auto. destruct (Nat.eqb m c) eqn:M; auto. apply Nat.eqb_eq in M. rewrite M, <- Hc in E.
    destruct (comp_inj lines j e' q i e (place u) W Hj Hi) as (_ & _ & ->); auto; try lia; destruct u; simpl in *; lia. }
  rewrite !read_set, !K by lia. reflexivity.
Qed.

Lemma lagrangian_Q : forall lines Y B tx v, line_lagrangian lines Y B tx v =
  Q (length lines) Y B tx (fun i => mult v (end_of lines i false)) (fun i => mult v (end_of lines i true)) (fun i => volt v (end_of lines i false)) (fun i => volt v (end_of lines i true)).
Proof. reflexivity. Qed.
Definition I_end (e : bool) := if e then I_to else I_from.
Lemma I_end_ext : forall e n Y B Y' B' Lf Lt Lf' Lt' tx i, (forall j, (j < n)%nat -> Y i j = Y' i j) -> (forall j, (j < n)%nat -> B i j = B' i j) ->
  (forall j, (j < n)%nat -> Lf j = Lf' j) -> (forall j, (j < n)%nat -> Lt j = Lt' j) -> I_end e n Y B Lf Lt tx i = I_end e n Y' B' Lf' Lt' tx i.
Proof.
  intros e n Y B Y' B' Lf Lt Lf' Lt' tx i HY HB Hf Ht.
  assert (E : forall g h, (forall j, (j < n)%nat -> g j = h j) -> Csum g n = Csum h n).
  { intros g h H. apply C_eq; rewrite ?Csum_fst, ?Csum_snd, !Rsum_lsum; apply lsum_ext; intros j Hj; apply in_seq0 in Hj; now rewrite H. }
  unfold I_end, I_from, I_to, I_series, I_shunt.
  destruct e; (apply f_equal2; [try apply f_equal|]); apply E; intros; rewrite ?HY, ?HB, ?Hf, ?Ht by auto; reflexivity.
Qed.
Definition with_part (u : bool) (x : R) : C := if u then (0, x) else (x, 0).
Lemma Q_change : forall n Y B tx Lf Lt Vf Vt Wf Wt i e u d, (i < n)%nat ->
  (forall j, (j < n)%nat -> Wf j = if Nat.eqb j i && negb e then Cadd (Vf j) (with_part u d) else Vf j) ->
  (forall j, (j < n)%nat -> Wt j = if Nat.eqb j i && e then Cadd (Vt j) (with_part u d) else Vt j) ->
  Q n Y B tx Wf Wt Lf Lt = Q n Y B tx Vf Vt Lf Lt + d * part u (I_end e n Y B Lf Lt tx i).
Proof.
  intros n Y B tx Lf Lt Vf Vt Wf Wt i e u d Hi Hf Ht. unfold Q. rewrite !Rsum_lsum.
  rewrite (lsum_ext _ _ (fun j => (dot (Vf j) (I_from n Y B Lf Lt tx j) + dot (Vt j) (I_to n Y B Lf Lt tx j)) +
     (if Nat.eqb j i then d * part u (I_end e n Y B Lf Lt tx j) else 0))).
  - rewrite lsum_add. f_equal. rewrite (lsum_one _ (seq 0 n) i); [now rewrite Nat.eqb_refl|apply seq_NoDup|now apply in_seq0|].
    intros j _ Hj. apply Nat.eqb_neq in Hj. now rewrite Hj.
  - intros j Hj. apply in_seq0 in Hj. rewrite Hf, Ht by auto. destruct (Nat.eqb j i); cbn [andb]; [|ring].
    destruct e; cbn [negb I_end]; unfold dot, part, with_part, Cadd; destruct u; cbn [fst snd]; ring.
Qed.
Lemma true_derivative : forall lines Y B tx v i e u c, well_placed lines -> (i < length lines)%nat -> comp (place u) (end_of lines i e) = Some c ->
  derivable_pt_lim (fun t => line_lagrangian lines Y B tx (set_v v c t)) (v c)
    (part u (I_end e (length lines) (herm Y) (skew B) (fun i => mult v (end_of lines i false)) (fun i => mult v (end_of lines i true)) tx i)).
Proof.
  intros lines Y B tx v i e u c W Hi Hc. set (n := length lines) in *. set (D := part u _).
  apply (dlim_ext (fun t => line_lagrangian lines Y B tx v + (t - v c) * D)).
  - intros t. rewrite !lagrangian_Q, (transpose _ Y), (transpose _ Y). fold n. symmetry.
    rewrite (Q_change n (herm Y) (skew B) tx (fun i => mult (set_v v c t) (end_of lines i false)) (fun i => mult (set_v v c t) (end_of lines i true))
      (fun i => volt v (end_of lines i false)) (fun i => volt v (end_of lines i true)) _ _ i e u (t - v c) Hi).
    + assert (X : forall e', forall j, (j < n)%nat -> mult (set_v v c t) (end_of lines j e') = mult v (end_of lines j e')) by (intros; now apply (mult_set lines v c t i e u)).
      f_equal.
      * rewrite !(transpose n (herm Y)). apply dot_Q; intros; now apply X.
      * f_equal. unfold D. f_equal. apply I_end_ext; intros; auto.
    + intros j Hj. rewrite (volt_set lines v c t i e u) by auto. destruct e; reflexivity.
    + intros j Hj. rewrite (volt_set lines v c t i e u) by auto. destruct e; reflexivity.
  - apply (dlim_ext (fun t => D * t + (line_lagrangian lines Y B tx v - v c * D))); [intros; ring|].
    pose proof (derivable_pt_lim_plus (mult_real_fct D id) (fct_cte (line_lagrangian lines Y B tx v - v c * D)) (v c) (D * 1) 0
      (derivable_pt_lim_scal id D (v c) 1 (derivable_pt_lim_id (v c))) (derivable_pt_lim_const _ (v c))) as H.
    replace (D * 1 + 0) with D in H by ring. exact H.
Qed.

Lemma stamped_row : forall lines g b B v tx i e u c, well_placed lines -> (i < length lines)%nat -> comp (place u) (end_of lines i e) = Some c ->
  F (present (unb_stampers lines g b B true)) v tx c =
  part u (I_end e (length lines) (fun i j => Cconj (g i j, b i j)) (fun i j => - B i j) (fun i => mult v (end_of lines i false)) (fun i => mult v (end_of lines i true)) tx i).
Proof.
  intros lines g b B v tx i e u c W Hi Hc. pose proof (unb_rows lines g b B true v tx c) as Rows. cbv zeta in Rows. rewrite Rows. clear Rows. set (n := length lines) in *.
  assert (Hl : forall j e' x, (j < n)%nat -> at_lambda (end_of lines j e') x c = 0).
  { intros j e' x Hj. unfold at_lambda. rewrite !hit_miss; [ring| |]; intros E.
    - change (n_Li (end_of lines j e')) with (comp 3 (end_of lines j e')) in E. rewrite <- Hc in E.
      destruct (comp_inj lines j e' 3 i e (place u) W Hj Hi) as (_ & _ & X); auto; try lia; destruct u; simpl in *; lia.
    - change (n_Lr (end_of lines j e')) with (comp 2 (end_of lines j e')) in E. rewrite <- Hc in E.
      destruct (comp_inj lines j e' 2 i e (place u) W Hj Hi) as (_ & _ & X); auto; try lia; destruct u; simpl in *; lia. }
  assert (Hb : forall j e' x, (j < n)%nat -> at_bus (end_of lines j e') x c = if Nat.eqb j i && Bool.eqb e' e then part u x else 0).
  { intros j e' x Hj. unfold at_bus. change (n_Vr (end_of lines j e')) with (comp 0 (end_of lines j e')). change (n_Vi (end_of lines j e')) with (comp 1 (end_of lines j e')).
    assert (K : forall q, (q < 2)%nat -> hit (comp q (end_of lines j e')) c = if Nat.eqb j i && Bool.eqb e' e && Nat.eqb q (place u) then 1 else 0).
    { intros q Hq. destruct (Nat.eqb j i && Bool.eqb e' e && Nat.eqb q (place u)) eqn:E.
      - apply andb_true_iff in E as [E E3]. apply andb_true_iff in E as [E1 E2]. apply Nat.eqb_eq in E1 as ->. apply Bool.eqb_prop in E2 as ->. apply Nat.eqb_eq in E3 as ->.
        rewrite Hc. simpl. now rewrite Nat.eqb_refl.
      - apply hit_miss. intros X. rewrite <- Hc in X. destruct (comp_inj lines j e' q i e (place u) W Hj Hi) as (-> & -> & ->); auto; try lia; [destruct u; simpl; lia|].
        now rewrite !Nat.eqb_refl, Bool.eqb_reflx in E. }
    rewrite !K by lia. destruct (Nat.eqb j i && Bool.eqb e' e); cbn [andb]; [|ring]. destruct u; simpl; ring. }
  rewrite Rsum_lsum. rewrite (lsum_one _ (seq 0 n) i); [|apply seq_NoDup|now apply in_seq0|].
  - unfold balance. change (fst (phase lines i)) with (end_of lines i false). change (snd (phase lines i)) with (end_of lines i true).
    rewrite !Hl, !Hb by auto. rewrite Nat.eqb_refl. destruct e; cbn [andb Bool.eqb I_end]; unfold phase, end_of; ring.
  - intros j Hj Hji. apply in_seq0 in Hj. unfold balance. change (fst (phase lines j)) with (end_of lines j false). change (snd (phase lines j)) with (end_of lines j true).
    rewrite !Hl, !Hb by auto. apply Nat.eqb_neq in Hji. rewrite Hji. cbn [andb]. ring.
Qed.

Lemma voltage_unknown_iff : forall lines c, voltage_unknown lines c <-> exists i e u, (i < length lines)%nat /\ comp (place u) (end_of lines i e) = Some c.
Proof.
  intros lines c. split.
  - intros (x & Hx & Hc). apply (In_nth _ _ (GROUND, GROUND)) in Hx as (i & Hi & Hx). rewrite <- Hx in Hc. exists i. simpl in Hc.
    destruct Hc as [Hc|[Hc|[Hc|[Hc|[]]]]]; [exists false, false|exists false, true|exists true, false|exists true, true]; auto.
  - intros (i & e & u & Hi & Hc). exists (nth i lines (GROUND, GROUND)). split; [now apply nth_In|].
    destruct e, u; unfold comp, end_of in Hc; cbn in Hc; unfold bus_unknowns; cbn [app In]; rewrite Hc; auto.
Qed.
Lemma mult_unit : forall lines j c j' e', well_placed lines -> (j < length lines)%nat -> (j' < length lines)%nat -> comp 2 (end_of lines j false) = Some c ->
  mult (fun m => if Nat.eqb m c then 1 else 0) (end_of lines j' e') = if Nat.eqb j' j && negb e' then C1 else C0.
Proof.
  intros lines j c j' e' W Hj Hj' Hc. unfold mult. change (n_Lr (end_of lines j' e')) with (comp 2 (end_of lines j' e')). change (n_Li (end_of lines j' e')) with (comp 3 (end_of lines j' e')).
  assert (K : forall q, (2 <= q < 4)%nat -> read (fun m => if Nat.eqb m c then 1 else 0) (comp q (end_of lines j' e')) = if Nat.eqb j' j && negb e' && Nat.eqb q 2 then 1 else 0).
  { intros q Hq. destruct (comp q (end_of lines j' e')) as [m|] eqn:E; [|destruct (comp_some lines j' e' q W Hj' ltac:(lia)); congruence]. simpl.
    destruct (Nat.eqb m c) eqn:M.
    - apply Nat.eqb_eq in M. rewrite M, <- Hc in E. destruct (comp_inj lines j' e' q j false 2 W Hj' Hj) as (-> & -> & ->); auto; try lia. now rewrite Nat.eqb_refl.
    - destruct (Nat.eqb j' j && negb e' && Nat.eqb q 2) eqn:X; auto. apply andb_true_iff in X as [X X3]. apply andb_true_iff in X as [X1 X2].
      apply Nat.eqb_eq in X1 as ->. apply Nat.eqb_eq in X3 as ->. destruct e'; [discriminate|]. rewrite Hc in E. injection E as ->. now rewrite Nat.eqb_refl in M. }
  rewrite !K by lia. destruct (Nat.eqb j' j && negb e'); reflexivity.
Qed.
Lemma Csum_one : forall g n i, (i < n)%nat -> (forall j, (j < n)%nat -> j <> i -> g j = C0) -> Csum g n = g i.
Proof.
  intros g n i Hi H. apply C_eq; rewrite ?Csum_fst, ?Csum_snd, Rsum_lsum; rewrite (lsum_one _ (seq 0 n) i); auto; try apply seq_NoDup; try now apply in_seq0.
  - intros j Hj Hji. apply in_seq0 in Hj. now rewrite H.
  - intros j Hj Hji. apply in_seq0 in Hj. now rewrite H.
Qed.
Lemma Csum_0 : forall g n, (forall j, (j < n)%nat -> g j = C0) -> Csum g n = C0.
Proof.
  intros g n H. apply C_eq; rewrite ?Csum_fst, ?Csum_snd, Rsum_lsum; simpl; apply lsum_zero; intros j Hj; apply in_seq0 in Hj; now rewrite H.
Qed.
Lemma unit_currents : forall n Y B Lf Lt tx i j, (j < n)%nat -> (forall k, (k < n)%nat -> Lf k = if Nat.eqb k j then C1 else C0) -> (forall k, (k < n)%nat -> Lt k = C0) ->
  I_to n Y B Lf Lt tx i = Copp (Cscale (series_scale tx i j) (Y i j)) /\
  I_from n Y B Lf Lt tx i = Cadd (Cscale (series_scale tx i j) (Y i j)) (0, (1 - tx) * (B i j / 2)).
Proof.
  intros n Y B Lf Lt tx i j Hj Hf Ht. unfold I_to, I_from, I_series, I_shunt.
  rewrite (Csum_one (fun j0 => Cscale (series_scale tx i j0) (Cmul (Y i j0) (Csub (Lf j0) (Lt j0)))) n j Hj).
  2: { intros k Hk Hkj. rewrite Hf, Ht by auto. apply Nat.eqb_neq in Hkj. rewrite Hkj. unfold Cscale, Cmul, Csub, C0. apply C_eq; simpl; ring. }
  rewrite (Csum_one (fun j0 => Cscale (1 - tx) (Cmul (0, B i j0 / 2) (Lf j0))) n j Hj).
  2: { intros k Hk Hkj. rewrite Hf by auto. apply Nat.eqb_neq in Hkj. rewrite Hkj. unfold Cscale, Cmul, C0. apply C_eq; simpl; ring. }
  rewrite (Csum_0 (fun j0 => Cscale (1 - tx) (Cmul (0, B i j0 / 2) (Lt j0)))).
  2: { intros k Hk. rewrite Ht by auto. unfold Cscale, Cmul, C0. apply C_eq; simpl; ring. }
  rewrite Hf, Ht by auto. rewrite Nat.eqb_refl. unfold Cscale, Cmul, Csub, Cadd, Copp, C0, C1. split; apply C_eq; simpl; ring.
Qed.

Lemma dual_rows_iff : forall lines g b B tx, well_placed lines -> tx <> 1 ->
  let Y i j := (g i j, b i j) in
  ((forall v c, voltage_unknown lines c ->
      derivable_pt_lim (fun t => line_lagrangian lines Y B tx (set_v v c t)) (v c) (F (present (unb_stampers lines g b B true)) v tx c)) <->
   forall i j, (i < length lines)%nat -> (j < length lines)%nat -> Y i j = Y j i /\ B i j = B j i).
Proof.
  intros lines g b B tx W Htx Y. set (n := length lines). split.
  - intros H i j Hi Hj. destruct (Nat.eq_dec i j) as [->|Hij]; [auto|].
    destruct (comp_some lines j false 2 W Hj ltac:(lia)) as [cl Hcl]. set (v := fun m => if Nat.eqb m cl then 1 else 0).
    assert (K : forall e u, part u (I_end e n (fun i j => Cconj (Y i j)) (fun i j => - B i j) (fun i => mult v (end_of lines i false)) (fun i => mult v (end_of lines i true)) tx i) =
                            part u (I_end e n (herm Y) (skew B) (fun i => mult v (end_of lines i false)) (fun i => mult v (end_of lines i true)) tx i)).
    { intros e u. destruct (comp_some lines i e (place u) W Hi) as [c Hc]; [destruct u; simpl; lia|].
      pose proof (H v c (proj2 (voltage_unknown_iff lines c) (ex_intro _ i (ex_intro _ e (ex_intro _ u (conj Hi Hc)))))) as D.
      rewrite (stamped_row lines g b B v tx i e u c W Hi Hc) in D. fold n in D.
      exact (uniqueness_limite _ _ _ _ D (true_derivative lines Y B tx v i e u c W Hi Hc)). }
    assert (Mf : forall k, (k < n)%nat -> mult v (end_of lines k false) = if Nat.eqb k j then C1 else C0).
    { intros k Hk. unfold v. rewrite (mult_unit lines j cl k false W Hj Hk Hcl). now destruct (Nat.eqb k j). }
    assert (Mt : forall k, (k < n)%nat -> mult v (end_of lines k true) = C0).
    { intros k Hk. unfold v. rewrite (mult_unit lines j cl k true W Hj Hk Hcl). now destruct (Nat.eqb k j). }
    destruct (unit_currents n (fun i j => Cconj (Y i j)) (fun i j => - B i j) _ _ tx i j Hj Mf Mt) as [A1 A2].
    destruct (unit_currents n (herm Y) (skew B) _ _ tx i j Hj Mf Mt) as [B1 B2].
    pose proof (K true false) as K1. pose proof (K true true) as K2. pose proof (K false true) as K3. cbn [I_end] in K1, K2, K3.
    rewrite A1, B1 in K1, K2. rewrite A2, B2 in K3. unfold herm, skew, Cconj, Y, Copp, Cscale, Cadd, series_scale in K1, K2, K3.
    replace (Nat.eqb i j) with false in * by (symmetry; now apply Nat.eqb_neq). cbn [part fst snd] in K1, K2, K3.
    assert (T : 1 - tx <> 0) by lra. unfold Y. split.
    + f_equal; apply (Rmult_eq_reg_l (1 - tx)); auto; lra.
    + apply (Rmult_eq_reg_l (1 - tx)); auto. lra.
  - intros H v c Hc. apply voltage_unknown_iff in Hc as (i & e & u & Hi & Hc). rewrite (stamped_row lines g b B v tx i e u c W Hi Hc).
    rewrite (I_end_ext e n _ _ (herm Y) (skew B) _ _ (fun i => mult v (end_of lines i false)) (fun i => mult v (end_of lines i true))); auto; [now apply true_derivative| |].
    + intros j Hj. unfold herm. destruct (H i j Hi Hj) as [E _]. unfold Y in *. now rewrite E.
    + intros j Hj. unfold skew. destruct (H i j Hi Hj) as [_ E]. now rewrite E.
Qed.

(** *** construction *)
Section New.
Variable inv : matrix -> option matrix.
Lemma scale_length : forall k m, length (scale k m) = length m.
Proof. intros. unfold scale. apply map_length. Qed.
Lemma mdot_ext : forall n a b i j, mdot n a b i j = fold_right (fun k acc => xadd (xmul (entry a i k) (entry b k j)) acc) (Some (0, 0)) (seq 0 n).
Proof. reflexivity. Qed.
Lemma near_entry : forall n z y i j, near_identity n z y = true -> (i < n)%nat -> (j < n)%nat ->
  close_to (mdot n z y i j) (if Nat.eqb i j then 1 else 0) = true.
Proof.
  intros n z y i j H Hi Hj. unfold near_identity in H. rewrite forallb_forall in H. specialize (H i (proj2 (in_seq0 i n) Hi)).
  rewrite forallb_forall in H. exact (H j (proj2 (in_seq0 j n) Hj)).
Qed.
Lemma xsum_none : forall l (g : nat -> xnum), (exists k, In k l /\ g k = None) -> fold_right (fun k acc => xadd (g k) acc) (Some (0, 0)) l = None.
Proof.
  induction l as [|x l IH]; intros g (k & Hk & E); [destruct Hk|]. cbn [fold_right]. destruct Hk as [->|Hk].
  - now rewrite E. - rewrite IH by eauto. now destruct (g x).
Qed.
Lemma xsum_zero : forall l (g : nat -> xnum), (forall k, In k l -> g k = None \/ g k = Some (0, 0)) ->
  fold_right (fun k acc => xadd (g k) acc) (Some (0, 0)) l = None \/ fold_right (fun k acc => xadd (g k) acc) (Some (0, 0)) l = Some (0, 0).
Proof.
  induction l as [|x l IH]; intros g H; [now right|]. cbn [fold_right].
  destruct (IH g) as [E|E]; [intros; apply H; now right| |]; rewrite E; destruct (H x (or_introl eq_refl)) as [X|X]; rewrite X; cbn; auto.
  right. f_equal. f_equal; ring.
Qed.
Lemma not_close_0 : forall x, x = None \/ x = Some (0, 0) -> close_to x 1 = false.
Proof.
  intros x [->| ->]; [reflexivity|]. unfold close_to. cbn [fst snd]. destruct (Rle_dec _ _); auto. exfalso. lra.
Qed.
Lemma put_inf_single : forall n z, square n z = true -> (1 <= n)%nat -> count_nonzero z = 1%nat ->
  (n = 1%nat /\ put_inf z = z) \/ (exists i, (i < n)%nat /\ entry (put_inf z) i i = None).
Proof.
  intros n z Hs Hn Hc. unfold square in Hs. apply andb_true_iff in Hs as [Hl Hr]. apply Nat.eqb_eq in Hl. rewrite forallb_forall in Hr.
  destruct n as [|[|n]]; [lia| |].
  - left. split; auto. destruct z as [|r [|? ?]]; try discriminate. specialize (Hr r (or_introl eq_refl)). apply Nat.eqb_eq in Hr.
    destruct r as [|a [|? ?]]; try discriminate. unfold count_nonzero in Hc. cbn in Hc. unfold put_inf. cbn. destruct (xis0 a); [discriminate|reflexivity].
  - right. destruct z as [|r0 [|r1 z]]; try discriminate. pose proof (Hr r0 (or_introl eq_refl)) as H0. pose proof (Hr r1 (or_intror (or_introl eq_refl))) as H1.
    apply Nat.eqb_eq in H0. apply Nat.eqb_eq in H1. destruct r0 as [|a r0]; try discriminate. destruct r1 as [|a' [|b r1]]; try discriminate.
    unfold entry, put_inf. destruct (xis0 a) eqn:A; [exists 0%nat; split; [lia|cbn; now rewrite A]|].
    destruct (xis0 b) eqn:B; [exists 1%nat; split; [lia|cbn; now rewrite B]|].
    exfalso. unfold count_nonzero in Hc. cbn [concat app filter] in Hc. rewrite A in Hc. cbn [negb length] in Hc. rewrite filter_app, app_length in Hc. cbn [filter app] in Hc.
    rewrite B in Hc. cbn [negb] in Hc. destruct (negb (xis0 a')); cbn [length] in Hc; lia.
Qed.
Lemma xprod_some : forall l (g : nat -> xnum) c, fold_right (fun k acc => xadd (g k) acc) (Some (0, 0)) l = Some c -> forall k, In k l -> exists d, g k = Some d.
Proof.
  intros l g c H k Hk. destruct (g k) eqn:E; [eauto|]. rewrite xsum_none in H by eauto. discriminate.
Qed.
Lemma xsum_some : forall l (g : nat -> xnum) (h : nat -> C), (forall k, In k l -> g k = Some (h k)) ->
  fold_right (fun k acc => xadd (g k) acc) (Some (0, 0)) l = Some (fold_right (fun i acc => Cadd (h i) acc) C0 l).
Proof. induction l as [|x l IH]; intros g h H; [reflexivity|]. cbn [fold_right]. rewrite (IH g h) by (intros; apply H; now right). now rewrite (H x (or_introl eq_refl)). Qed.

Lemma accepted_line : forall z0 len nph z y, new_unbalanced inv z0 len nph = Some (z, y) ->
  let n := length z0 in
  (1 <= n <= 3)%nat /\ nph = n /\ z = scale len z0 /\
  (exists Zc Yc : nat -> nat -> C, (forall i j, (i < n)%nat -> (j < n)%nat -> entry z i j = Some (Zc i j) /\ entry y i j = Some (Yc i j)) /\
     forall i j, (i < n)%nat -> (j < n)%nat ->
       Cnorm2 (Csub (Csum (fun k => Cmul (Zc i k) (Yc k j)) n) (if Nat.eqb i j then C1 else C0)) <= (1 / 90000) * (1 / 90000)) /\
  (forall i, (i < n)%nat -> exists j, (j < n)%nat /\ xis0 (entry z i j) = false).
Proof.
  intros z0 len nph z y H n. unfold new_unbalanced in H. fold n in H.
  destruct (Nat.leb 1 n && Nat.leb n 3 && square n z0)%bool eqn:G; [|discriminate].
  apply andb_true_iff in G as [G Hs0]. apply andb_true_iff in G as [G1 G2]. apply Nat.leb_le in G1. apply Nat.leb_le in G2.
  destruct (calc_inverse inv n (scale len z0)) as [z' y1] eqn:CI.
  destruct (match y1 with Some y => Some y | None => inv z' end) as [y2|] eqn:E2; [|discriminate].
  destruct (square n y2 && Nat.eqb nph n && near_identity n z' y2)%bool eqn:Ok; [|discriminate]. injection H as <- <-.
  apply andb_true_iff in Ok as [Ok Near]. apply andb_true_iff in Ok as [_ Hp]. apply Nat.eqb_eq in Hp.
  assert (Hs : square n (scale len z0) = true).
  { unfold square in *. rewrite scale_length. apply andb_true_iff in Hs0 as [A B]. rewrite A. cbn [andb]. rewrite forallb_forall in *.
    intros r Hr. unfold scale in Hr. apply in_map_iff in Hr as (r0 & <- & Hr). rewrite map_length. auto. }
  assert (D : forall i j, (i < n)%nat -> (j < n)%nat -> exists c, mdot n z' y2 i j = Some c).
  { intros i j Hi Hj. pose proof (near_entry _ _ _ _ _ Near Hi Hj) as X. destruct (mdot n z' y2 i j); [eauto|discriminate]. }
  assert (Hz : z' = scale len z0).
  { unfold calc_inverse in CI. destruct (Nat.eqb (count_nonzero (scale len z0)) 1) eqn:N; [|now injection CI].
    apply Nat.eqb_eq in N. injection CI as Ez Ey. subst z'. destruct (put_inf_single n _ Hs G1 N) as [[_ X]|(i & Hi & X)]; auto.
    exfalso. destruct (D i i Hi Hi) as [c Hc]. unfold mdot in Hc. destruct (xprod_some _ _ _ Hc i) as [d Hd]; [now apply in_seq0|]. rewrite X in Hd. discriminate. }
  split; [lia|]. split; [auto|]. split; [auto|].
  assert (Fin : forall i j, (i < n)%nat -> (j < n)%nat -> exists a b, entry z' i j = Some a /\ entry y2 i j = Some b).
  { intros i j Hi Hj. destruct (D i i Hi Hi) as [c Hc]. destruct (xprod_some _ _ _ Hc j) as [d Hd]; [now apply in_seq0|].
    destruct (D j j Hj Hj) as [c' Hc']. destruct (xprod_some _ _ _ Hc' i) as [d' Hd']; [now apply in_seq0|].
    destruct (entry z' i j) as [a|]; [|discriminate]. destruct (entry y2 i j) as [b|]; [eauto|].
    destruct (entry z' j i); discriminate. }
  split.
  - set (fin := fun x : xnum => match x with Some c => c | None => (0, 0) end).
    exists (fun i j => fin (entry z' i j)), (fun i j => fin (entry y2 i j)). split.
    + intros i j Hi Hj. destruct (Fin i j Hi Hj) as (a & b & -> & ->). auto.
    + intros i j Hi Hj. pose proof (near_entry _ _ _ _ _ Near Hi Hj) as X.
      assert (S : mdot n z' y2 i j = Some (Csum (fun k => Cmul (fin (entry z' i k)) (fin (entry y2 k j))) n)).
      { unfold mdot, Csum. apply xsum_some. intros k Hk. apply in_seq0 in Hk. destruct (Fin i k Hi Hk) as (a & _ & -> & _). destruct (Fin k j Hk Hj) as (_ & b & _ & ->). reflexivity. }
      rewrite S in X. set (c := Csum _ n) in *. unfold close_to in X. destruct (Rle_dec _ _) as [L|]; [|discriminate].
      unfold Cnorm2, Csub. destruct (Nat.eqb i j); cbn [fst snd C0 C1] in *; rewrite ?Rminus_0_r in *; (eapply Rle_trans; [exact L|]); lra.
  - intros i Hi. destruct (existsb (fun j => negb (xis0 (entry z' i j))) (seq 0 n)) eqn:Ex.
    + apply existsb_exists in Ex as (j & Hj & Ex). apply in_seq0 in Hj. exists j. split; auto. now destruct (xis0 (entry z' i j)).
    + exfalso. pose proof (near_entry _ _ _ _ _ Near Hi Hi) as X. rewrite Nat.eqb_refl in X. rewrite not_close_0 in X; [discriminate|].
      unfold mdot. apply xsum_zero. intros k Hk. right. assert (Z : xis0 (entry z' i k) = true).
      { destruct (xis0 (entry z' i k)) eqn:Z; auto. exfalso. assert (existsb (fun j => negb (xis0 (entry z' i j))) (seq 0 n) = true); [|congruence].
        apply existsb_exists. exists k. rewrite Z. auto. }
      apply in_seq0 in Hk. destruct (Fin i k Hi Hk) as (a & _ & Ea & _). destruct (Fin k i Hk Hi) as (_ & b & _ & Eb). rewrite Ea, Eb in *. cbn in Z. unfold cis0 in Z.
      apply both0_true in Z as [Z1 Z2]. cbn. rewrite Z1, Z2. f_equal. f_equal; ring.
Qed.
End New.

Lemma Csum_ext : forall (g h : nat -> C) n, (forall k, (k < n)%nat -> g k = h k) -> Csum g n = Csum h n.
Proof.
  intros g h n H. unfold Csum. assert (forall k, In k (seq 0 n) -> g k = h k) by (intros; apply H; now apply in_seq0). clear H. revert H0. generalize (seq 0 n).
  induction l as [|a l IH]; intros X; [reflexivity|]. cbn. rewrite (X a (or_introl eq_refl)), IH; auto. intros; apply X; now right.
Qed.
(** the stored impedances are the given ones times the length *)
Lemma nth_map_in : forall A B (f : A -> B) l i d d', (i < length l)%nat -> nth i (map f l) d' = f (nth i l d).
Proof. intros A B f l. induction l as [|a l IH]; intros i d d' H; [cbn in H; lia|]. destruct i; [reflexivity|]. cbn in *. apply IH. lia. Qed.
Lemma nth_scale : forall k m i j, entry (scale k m) i j = match entry m i j with Some c => Some (Cscale k c) | None => None end \/
  (entry (scale k m) i j = Some (0, 0) /\ entry m i j = Some (0, 0)).
Proof.
  intros k m i j. unfold entry, scale. destruct (Nat.lt_ge_cases i (length m)) as [Hi|Hi].
  - rewrite (nth_map_in _ _ _ m i [] []) by auto. destruct (Nat.lt_ge_cases j (length (nth i m []))) as [Hj|Hj].
    + left. rewrite (nth_map_in _ _ _ (nth i m []) j (Some (0, 0)) (Some (0, 0))) by auto. reflexivity.
    + right. rewrite !nth_overflow by (rewrite ?map_length; auto). auto.
  - right. rewrite (nth_overflow (map _ m)) by (rewrite map_length; auto). rewrite (nth_overflow m) by auto. destruct j; auto.
Qed.
Lemma accepted_lengths : forall inv z0 len nph z y, new_unbalanced inv z0 len nph = Some (z, y) ->
  let n := length z0 in
  (1 <= n <= 3)%nat /\ nph = n /\
  exists Z0 Yc : nat -> nat -> C,
    (forall i j, (i < n)%nat -> (j < n)%nat -> entry z0 i j = Some (Z0 i j) /\ entry z i j = Some (Cscale len (Z0 i j)) /\ entry y i j = Some (Yc i j)) /\
    (forall i j, (i < n)%nat -> (j < n)%nat ->
       Cnorm2 (Csub (Csum (fun k => Cmul (Cscale len (Z0 i k)) (Yc k j)) n) (if Nat.eqb i j then C1 else C0)) <= (1 / 90000) * (1 / 90000)) /\
    len <> 0 /\ forall i, (i < n)%nat -> exists j, (j < n)%nat /\ Z0 i j <> C0.
Proof.
  intros inv z0 len nph z y H n. destruct (accepted_line inv _ _ _ _ _ H) as (A & B & Ez & (Zc & Yc & E & N) & Z). fold n in A, B, E, N, Z.
  split; [auto|]. split; [auto|].
  assert (S : forall i j, (i < n)%nat -> (j < n)%nat -> exists c, entry z0 i j = Some c /\ Zc i j = Cscale len c).
  { intros i j Hi Hj. destruct (E i j Hi Hj) as [E1 _]. rewrite Ez in E1. destruct (nth_scale len z0 i j) as [X|[X1 X2]].
    - rewrite X in E1. destruct (entry z0 i j) as [c|]; [|discriminate]. injection E1 as <-. eauto.
    - rewrite X1 in E1. injection E1 as <-. exists (0, 0). split; auto. unfold Cscale; cbn. f_equal; ring. }
  exists (fun i j => match entry z0 i j with Some c => c | None => (0, 0) end), Yc.
  assert (S' : forall i j, (i < n)%nat -> (j < n)%nat -> Cscale len (match entry z0 i j with Some c => c | None => (0, 0) end) = Zc i j).
  { intros i j Hi Hj. destruct (S i j Hi Hj) as (c & -> & ->). reflexivity. }
  split; [|split].
  - intros i j Hi Hj. destruct (S i j Hi Hj) as (c & X & Y). rewrite X. split; auto. destruct (E i j Hi Hj) as [-> ->]. rewrite Y. auto.
  - intros i j Hi Hj. eapply Rle_trans; [|exact (N i j Hi Hj)]. right. f_equal. f_equal. apply Csum_ext. intros k Hk. exact (f_equal (fun a => Cmul a (Yc k j)) (S' i k Hi Hk)).
  - assert (NZ : forall i j, (i < n)%nat -> (j < n)%nat -> xis0 (entry z i j) = false -> Zc i j <> C0).
    { intros i j Hi Hj X Y. destruct (E i j Hi Hj) as [E1 _]. rewrite E1, Y in X. cbn in X. unfold cis0 in X. cbn in X.
      assert (both0 0 0 = true) by (apply both0_true; auto). congruence. }
    split.
    + intros L. destruct (Z 0%nat) as (j & Hj & X); [lia|]. apply (NZ 0%nat j ltac:(lia) Hj X). rewrite <- (S' 0%nat j ltac:(lia) Hj), L. unfold Cscale, C0. f_equal; ring.
    + intros i Hi. destruct (Z i Hi) as (j & Hj & X). exists j. split; auto. intros W. apply (NZ i j Hi Hj X). etransitivity; [symmetry; exact (S' i j Hi Hj)|]. etransitivity; [exact (f_equal (Cscale len) W)|]. unfold Cscale, C0. cbn [fst snd]. f_equal; ring.
Qed.

(** one phase: no inversion routine is used *)
Lemma one_phase : forall inv (Z : C) len, len <> 0 -> Z <> C0 ->
  exists Y, new_unbalanced inv [[Some Z]] len 1 = Some ([[Some (Cscale len Z)]], [[Some Y]]) /\ Cmul (Cscale len Z) Y = C1.
Proof.
  intros inv Z len Hl HZ. set (W := Cscale len Z). assert (NW : fst W * fst W + snd W * snd W <> 0).
  { intros E. apply HZ. assert (fst W = 0 /\ snd W = 0) as [A B] by (split; nra). unfold W, Cscale in A, B. cbn [fst snd] in A, B.
    apply C_eq; cbn [fst snd C0]; [apply Rmult_integral in A; intuition|apply Rmult_integral in B; intuition]. }
  assert (N : cis0 W = false). { unfold cis0. destruct (both0 (fst W) (snd W)) eqn:E; auto. apply both0_true in E as [E1 E2]. rewrite E1, E2 in NW. exfalso. apply NW. ring. }
  exists (fst W / (fst W * fst W + snd W * snd W), - snd W / (fst W * fst W + snd W * snd W)). split.
  - unfold new_unbalanced. cbn [length square Nat.leb forallb Nat.eqb andb scale map]. change (len * fst Z, len * snd Z) with W.
    unfold calc_inverse, count_nonzero. cbn [concat app filter xis0]. rewrite N. cbn [negb length Nat.eqb]. unfold put_inf. cbn [map xis0]. rewrite N. cbn [xinv]. rewrite N. cbn [square length Nat.eqb forallb andb].
    unfold near_identity, mdot, entry. cbn [seq forallb fold_right nth xmul xadd close_to Nat.eqb fst snd]. destruct (Rle_dec _ _) as [L|L]; [reflexivity|].
    exfalso. apply L. match goal with |- ?a <= _ => replace a with 0 end; [lra|]. field; auto.
  - unfold Cmul, C1. cbn [fst snd]. apply C_eq; cbn [fst snd]; field; auto.
Qed.

(** several phases: a true inverse is accepted as it is *)
Lemma in_concat_two : forall (z : matrix) r0 r1 t, z = r0 :: r1 :: t -> (exists x, In x r0 /\ xis0 x = false) -> (exists x, In x r1 /\ xis0 x = false) -> (2 <= count_nonzero z)%nat.
Proof.
  intros z r0 r1 t -> (x & Hx & X) (y & Hy & Y). unfold count_nonzero. cbn [concat]. rewrite !filter_app, !app_length.
  assert (L : forall l a, In a l -> xis0 a = false -> (1 <= length (filter (fun x => negb (xis0 x)) l))%nat).
  { intros l a Ha Na. assert (In a (filter (fun x => negb (xis0 x)) l)) by (apply filter_In; now rewrite Na). destruct (filter _ l); [contradiction|cbn; lia]. }
  pose proof (L _ _ Hx X). pose proof (L _ _ Hy Y). lia.
Qed.
Lemma filter_all : forall A (p : A -> bool) l, (forall x, In x l -> p x = true) -> filter p l = l.
Proof. induction l as [|a l IH]; intros H; [reflexivity|]. cbn. rewrite (H a (or_introl eq_refl)). f_equal. apply IH. intros; apply H; now right. Qed.
Lemma nth_all : forall (r : list xnum) d, map (fun j => nth j r d) (seq 0 (length r)) = r.
Proof.
  intros r d. apply (nth_ext _ _ d d); [now rewrite map_length, seq_length|]. intros k Hk. rewrite map_length, seq_length in Hk.
  rewrite (nth_indep _ d ((fun j => nth j r d) 0%nat)) by (rewrite map_length, seq_length; auto). rewrite (map_nth (fun j => nth j r d)). now rewrite seq_nth.
Qed.
Lemma index_none : forall l, (forall b, In b l -> b = false) -> index_true l = None.
Proof. induction l as [|b l IH]; intros H; [reflexivity|]. cbn. rewrite (H b (or_introl eq_refl)), IH; auto. intros; apply H; now right. Qed.
Lemma square_rows : forall n m, square n m = true -> length m = n /\ forall r, In r m -> length r = n.
Proof. intros n m H. unfold square in H. apply andb_true_iff in H as [A B]. apply Nat.eqb_eq in A. rewrite forallb_forall in B. split; auto. intros r Hr. apply Nat.eqb_eq. auto. Qed.

Lemma true_inverse : forall inv z0 len y (Z Y : nat -> nat -> C),
  let n := length z0 in
  (2 <= n <= 3)%nat -> square n z0 = true -> square n y = true ->
  (forall i j, (i < n)%nat -> (j < n)%nat -> entry (scale len z0) i j = Some (Z i j) /\ entry y i j = Some (Y i j)) ->
  (forall i j, (i < n)%nat -> (j < n)%nat -> Csum (fun k => Cmul (Z i k) (Y k j)) n = (if Nat.eqb i j then C1 else C0) /\
                                           Csum (fun k => Cmul (Y i k) (Z k j)) n = (if Nat.eqb i j then C1 else C0)) ->
  inv (scale len z0) = Some y -> new_unbalanced inv z0 len n = Some (scale len z0, y).
Proof.
  intros inv z0 len y Z Y n Hn Sz Sy En Inv Hi. set (z := scale len z0) in *.
  assert (Sz' : square n z = true).
  { unfold square in *. unfold z. rewrite scale_length. apply andb_true_iff in Sz as [A B]. rewrite A. cbn [andb]. rewrite forallb_forall in *.
    intros r Hr. unfold scale in Hr. apply in_map_iff in Hr as (r0 & <- & Hr). rewrite map_length. auto. }
  destruct (square_rows _ _ Sz') as [Lz Rz].
  assert (C0sum : forall g k, (forall i, (i < k)%nat -> g i = C0) -> Csum g k = C0).
  { intros g k H. rewrite (Csum_ext g (fun _ => C0)) by auto. unfold Csum. generalize (seq 0 k). induction l as [|a l IH]; [reflexivity|]. cbn [fold_right]. rewrite IH. unfold Cadd, C0. cbn [fst snd]. f_equal; ring. }
  assert (NC : C1 <> C0) by (unfold C1, C0; intros X; injection X; lra).
  assert (Z0x : forall i j, (i < n)%nat -> (j < n)%nat -> xis0 (entry z i j) = true -> Z i j = C0).
  { intros i j Hi' Hj X. destruct (En i j Hi' Hj) as [E1 _]. rewrite E1 in X. cbn in X.  unfold cis0 in X. apply both0_true in X as [X1 X2]. apply C_eq; auto. }
  assert (Row : forall i, (i < n)%nat -> exists j, (j < n)%nat /\ xis0 (entry z i j) = false).
  { intros i Hi'. destruct (existsb (fun j => negb (xis0 (entry z i j))) (seq 0 n)) eqn:Ex.
    - apply existsb_exists in Ex as (j & Hj & Ex). apply in_seq0 in Hj. exists j. split; auto. now destruct (xis0 (entry z i j)).
    - exfalso. apply NC. destruct (Inv i i Hi' Hi') as [I _]. rewrite Nat.eqb_refl in I. rewrite <- I. apply C0sum. intros k Hk. rewrite (Z0x i k Hi' Hk).
      + unfold Cmul, C0. cbn [fst snd]. f_equal; ring.
      + destruct (xis0 (entry z i k)) eqn:W; auto. exfalso. assert (existsb (fun j => negb (xis0 (entry z i j))) (seq 0 n) = true); [|congruence].
        apply existsb_exists. exists k. rewrite W. split; auto. now apply in_seq0. }
  assert (Col : forall j, (j < n)%nat -> exists i, (i < n)%nat /\ xis0 (entry z i j) = false).
  { intros j Hj. destruct (existsb (fun i => negb (xis0 (entry z i j))) (seq 0 n)) eqn:Ex.
    - apply existsb_exists in Ex as (i & Hi' & Ex). apply in_seq0 in Hi'. exists i. split; auto. now destruct (xis0 (entry z i j)).
    - exfalso. apply NC. destruct (Inv j j Hj Hj) as [_ I]. rewrite Nat.eqb_refl in I. rewrite <- I. apply C0sum. intros k Hk. rewrite (Z0x k j Hk Hj).
      + unfold Cmul, C0. cbn [fst snd]. f_equal; ring.
      + destruct (xis0 (entry z k j)) eqn:W; auto. exfalso. assert (existsb (fun i => negb (xis0 (entry z i j))) (seq 0 n) = true); [|congruence].
        apply existsb_exists. exists k. rewrite W. split; auto. now apply in_seq0. }
  assert (NR : forall r, In r z -> zero_row r = false).
  { intros r Hr. destruct (In_nth _ _ [] Hr) as (i & Hi' & <-). rewrite Lz in Hi'. destruct (Row i Hi') as (j & Hj & X).
    destruct (zero_row (nth i z [])) eqn:W; auto. exfalso. unfold zero_row in W. rewrite forallb_forall in W. assert (L : (j < length (nth i z []))%nat) by (rewrite Rz; auto; apply nth_In; lia).
    rewrite (W (entry z i j)) in X; [discriminate|]. unfold entry. now apply nth_In. }
  assert (F1 : filter (fun r => negb (zero_row r)) z = z) by (apply filter_all; intros r Hr; now rewrite (NR r Hr)).
  assert (NCo : forall j, (j < n)%nat -> zero_col z j = false).
  { intros j Hj. destruct (Col j Hj) as (i & Hi' & X). destruct (zero_col z j) eqn:W; auto. exfalso. unfold zero_col in W. rewrite forallb_forall in W.
    assert (xis0 (entry z i j) = true) by (apply (W (nth i z [])); apply nth_In; lia). congruence. }
  assert (F2 : filter (fun j => negb (zero_col z j)) (seq 0 n) = seq 0 n) by (apply filter_all; intros j Hj; rewrite NCo; auto; now apply in_seq0).
  assert (F3 : map (fun r => map (fun j => nth j r (Some (0, 0))) (seq 0 n)) z = z).
  { rewrite <- (map_id z) at 2. apply map_ext_in. intros r Hr. rewrite <- (Rz r Hr). apply nth_all. }
  assert (Cnt : Nat.eqb (count_nonzero z) 1 = false).
  { apply Nat.eqb_neq. destruct z as [|r0 [|r1 t]] eqn:Ez; [cbn in Lz; lia|cbn in Lz; lia|]. assert (2 <= count_nonzero (r0 :: r1 :: t))%nat; [|lia].
    eapply in_concat_two; [reflexivity| |].
    - destruct (Row 0%nat ltac:(lia)) as (j & Hj & X). exists (entry (r0 :: r1 :: t) 0 j). split; auto. unfold entry. cbn [nth]. apply nth_In. rewrite Rz; cbn; auto.
    - destruct (Row 1%nat ltac:(lia)) as (j & Hj & X). exists (entry (r0 :: r1 :: t) 1 j). split; auto. unfold entry. cbn [nth]. apply nth_In. rewrite Rz; cbn; auto. }
  unfold new_unbalanced. fold n. rewrite Sz. replace (Nat.leb 1 n) with true by (symmetry; apply Nat.leb_le; lia). replace (Nat.leb n 3) with true by (symmetry; apply Nat.leb_le; lia).
  cbn [andb]. fold z. unfold calc_inverse. rewrite Cnt. unfold calc_inverse_rest. rewrite F1, F2, F3, Hi.
  assert (RI : index_true (map zero_row z) = None).
  { apply index_none. intros b Hb. apply in_map_iff in Hb as (r & <- & Hr). now apply NR. }
  rewrite RI.
  assert (NI : near_identity n z y = true).
  { unfold near_identity. apply forallb_forall. intros i Hi'. apply in_seq0 in Hi'. apply forallb_forall. intros j Hj. apply in_seq0 in Hj.
  assert (S : mdot n z y i j = Some (if Nat.eqb i j then C1 else C0)).
  { rewrite <- (proj1 (Inv i j Hi' Hj)). unfold mdot, Csum. apply xsum_some. intros k Hk. apply in_seq0 in Hk. destruct (En i k Hi' Hk) as [-> _]. destruct (En k j Hk Hj) as [_ ->]. reflexivity. }
  rewrite S. destruct (Nat.eqb i j); unfold close_to, C1, C0; cbn [fst snd]; destruct (Rle_dec _ _) as [L|L]; auto; exfalso; apply L; lra. }
  destruct (Nat.eqb (length y) 2); cbv beta iota zeta; rewrite ?Hi, Sy, Nat.eqb_refl, NI; reflexivity.
Qed.
Lemma true_inverse_accepted : forall inv z0 len y (Z0 Y : nat -> nat -> C),
  let n := length z0 in let Z i j := Cscale len (Z0 i j) in
  (2 <= n <= 3)%nat -> (forall r, In r z0 -> length r = n) -> length y = n -> (forall r, In r y -> length r = n) ->
  (forall i j, (i < n)%nat -> (j < n)%nat -> entry z0 i j = Some (Z0 i j) /\ entry y i j = Some (Y i j)) ->
  (forall i j, (i < n)%nat -> (j < n)%nat -> Csum (fun k => Cmul (Z i k) (Y k j)) n = (if Nat.eqb i j then C1 else C0) /\
                                           Csum (fun k => Cmul (Y i k) (Z k j)) n = (if Nat.eqb i j then C1 else C0)) ->
  (forall m, (forall i j, (i < n)%nat -> (j < n)%nat -> entry m i j = Some (Z i j)) -> inv m = Some y) ->
  exists z, new_unbalanced inv z0 len n = Some (z, y) /\ forall i j, (i < n)%nat -> (j < n)%nat -> entry z i j = Some (Z i j).
Proof.
  intros inv z0 len y Z0 Y n Z Hn Rz Ly Ry En Inv Hi.
  assert (E : forall i j, (i < n)%nat -> (j < n)%nat -> entry (scale len z0) i j = Some (Z i j)).
  { intros i j Hi' Hj. destruct (En i j Hi' Hj) as [X _]. destruct (nth_scale len z0 i j) as [->|[-> X2]].
    - now rewrite X.
    - rewrite X in X2. injection X2 as X2. assert (W : Z i j = (0, 0)) by (unfold Z, Cscale; rewrite X2; apply C_eq; cbn [fst snd]; ring). now rewrite W. }
  exists (scale len z0). split; [|exact E]. apply (true_inverse inv z0 len y Z Y).
  - exact Hn.
  - unfold square. fold n. rewrite Nat.eqb_refl. apply forallb_forall. intros r Hr. apply Nat.eqb_eq. auto.
  - unfold square. fold n. rewrite Ly, Nat.eqb_refl. apply forallb_forall. intros r Hr. apply Nat.eqb_eq. auto.
  - intros i j Hi' Hj. split; [auto|]. apply En; auto.
  - exact Inv.
  - apply Hi. exact E.
Qed.
