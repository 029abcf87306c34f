(** Refinement of the batched MatrixStamper to per-element stamping. *)
From Coq Require Import List Bool Arith ZArith Lia Permutation.
From Verif Require Import Stamper SpecStamper.
Import ListNotations.

Lemma Permutation_filter' : forall {A} (f : A -> bool) l l', Permutation l l' -> Permutation (filter f l) (filter f l').
Proof.
  intros A f l l' H. induction H; simpl; auto.
  - destruct (f x); auto.
  - destruct (f x), (f y); auto. apply perm_swap.
  - eapply Permutation_trans; eauto.
Qed.

Section DictLemmas.
Context {A B : Type}.
Variable eqb : A -> A -> bool.
Hypothesis eqb_eq : forall a b, eqb a b = true <-> a = b.

Lemma eqb_refl' : forall a, eqb a a = true. Proof. intros. now apply eqb_eq. Qed.
Lemma eqb_neq' : forall a b, eqb a b = false <-> a <> b.
Proof. intros. rewrite <- eqb_eq. destruct (eqb a b); split; intros; congruence. Qed.

Lemma dget_dset : forall (d : list (A * B)) k b k',
  dget eqb (dset eqb d k b) k' = if eqb k' k then Some b else dget eqb d k'.
Proof.
  induction d as [|[k1 b1] d IH]; intros k b k'; simpl; auto.
  destruct (eqb k k1) eqn:E; simpl.
  - apply eqb_eq in E. subst k1. destruct (eqb k' k); auto.
  - rewrite IH. destruct (eqb k' k1) eqn:E1; auto.
    apply eqb_eq in E1. subst k1. destruct (eqb k' k) eqn:E2; auto.
    apply eqb_eq in E2. subst. rewrite eqb_refl' in E. discriminate.
Qed.

Lemma dget_app : forall (d : list (A * B)) k b k',
  dget eqb (d ++ [(k, b)]) k' = match dget eqb d k' with Some x => Some x | None => if eqb k' k then Some b else None end.
Proof.
  induction d as [|[k1 b1] d IH]; intros; simpl; auto. destruct (eqb k' k1); auto.
Qed.

Lemma dset_app_new : forall (d : list (A * B)) k b b', dget eqb d k = None ->
  dset eqb (d ++ [(k, b)]) k b' = d ++ [(k, b')].
Proof.
  induction d as [|[k1 b1] d IH]; intros k b b' H; simpl in *.
  - now rewrite eqb_refl'.
  - destruct (eqb k k1); [discriminate|]. now rewrite IH.
Qed.

Lemma flat_map_dset : forall {C} (f : A * B -> list C) (d : list (A * B)) k b b' new,
  dget eqb d k = Some b -> (forall k', eqb k k' = true -> f (k', b') = f (k', b) ++ [new]) ->
  Permutation (flat_map f (dset eqb d k b')) (new :: flat_map f d).
Proof.
  intros C f d k b b' new. induction d as [|[k1 b1] d IH]; simpl; intros H Hf; [discriminate|].
  destruct (eqb k k1) eqn:E.
  - injection H as ->. simpl. rewrite Hf by auto. rewrite <- app_assoc. simpl.
    symmetry. apply Permutation_middle.
  - simpl. rewrite (IH H Hf). symmetry. apply Permutation_middle.
Qed.

Lemma dget_In : forall (d : list (A * B)) k b, dget eqb d k = Some b -> exists k', In (k', b) d /\ k' = k.
Proof.
  induction d as [|[k1 b1] d IH]; simpl; intros k b H; [discriminate|].
  destruct (eqb k k1) eqn:E.
  - injection H as ->. apply eqb_eq in E. eauto.
  - destruct (IH _ _ H) as [k' [H1 H2]]. eauto.
Qed.

Lemma dget_map : forall {C} (f : B -> C) (d : list (A * B)) k,
  dget eqb (map (fun kb => (fst kb, f (snd kb))) d) k = option_map f (dget eqb d k).
Proof.
  induction d as [|[k1 b1] d IH]; simpl; intros; auto. destruct (eqb k k1); auto.
Qed.
End DictLemmas.

Section S.
Context {T K P RK M : Type}.
Variable zero nan : T.
Variable keqb : K -> K -> bool.
Variable peqb : P -> P -> bool.
Variable rkeqb : RK -> RK -> bool.
Variable ieqb : @input T -> @input T -> bool.
Hypothesis keqb_eq : forall a b, keqb a b = true <-> a = b.
Hypothesis peqb_eq : forall a b, peqb a b = true <-> a = b.
Hypothesis rkeqb_eq : forall a b, rkeqb a b = true <-> a = b.
Hypothesis ieqb_sound : forall a b, ieqb a b = true -> a = b.

Notation input := (@input T).
Notation expression := (@expression T K P).
Notation stamp := (@stamp T K P).
Notation resid := (@resid T P RK).
Notation coll := (@coll T K P RK M).
Notation ibuilder := (@ibuilder T).
Notation fbuilder := (@fbuilder T).
Notation stampset := (@stampset T K P).
Notation residset := (@residset T P M).
Notation building := (@building T K P RK M).
Notation point := (@point T).
Notation args opt tx pt := (element_args zero nan opt tx pt).

(** ** Part A: the argument tables *)
Lemma set_at_app_l : forall {A} (l r : list A) n x, n < length l -> set_at (l ++ r) n x = set_at l n x ++ r.
Proof. induction l; simpl; intros r n x H; [lia|]. destruct n; simpl; auto. rewrite IHl by lia. auto. Qed.

Lemma set_at_app_mid : forall {A} (l r : list A) y x, set_at (l ++ y :: r) (length l) x = l ++ x :: r.
Proof. induction l; simpl; intros; auto. now rewrite IHl. Qed.

Lemma set_at_put_tx : forall (l : list T) n x, set_at l n x = put_tx l n x.
Proof. induction l; simpl; intros; destruct n; auto. now rewrite IHl. Qed.

Lemma put_tx_twice : forall (l : list T) n x y, put_tx (put_tx l n x) n y = put_tx l n y.
Proof. induction l; simpl; intros; destruct n; simpl; auto. now rewrite IHl. Qed.

Lemma put_tx_length : forall (l : list T) n x, length (put_tx l n x) = length l.
Proof. induction l; simpl; intros; destruct n; simpl; auto. Qed.

Lemma const_values_length : forall tx (pt : point) cs, length (const_values tx pt cs) = length cs.
Proof. intros. unfold const_values. destruct tx, (pt_tx pt); auto. apply put_tx_length. Qed.

Definition start_point : point := {| pt_v := fun _ => zero; pt_tx := None |}.

Lemma freeze_row_args : forall opt tx i, freeze_row zero nan opt i = args opt tx start_point i.
Proof.
  intros. unfold freeze_row, element_args. f_equal.
  - unfold const_values. simpl. now destruct tx.
  - f_equal; apply map_ext; intros [n|]; reflexivity.
Qed.

Lemma update_tx_row : forall opt n (pt : point) x i, n < length (in_consts i) ->
  set_at (args opt (Some n) pt i) n x = args opt (Some n) {| pt_v := pt_v pt; pt_tx := Some x |} i.
Proof.
  intros. unfold element_args. rewrite set_at_app_l by (rewrite const_values_length; auto).
  f_equal. unfold const_values. simpl. rewrite set_at_put_tx. destruct (pt_tx pt); auto. apply put_tx_twice.
Qed.

Lemma set2_mid : forall (l r : list (list T)) row a x,
  set2 (l ++ row :: r) (length l) a x = l ++ set_at row a x :: r.
Proof.
  intros. unfold set2. rewrite nth_error_app2 by lia. rewrite Nat.sub_diag. simpl. apply set_at_app_mid.
Qed.

Section Fill.
Variable v : nat -> T.
Notation fill tbl fs := (fold_left (fun m (f : nat * nat * nat) => set2 m (snd (fst f)) (fst (fst f)) (v (snd f))) fs tbl).

Lemma fills_from_row : forall idx (f f' : option nat -> T) A B (pre post : list (list T)),
  f None = f' None -> (forall n, f' (Some n) = v n) ->
  fill (pre ++ (A ++ map f idx ++ B) :: post) (fills_from idx (length A) (length pre))
    = pre ++ (A ++ map f' idx ++ B) :: post.
Proof.
  induction idx as [|[n|] idx IH]; intros f f' A B pre post HN HS; simpl; auto.
  - rewrite set2_mid. rewrite set_at_app_mid.
    specialize (IH f f' (A ++ [v n]) B pre post HN HS). rewrite app_length in IH. simpl in IH.
    rewrite Nat.add_1_r in IH. rewrite <- !app_assoc in IH. simpl in IH. rewrite HS. exact IH.
  - specialize (IH f f' (A ++ [f None]) B pre post HN HS). rewrite app_length in IH. simpl in IH.
    rewrite Nat.add_1_r in IH. rewrite <- !app_assoc in IH. simpl in IH. rewrite <- HN. exact IH.
Qed.

Lemma row_fills_ok : forall opt tx (pt : point) i pre post,
  fill (pre ++ args opt tx pt i :: post) (row_fills opt i (length pre))
  = pre ++ args opt tx {| pt_v := v; pt_tx := pt_tx pt |} i :: post.
Proof.
  intros opt tx pt i pre post. unfold row_fills. rewrite fold_left_app. unfold element_args.
  rewrite <- (const_values_length tx pt (in_consts i)).
  set (C := const_values tx pt (in_consts i)).
  change (const_values tx {| pt_v := v; pt_tx := pt_tx pt |} (in_consts i)) with C.
  rewrite (fills_from_row (in_primals i) (var_value zero pt) (var_value zero {| pt_v := v; pt_tx := pt_tx pt |}))
    by reflexivity.
  destruct opt.
  - assert (H := fills_from_row (in_duals i) (dual_value zero nan true pt)
        (dual_value zero nan true {| pt_v := v; pt_tx := pt_tx pt |})
        (C ++ map (var_value zero {| pt_v := v; pt_tx := pt_tx pt |}) (in_primals i)) [] pre post
        ltac:(reflexivity) ltac:(reflexivity)).
    rewrite app_length, map_length, !app_nil_r, <- !app_assoc in H. exact H.
  - simpl. repeat f_equal.
Qed.

Lemma all_fills_ok : forall opt tx (pt : point) L pre,
  fill (pre ++ map (args opt tx pt) L) (all_fills opt L (length pre))
  = pre ++ map (args opt tx {| pt_v := v; pt_tx := pt_tx pt |}) L.
Proof.
  induction L as [|i L IH]; intros pre; simpl; auto.
  rewrite fold_left_app, row_fills_ok.
  specialize (IH (pre ++ [args opt tx {| pt_v := v; pt_tx := pt_tx pt |} i])).
  rewrite app_length in IH. simpl in IH. rewrite Nat.add_1_r in IH. rewrite <- !app_assoc in IH. exact IH.
Qed.
End Fill.

(** the frozen form of a builder at a point *)
Definition frozen (opt : bool) (pt : point) (k : Z) (b : ibuilder) : fbuilder :=
  {| fb_tx := ib_tx b; fb_args := map (args opt (ib_tx b) pt) (ib_inputs b);
     fb_fills := all_fills opt (ib_inputs b) 0; fb_iter := k |}.

Lemma frozen_update_v : forall opt (pt : point) k b v k',
  update_vprev (frozen opt pt k b) v k' =
  if Z.eqb k' k then frozen opt pt k b else frozen opt {| pt_v := v; pt_tx := pt_tx pt |} k' b.
Proof.
  intros. unfold update_vprev. simpl. destruct (Z.eqb k' k); auto.
  unfold frozen. f_equal. apply (all_fills_ok v opt (ib_tx b) pt (ib_inputs b) []).
Qed.

Definition builder_ok (b : ibuilder) : Prop :=
  forall i, In i (ib_inputs b) -> input_ok (ib_nargs b) (ib_tx b) i.

Lemma frozen_update_tx : forall opt (pt : point) k b x, builder_ok b ->
  update_tx (frozen opt pt k b) x = frozen opt {| pt_v := pt_v pt; pt_tx := Some x |} k b.
Proof.
  intros opt pt k b x Hb. unfold update_tx. simpl. destruct (ib_tx b) as [n|] eqn:E.
  - unfold frozen. rewrite E. f_equal. rewrite map_map. apply map_ext_in. intros i Hi.
    apply update_tx_row. destruct (Hb i Hi) as [_ H]. rewrite E in H. exact H.
  - unfold frozen. rewrite E. f_equal.
Qed.

(** ** Part B: construction *)
Lemma find_input_some : forall l i n, find_input ieqb l i = Some n -> nth_error l n = Some i.
Proof.
  induction l as [|x l IH]; simpl; intros i n H; [discriminate|].
  destruct (ieqb i x) eqn:E.
  - injection H as <-. apply ieqb_sound in E. now subst.
  - destruct (find_input ieqb l i) as [m|] eqn:F; [|discriminate]. injection H as <-. simpl. auto.
Qed.

Definition grows (b b' : ibuilder) : Prop :=
  ib_nargs b' = ib_nargs b /\ ib_tx b' = ib_tx b /\ exists t, ib_inputs b' = ib_inputs b ++ t.

Lemma grows_refl : forall b, grows b b.
Proof. intros. repeat split; auto. exists []. now rewrite app_nil_r. Qed.

Lemma add_input_spec : forall b i b' o, add_input ieqb b i = (b', o) ->
  grows b b' /\ nth_error (ib_inputs b') o = Some i /\ (forall j, In j (ib_inputs b') -> In j (ib_inputs b) \/ j = i).
Proof.
  intros b i b' o H. unfold add_input in H. destruct (find_input ieqb (ib_inputs b) i) as [n|] eqn:F.
  - injection H as <- <-. split; [apply grows_refl|]. split; [now apply find_input_some|auto].
  - injection H as <- <-. simpl. split; [repeat split; simpl; eauto|]. split.
    + rewrite nth_error_app2 by lia. now rewrite Nat.sub_diag.
    + intros j Hj. rewrite in_app_iff in Hj. simpl in Hj. intuition.
Qed.

(** dictionaries of builders only grow *)
Definition ext (bs bs' : list (P * ibuilder)) : Prop :=
  forall p b, dget peqb bs p = Some b -> exists b', dget peqb bs' p = Some b' /\ grows b b'.

Lemma ext_refl : forall bs, ext bs bs.
Proof. intros bs p b H. exists b. split; auto using grows_refl. Qed.

Lemma ext_app : forall bs p b, ext bs (bs ++ [(p, b)]).
Proof.
  intros bs p b p' b' H. exists b'. rewrite dget_app by auto. rewrite H. split; auto using grows_refl.
Qed.

Lemma ext_dset : forall bs p b b', dget peqb bs p = Some b -> grows b b' -> ext bs (dset peqb bs p b').
Proof.
  intros bs p b b' H G p' c Hc. rewrite (dget_dset peqb peqb_eq). destruct (peqb p' p) eqn:E.
  - apply peqb_eq in E. subst. rewrite H in Hc. injection Hc as <-. eauto.
  - eauto using grows_refl.
Qed.

Lemma ext_trans : forall a b c, ext a b -> ext b c -> ext a c.
Proof.
  intros a b c H1 H2 p x Hx. destruct (H1 _ _ Hx) as [y [Hy [A1 [A2 [t1 A3]]]]].
  destruct (H2 _ _ Hy) as [z [Hz [B1 [B2 [t2 B3]]]]]. exists z. split; auto.
  repeat split; try congruence. exists (t1 ++ t2). rewrite B3, A3. now rewrite app_assoc.
Qed.

(** what an item denotes: the homotopy position of its builder and its input *)
Definition look (bs : list (P * ibuilder)) (p : P) (o : nat) : option (option nat * input) :=
  match dget peqb bs p with
  | None => None
  | Some b => match nth_error (ib_inputs b) o with Some i => Some (ib_tx b, i) | None => None end
  end.

Lemma look_ext : forall bs bs' p o z, ext bs bs' -> look bs p o = Some z -> look bs' p o = Some z.
Proof.
  intros bs bs' p o z H E. unfold look in *. destruct (dget peqb bs p) as [b|] eqn:Eb; [|discriminate].
  destruct (H _ _ Eb) as [b' [Eb' [A1 [A2 [t A3]]]]]. rewrite Eb'.
  destruct (nth_error (ib_inputs b) o) as [i|] eqn:Ei; [|discriminate].
  rewrite A3, A2. rewrite nth_error_app1; [now rewrite Ei|].
  apply nth_error_Some. congruence.
Qed.

Definition sitem := (expression * nat * nat * option (option nat * input))%type.
Definition resolve_set (bs : list (P * ibuilder)) (s : stampset) : list sitem :=
  map (fun it => (ss_x s, fst (fst it), snd (fst it), look bs (ss_builder s) (snd it))) (ss_items s).
Definition resolve bs (ss : list (K * stampset)) : list sitem := flat_map (fun ks => resolve_set bs (snd ks)) ss.
Definition starget (s : stamp) : sitem := (s_x s, s_row s, s_col s, Some (x_tx (s_x s), s_in s)).

Definition ritem := ((list T -> T) * M * nat * option (option nat * input))%type.
Definition rresolve_set (bs : list (P * ibuilder)) (s : residset) : list ritem :=
  map (fun it => (rs_eval s, fst (fst it), snd (fst it), look bs (rs_builder s) (snd it))) (rs_items s).
Definition rresolve bs (rs : list (RK * residset)) : list ritem := flat_map (fun ks => rresolve_set bs (snd ks)) rs.
Definition rtarget (mr : M * resid) : ritem :=
  (r_eval (snd mr), fst mr, r_row (snd mr), Some (r_tx (snd mr), r_in (snd mr))).

Lemma resolve_ext : forall bs bs' ss, ext bs bs' ->
  (forall z, In z (resolve bs ss) -> snd z <> None) -> resolve bs' ss = resolve bs ss.
Proof.
  intros bs bs' ss He. unfold resolve. induction ss as [|[k s] ss IH]; intros H; auto. simpl in *.
  rewrite IH by (intros z Hz; apply H; apply in_or_app; auto). f_equal.
  unfold resolve_set in *. apply map_ext_in. intros it Hit. f_equal.
  destruct (look bs (ss_builder s) (snd it)) as [z|] eqn:E; [eapply look_ext; eauto|].
  exfalso. apply (H (ss_x s, fst (fst it), snd (fst it), None)); auto.
  apply in_or_app. left. apply in_map_iff. exists it. rewrite E. auto.
Qed.

Lemma rresolve_ext : forall bs bs' ss, ext bs bs' ->
  (forall z, In z (rresolve bs ss) -> snd z <> None) -> rresolve bs' ss = rresolve bs ss.
Proof.
  intros bs bs' ss He. unfold rresolve. induction ss as [|[k s] ss IH]; intros H; auto. simpl in *.
  rewrite IH by (intros z Hz; apply H; apply in_or_app; auto). f_equal.
  unfold rresolve_set in *. apply map_ext_in. intros it Hit. f_equal.
  destruct (look bs (rs_builder s) (snd it)) as [z|] eqn:E; [eapply look_ext; eauto|].
  exfalso. apply (H (rs_eval s, fst (fst it), snd (fst it), None)); auto.
  apply in_or_app. left. apply in_map_iff. exists it. rewrite E. auto.
Qed.

Section WF.
Variable cs : list coll.
Hypothesis wf : well_formed cs.

Record binv (Sd : list stamp) (Rd : list (M * resid)) (bd : building) : Prop := {
  bi_s : Permutation (resolve (bd_builders bd) (bd_sets bd)) (map starget Sd);
  bi_r : Permutation (rresolve (bd_builders bd) (bd_rsets bd)) (map rtarget Rd);
  bi_sub : forall s, In s Sd -> In s (all_stamps cs);
  bi_rsub : forall m r, In (m, r) Rd -> exists c, In c cs /\ In r (c_resids c);
  bi_b : forall p b, dget peqb (bd_builders bd) p = Some b ->
           exists s, In s Sd /\ x_pkey (s_x s) = p /\ ib_nargs b = x_nparams (s_x s) /\ ib_tx b = x_tx (s_x s);
  bi_all : forall x, In x (bd_builders bd) -> builder_ok (snd x);
  bi_dom : forall s, In s Sd -> exists b, dget peqb (bd_builders bd) (x_pkey (s_x s)) = Some b;
  bi_set : forall k set, dget keqb (bd_sets bd) k = Some set ->
           exists s, In s Sd /\ ss_x set = s_x s /\ x_key (s_x s) = k /\ ss_builder set = x_pkey (s_x s);
  bi_rset : forall k set, dget rkeqb (bd_rsets bd) k = Some set ->
           exists m r, In (m, r) Rd /\ r_key r = k /\ rs_eval set = r_eval r /\ rs_builder set = r_pkey r;
  bi_rdom : forall m r, In (m, r) Rd -> exists b, dget peqb (bd_builders bd) (r_pkey r) = Some b;
  bi_last : match bd_last bd with
            | None => Sd = []
            | Some p => exists s S', Sd = S' ++ [s] /\ x_pkey (s_x s) = p
            end
}.

Lemma resolved_some : forall Sd Rd bd, binv Sd Rd bd ->
  (forall z, In z (resolve (bd_builders bd) (bd_sets bd)) -> snd z <> None) /\
  (forall z, In z (rresolve (bd_builders bd) (bd_rsets bd)) -> snd z <> None).
Proof.
  intros Sd Rd bd H. split; intros z Hz.
  - apply (Permutation_in _ (bi_s _ _ _ H)) in Hz. apply in_map_iff in Hz as [s [<- _]]. discriminate.
  - apply (Permutation_in _ (bi_r _ _ _ H)) in Hz. apply in_map_iff in Hz as [s [<- _]]. discriminate.
Qed.

Lemma bi_bok : forall Sd Rd bd, binv Sd Rd bd -> forall p b, dget peqb (bd_builders bd) p = Some b -> builder_ok b.
Proof.
  intros Sd Rd bd H p b E. destruct (dget_In peqb peqb_eq _ _ _ E) as [k [Hk _]]. apply (bi_all _ _ _ H _ Hk).
Qed.

Lemma dset_In : forall (bs : list (P * ibuilder)) p b x, In x (dset peqb bs p b) -> In x bs \/ snd x = b.
Proof.
  induction bs as [|[p1 b1] bs IH]; simpl; intros p b x H; [destruct H as [<-|[]]; auto|].
  destruct (peqb p p1); simpl in H.
  - destruct H as [<-|H]; auto.
  - destruct H as [<-|H]; auto. apply IH in H. intuition.
Qed.

Lemma pkey_props : forall Sd Rd bd s b, binv Sd Rd bd -> In s (all_stamps cs) ->
  dget peqb (bd_builders bd) (x_pkey (s_x s)) = Some b ->
  ib_nargs b = x_nparams (s_x s) /\ ib_tx b = x_tx (s_x s).
Proof.
  intros Sd Rd bd s b H Hs Hb. destruct (bi_b _ _ _ H _ _ Hb) as [s' [H1 [H2 [H3 H4]]]].
  destruct (wf_pkey _ wf s' s) as [A B]; auto. { now apply (bi_sub _ _ _ H). }
  split; congruence.
Qed.

Lemma add_stamp_inv : forall Sd Rd bd s, binv Sd Rd bd -> In s (all_stamps cs) ->
  exists bd', add_stamp keqb peqb ieqb bd s = SOk bd' /\ binv (Sd ++ [s]) Rd bd'.
Proof.
  intros Sd Rd bd s H Hs. destruct (resolved_some _ _ _ H) as [Z1 Z2].
  unfold add_stamp.
  set (bs := match dget peqb (bd_builders bd) (x_pkey (s_x s)) with Some _ => _ | None => _ end).
  set (ss := match dget keqb (bd_sets bd) (x_key (s_x s)) with Some _ => _ | None => _ end).
  assert (Ebs : ext (bd_builders bd) bs).
  { unfold bs. destruct (dget peqb (bd_builders bd) (x_pkey (s_x s))); [apply ext_refl|apply ext_app]. }
  (* the builder *)
  assert (Hb : exists b, dget peqb bs (x_pkey (s_x s)) = Some b /\ ib_nargs b = x_nparams (s_x s) /\ ib_tx b = x_tx (s_x s)).
  { unfold bs. destruct (dget peqb (bd_builders bd) (x_pkey (s_x s))) as [b|] eqn:E.
    - exists b. split; auto. eapply pkey_props; eauto.
    - rewrite dget_app by auto. rewrite E, (eqb_refl' peqb peqb_eq). eexists; split; [reflexivity|]. auto. }
  (* builders of bs are ok and come from stamps *)
  assert (Hbs : forall p b, dget peqb bs p = Some b -> builder_ok b /\
      exists s', In s' (Sd ++ [s]) /\ x_pkey (s_x s') = p /\ ib_nargs b = x_nparams (s_x s') /\ ib_tx b = x_tx (s_x s')).
  { intros p b E. unfold bs in E. destruct (dget peqb (bd_builders bd) (x_pkey (s_x s))) as [b0|] eqn:E0.
    - split; [eapply bi_bok; eauto|]. destruct (bi_b _ _ _ H _ _ E) as [s' [A B]]. exists s'. rewrite in_app_iff. auto.
    - rewrite dget_app in E by auto. destruct (dget peqb (bd_builders bd) p) as [b1|] eqn:E1.
      + injection E as <-. split; [eapply bi_bok; eauto|]. destruct (bi_b _ _ _ H _ _ E1) as [s' [A B]].
        exists s'. rewrite in_app_iff. auto.
      + destruct (peqb p (x_pkey (s_x s))) eqn:Ep; [|discriminate]. apply peqb_eq in Ep. injection E as <-. split.
        * intros i [].
        * exists s. rewrite in_app_iff. simpl. auto. }
  destruct Hb as [b [Eb [Hn Ht]]].
  (* the set *)
  assert (Hss : resolve (bd_builders bd) ss = resolve (bd_builders bd) (bd_sets bd) /\
     (forall k set, dget keqb ss k = Some set ->
        exists s', In s' (Sd ++ [s]) /\ ss_x set = s_x s' /\ x_key (s_x s') = k /\ ss_builder set = x_pkey (s_x s')) /\
     exists set, dget keqb ss (x_key (s_x s)) = Some set /\ ss_x set = s_x s /\ ss_builder set = x_pkey (s_x s)).
  { unfold ss. destruct (dget keqb (bd_sets bd) (x_key (s_x s))) as [set|] eqn:E.
    - split; auto. split.
      + intros k set' E'. destruct (bi_set _ _ _ H _ _ E') as [s' [A B]]. exists s'. rewrite in_app_iff. auto.
      + exists set. destruct (bi_set _ _ _ H _ _ E) as [s' [A [B [C D]]]].
        assert (s_x s' = s_x s) as Ex. { apply (wf_key _ wf); auto. now apply (bi_sub _ _ _ H). }
        repeat split; congruence.
    - split; [|split].
      + unfold resolve. rewrite flat_map_app. simpl. now rewrite app_nil_r.
      + intros k set' E'. rewrite dget_app in E' by auto. destruct (dget keqb (bd_sets bd) k) as [s1|] eqn:E1.
        * injection E' as <-. destruct (bi_set _ _ _ H _ _ E1) as [s' [A B]]. exists s'. rewrite in_app_iff. auto.
        * destruct (keqb k (x_key (s_x s))) eqn:Ek; [|discriminate]. apply keqb_eq in Ek. injection E' as <-.
          exists s. rewrite in_app_iff. simpl. auto.
      + rewrite dget_app by auto. rewrite E, (eqb_refl' keqb keqb_eq). eexists; split; [reflexivity|]. auto. }
  destruct Hss as [Hr [Hsets [set [Es [Ex Ep]]]]].
  rewrite Es, Ep, Eb. destruct (add_input ieqb b (s_in s)) as [b' o] eqn:Ea.
  destruct (add_input_spec _ _ _ _ Ea) as [G [No Hin]].
  eexists; split; [reflexivity|].
  assert (E2 : ext bs (dset peqb bs (x_pkey (s_x s)) b')) by (eapply ext_dset; eauto).
  assert (E3 : ext (bd_builders bd) (dset peqb bs (x_pkey (s_x s)) b')) by (eapply ext_trans; eauto).
  assert (Hget : forall p c, dget peqb (dset peqb bs (x_pkey (s_x s)) b') p = Some c ->
      (p = x_pkey (s_x s) /\ c = b') \/ dget peqb bs p = Some c).
  { intros p c E. rewrite (dget_dset peqb peqb_eq) in E. destruct (peqb p (x_pkey (s_x s))) eqn:Eq.
    - apply peqb_eq in Eq. injection E as <-. auto.
    - auto. }
  destruct G as [G1 [G2 [t G3]]].
  constructor; simpl.
  - (* stamps *)
    rewrite map_app. simpl. eapply Permutation_trans; [|apply Permutation_cons_append].
    eapply Permutation_trans.
    + unfold resolve.
      apply (flat_map_dset keqb (fun ks => resolve_set (dset peqb bs (x_pkey (s_x s)) b') (snd ks)) ss (x_key (s_x s)) set _ (starget s) Es).
      intros k' _. simpl. unfold resolve_set. simpl. rewrite Ep, map_app. simpl. f_equal. f_equal.
      unfold starget. rewrite Ex. f_equal. unfold look.
      rewrite (dget_dset peqb peqb_eq), (eqb_refl' peqb peqb_eq), No. congruence.
    + constructor. change (Permutation (resolve (dset peqb bs (x_pkey (s_x s)) b') ss) (map starget Sd)).
      rewrite (resolve_ext (bd_builders bd)); auto.
      * rewrite Hr. apply (bi_s _ _ _ H).
      * rewrite Hr. exact Z1.
  - rewrite (rresolve_ext (bd_builders bd)); auto. apply (bi_r _ _ _ H).
  - intros s' Hs'. rewrite in_app_iff in Hs'. destruct Hs' as [Hs'|[<-|[]]]; auto. now apply (bi_sub _ _ _ H).
  - apply (bi_rsub _ _ _ H).
  - intros p c E. destruct (Hget _ _ E) as [[-> ->]|E'].
    + exists s. rewrite in_app_iff. simpl. repeat split; auto; congruence.
    + apply Hbs in E' as [_ E']. exact E'.
  - intros x Hx. apply dset_In in Hx as [Hx|Hx].
    + unfold bs in Hx. destruct (dget peqb (bd_builders bd) (x_pkey (s_x s))).
      * apply (bi_all _ _ _ H _ Hx).
      * rewrite in_app_iff in Hx. destruct Hx as [Hx|[<-|[]]].
        { apply (bi_all _ _ _ H _ Hx). }
        { intros i Hi. destruct Hi. }
    + rewrite Hx. intros i Hi. rewrite G1, G2. destruct (Hin i Hi) as [Hi'| ->].
      * destruct (Hbs _ _ Eb) as [Hok _]. now apply Hok.
      * rewrite Hn, Ht. now apply (wf_input _ wf).
  - intros s' Hs'. rewrite in_app_iff in Hs'. destruct Hs' as [Hs'|[<-|[]]].
    + destruct (bi_dom _ _ _ H _ Hs') as [c Hc]. destruct (E3 _ _ Hc) as [c' [Hc' _]]. eauto.
    + rewrite (dget_dset peqb peqb_eq), (eqb_refl' peqb peqb_eq). eauto.
  - intros k set' E. rewrite (dget_dset keqb keqb_eq) in E. destruct (keqb k (x_key (s_x s))) eqn:Ek.
    + apply keqb_eq in Ek. injection E as <-. simpl. exists s. rewrite in_app_iff. simpl. repeat split; auto.
    + now apply Hsets.
  - apply (bi_rset _ _ _ H).
  - intros m r Hr'. destruct (bi_rdom _ _ _ H _ _ Hr') as [c Hc]. destruct (E3 _ _ Hc) as [c' [Hc' _]]. eauto.
  - eauto.
Qed.

Lemma add_stamps_inv : forall l Sd Rd bd, binv Sd Rd bd -> (forall s, In s l -> In s (all_stamps cs)) ->
  exists bd', fold_res (add_stamp keqb peqb ieqb) l bd = SOk bd' /\ binv (Sd ++ l) Rd bd'.
Proof.
  induction l as [|s l IH]; intros Sd Rd bd H Hl; simpl.
  - rewrite app_nil_r. eauto.
  - destruct (add_stamp_inv Sd Rd bd s H) as [bd1 [E1 H1]]; [apply Hl; now left|].
    rewrite E1. destruct (IH (Sd ++ [s]) Rd bd1 H1) as [bd2 [E2 H2]]; [intros; apply Hl; now right|].
    exists bd2. split; auto. now rewrite <- app_assoc in H2.
Qed.

(** processing a residual whose collection's last stamp is the last stamp seen *)
Lemma add_resid_inv : forall Sd Rd bd c r, binv Sd Rd bd -> In c cs -> In r (c_resids c) ->
  (exists s S', Sd = S' ++ [s] /\ In s (c_stamps c)) ->
  exists bd', add_resid peqb rkeqb ieqb (c_model c) bd r = SOk bd' /\ binv Sd (Rd ++ [(c_model c, r)]) bd' /\ bd_last bd' = bd_last bd.
Proof.
  intros Sd Rd bd c r H Hc Hr [s [S' [ES Hsc]]]. destruct (resolved_some _ _ _ H) as [Z1 Z2].
  destruct (wf_resid _ wf c r Hc Hr) as [_ [Hiok Hsame]].
  destruct (Hsame s Hsc) as [Sp [Sn St]].
  assert (Hs : In s (all_stamps cs)).
  { unfold all_stamps. apply in_flat_map. eauto. }
  assert (HsS : In s Sd) by (rewrite ES; apply in_or_app; right; now left).
  assert (Hlast : bd_last bd = Some (r_pkey r)).
  { pose proof (bi_last _ _ _ H) as L. destruct (bd_last bd) as [p|].
    - destruct L as [s1 [S1 [E1 E2]]]. rewrite ES in E1. apply app_inj_tail in E1 as [_ <-]. congruence.
    - rewrite L in ES. destruct S'; discriminate. }
  destruct (bi_dom _ _ _ H s HsS) as [b Eb]. rewrite Sp in Eb.
  assert (Hbp : ib_nargs b = r_nparams r /\ ib_tx b = r_tx r).
  { rewrite <- Sp in Eb. destruct (pkey_props _ _ _ _ _ H Hs Eb). split; congruence. }
  destruct Hbp as [Hbn Hbt].
  unfold add_resid.
  set (rs' := match dget rkeqb (bd_rsets bd) (r_key r) with Some _ => _ | None => _ end).
  assert (Hrs : exists rs, rs' = SOk rs /\ rresolve (bd_builders bd) rs = rresolve (bd_builders bd) (bd_rsets bd) /\
     (forall k set, dget rkeqb rs k = Some set ->
        exists m r', In (m, r') (Rd ++ [(c_model c, r)]) /\ r_key r' = k /\ rs_eval set = r_eval r' /\ rs_builder set = r_pkey r') /\
     exists set, dget rkeqb rs (r_key r) = Some set /\ rs_eval set = r_eval r /\ rs_builder set = r_pkey r).
  { unfold rs'. destruct (dget rkeqb (bd_rsets bd) (r_key r)) as [set|] eqn:E.
    - exists (bd_rsets bd). split; auto. split; auto. split.
      + intros k set' E'. destruct (bi_rset _ _ _ H _ _ E') as [m [r' [A B]]]. exists m, r'. rewrite in_app_iff. auto.
      + exists set. destruct (bi_rset _ _ _ H _ _ E) as [m [r' [A [B [C D]]]]].
        destruct (bi_rsub _ _ _ H _ _ A) as [c' [A1 A2]].
        destruct (wf_rkey _ wf c' c r' r A1 Hc A2 Hr B) as [X Y]. repeat split; congruence.
    - rewrite Hlast, Eb. eexists; split; [reflexivity|]. split; [|split].
      + unfold rresolve. rewrite flat_map_app. simpl. now rewrite app_nil_r.
      + intros k set' E'. rewrite dget_app in E' by auto. destruct (dget rkeqb (bd_rsets bd) k) as [s1|] eqn:E1.
        * injection E' as <-. destruct (bi_rset _ _ _ H _ _ E1) as [m [r' [A B]]]. exists m, r'. rewrite in_app_iff. auto.
        * destruct (rkeqb k (r_key r)) eqn:Ek; [|discriminate]. apply rkeqb_eq in Ek. injection E' as <-.
          exists (c_model c), r. rewrite in_app_iff. simpl. auto.
      + rewrite dget_app by auto. rewrite E, (eqb_refl' rkeqb rkeqb_eq). eexists; split; [reflexivity|]. auto. }
  destruct Hrs as [rs [Ers [Hres [Hsets [set [Es [Ev Ep]]]]]]].
  rewrite Ers, Es, Ep, Eb. destruct (add_input ieqb b (r_in r)) as [b' o] eqn:Ea.
  destruct (add_input_spec _ _ _ _ Ea) as [G [No Hin]].
  eexists; split; [reflexivity|]. split; [|reflexivity].
  assert (E2 : ext (bd_builders bd) (dset peqb (bd_builders bd) (r_pkey r) b')) by (eapply ext_dset; eauto).
  assert (Hget : forall p x, dget peqb (dset peqb (bd_builders bd) (r_pkey r) b') p = Some x ->
      (p = r_pkey r /\ x = b') \/ dget peqb (bd_builders bd) p = Some x).
  { intros p x E. rewrite (dget_dset peqb peqb_eq) in E. destruct (peqb p (r_pkey r)) eqn:Eq.
    - apply peqb_eq in Eq. injection E as <-. auto.
    - auto. }
  destruct G as [G1 [G2 [t G3]]].
  constructor; simpl.
  - rewrite (resolve_ext (bd_builders bd)); auto. apply (bi_s _ _ _ H).
  - rewrite map_app. simpl. eapply Permutation_trans; [|apply Permutation_cons_append].
    eapply Permutation_trans.
    + unfold rresolve.
      apply (flat_map_dset rkeqb (fun ks => rresolve_set (dset peqb (bd_builders bd) (r_pkey r) b') (snd ks)) rs (r_key r) set _ (rtarget (c_model c, r)) Es).
      intros k' _. simpl. unfold rresolve_set. simpl. rewrite Ep, map_app. simpl. f_equal. f_equal.
      unfold rtarget. simpl. rewrite Ev. f_equal. unfold look.
      rewrite (dget_dset peqb peqb_eq), (eqb_refl' peqb peqb_eq), No. congruence.
    + constructor. change (Permutation (rresolve (dset peqb (bd_builders bd) (r_pkey r) b') rs) (map rtarget Rd)).
      rewrite (rresolve_ext (bd_builders bd)); auto.
      * rewrite Hres. apply (bi_r _ _ _ H).
      * rewrite Hres. exact Z2.
  - apply (bi_sub _ _ _ H).
  - intros m r' Hr'. rewrite in_app_iff in Hr'. destruct Hr' as [Hr'|[E|[]]].
    + eapply bi_rsub; eauto.
    + injection E as <- <-. eauto.
  - intros p x E. destruct (Hget _ _ E) as [[-> ->]|E'].
    + exists s. repeat split; auto; congruence.
    + eapply bi_b; eauto.
  - intros x Hx. apply dset_In in Hx as [Hx|Hx].
    + apply (bi_all _ _ _ H _ Hx).
    + rewrite Hx. intros i Hi. rewrite G1, G2. destruct (Hin i Hi) as [Hi'| ->].
      * eapply bi_bok; eauto.
      * rewrite Hbn, Hbt. exact Hiok.
  - intros s' Hs'. destruct (bi_dom _ _ _ H _ Hs') as [x Hx]. destruct (E2 _ _ Hx) as [x' [Hx' _]]. eauto.
  - apply (bi_set _ _ _ H).
  - intros k set' E. rewrite (dget_dset rkeqb rkeqb_eq) in E. destruct (rkeqb k (r_key r)) eqn:Ek.
    + apply rkeqb_eq in Ek. injection E as <-. simpl. exists (c_model c), r. rewrite in_app_iff. simpl. repeat split; auto.
    + now apply Hsets.
  - intros m r' Hr'. rewrite in_app_iff in Hr'. destruct Hr' as [Hr'|[E|[]]].
    + destruct (bi_rdom _ _ _ H _ _ Hr') as [x Hx]. destruct (E2 _ _ Hx) as [x' [Hx' _]]. eauto.
    + injection E as <- <-. rewrite (dget_dset peqb peqb_eq), (eqb_refl' peqb peqb_eq). eauto.
  - apply (bi_last _ _ _ H).
Qed.

Lemma add_resids_inv : forall c l Sd Rd bd, binv Sd Rd bd -> In c cs -> (forall r, In r l -> In r (c_resids c)) ->
  (l <> [] -> exists s S', Sd = S' ++ [s] /\ In s (c_stamps c)) ->
  exists bd', fold_res (add_resid peqb rkeqb ieqb (c_model c)) l bd = SOk bd' /\
     binv Sd (Rd ++ map (fun r => (c_model c, r)) l) bd'.
Proof.
  induction l as [|r l IH]; intros Sd Rd bd H Hc Hl Hs; simpl.
  - rewrite app_nil_r. eauto.
  - destruct (add_resid_inv Sd Rd bd c r H Hc) as [bd1 [E1 [H1 _]]]; [apply Hl; now left|apply Hs; discriminate|].
    rewrite E1. destruct (IH Sd (Rd ++ [(c_model c, r)]) bd1 H1 Hc) as [bd2 [E2 H2]].
    + intros; apply Hl; now right.
    + intros _. apply Hs. discriminate.
    + exists bd2. split; auto. now rewrite <- app_assoc in H2.
Qed.

Definition all_resids (l : list coll) : list (M * resid) := flat_map (fun c => map (fun r => (c_model c, r)) (c_resids c)) l.

Lemma add_colls_inv : forall l Sd Rd bd, binv Sd Rd bd -> (forall c, In c l -> In c cs) ->
  exists bd', fold_res (add_coll keqb peqb rkeqb ieqb) l bd = SOk bd' /\
    binv (Sd ++ all_stamps l) (Rd ++ all_resids l) bd'.
Proof.
  induction l as [|c l IH]; intros Sd Rd bd H Hl; simpl.
  - rewrite !app_nil_r. eauto.
  - assert (Hc : In c cs) by (apply Hl; now left).
    unfold add_coll at 1.
    destruct (add_stamps_inv (c_stamps c) Sd Rd bd H) as [bd1 [E1 H1]].
    { intros s Hs. unfold all_stamps. apply in_flat_map. eauto. }
    rewrite E1.
    destruct (add_resids_inv c (c_resids c) (Sd ++ c_stamps c) Rd bd1 H1 Hc) as [bd2 [E2 H2]]; auto.
    { intros Hne. destruct (c_resids c) as [|r rs] eqn:Er; [congruence|].
      destruct (wf_resid _ wf c r Hc) as [Hst _]; [rewrite Er; now left|].
      destruct (exists_last Hst) as [S' [s Es]]. exists s, (Sd ++ S'). rewrite Es. rewrite app_assoc. split; auto.
      apply in_or_app. right. now left. }
    rewrite E2. destruct (IH _ _ _ H2) as [bd3 [E3 H3]]; [intros; apply Hl; now right|].
    exists bd3. split; auto. now rewrite <- !app_assoc in H3.
Qed.

Lemma start_inv : binv [] [] {| bd_builders := []; bd_sets := []; bd_rsets := []; bd_last := None |}.
Proof. constructor; simpl; auto; try discriminate; intros; contradiction. Qed.

(** ** Part C: frozen stampers *)
Definition at_point (opt : bool) (bd : building) (pt : point) (k : Z) : @mstamper T K P M :=
  {| ms_builders := map (fun pb => (fst pb, frozen opt pt k (snd pb))) (bd_builders bd);
     ms_linear := filter (fun s => x_linear (ss_x s)) (map snd (bd_sets bd));
     ms_nonlinear := filter (fun s => negb (x_linear (ss_x s))) (map snd (bd_sets bd));
     ms_rsets := map snd (bd_rsets bd) |}.


Lemma freeze_all_ok : forall opt (bs : list (P * ibuilder)), (forall x, In x bs -> builder_ok (snd x)) ->
  freeze_all zero nan opt bs = SOk (map (fun pb => (fst pb, frozen opt start_point (-1)%Z (snd pb))) bs).
Proof.
  induction bs as [|[p b] bs IH]; intros H; simpl; auto.
  unfold freeze.
  assert (E : forallb (fun i => input_len i =? ib_nargs b) (ib_inputs b) = true).
  { apply forallb_forall. intros i Hi. apply Nat.eqb_eq. apply (H (p, b)); simpl; auto. }
  rewrite E, IH by (intros; apply H; now right). unfold frozen.
  rewrite (map_ext _ _ (fun i => freeze_row_args opt (ib_tx b) i)). reflexivity.
Qed.

(** the stamper of [cs] at a given point and iteration number *)
Definition represents (opt : bool) (ms : @mstamper T K P M) (pt : point) (k : Z) : Prop :=
  exists bd, binv (all_stamps cs) (all_resids cs) bd /\ ms = at_point opt bd pt k.

Lemma build_ok : forall opt, exists ms, build_stamper zero nan keqb peqb rkeqb ieqb opt cs = SOk ms /\
  represents opt ms start_point (-1)%Z.
Proof.
  intros opt. destruct (add_colls_inv cs [] [] _ start_inv) as [bd [E H]]; auto.
  unfold build_stamper. rewrite E, freeze_all_ok by apply (bi_all _ _ _ H).
  eexists; split; [reflexivity|]. exists bd. split; auto.
Qed.

Lemma on_builders_v : forall opt bd pt k v k',
  on_builders (fun b => update_vprev b v k') (at_point opt bd pt k) =
  if Z.eqb k' k then at_point opt bd pt k else at_point opt bd {| pt_v := v; pt_tx := pt_tx pt |} k'.
Proof.
  intros. unfold on_builders, at_point. simpl. rewrite map_map.
  destruct (Z.eqb k' k) eqn:E; f_equal; apply map_ext; intros [p b]; simpl; rewrite frozen_update_v, E; auto.
Qed.

Lemma on_builders_tx : forall opt bd pt k x, (forall y, In y (bd_builders bd) -> builder_ok (snd y)) ->
  on_builders (fun b => update_tx b x) (at_point opt bd pt k) =
  at_point opt bd {| pt_v := pt_v pt; pt_tx := Some x |} k.
Proof.
  intros. unfold on_builders, at_point. simpl. rewrite map_map.
  f_equal; apply map_ext_in; intros [p b] Hy; simpl; rewrite frozen_update_tx; auto. apply (H _ Hy).
Qed.

(** emission *)
Definition item_event (opt : bool) (pt : point) (z : sitem) : @event T :=
  let '(x, r, c, l) := z in
  let a := match l with Some (tx, i) => args opt tx pt i | None => [] end in
  if x_isJ x then EvJ r (x_eval x a) else EvY r c (x_eval x a).

Definition item_resid (opt : bool) (pt : point) (z : ritem) : M * nat * T :=
  let '(f, m, r, l) := z in
  (m, r, f match l with Some (tx, i) => args opt tx pt i | None => [] end).

Lemma args_of_look : forall opt bd pt k p o z, look (bd_builders bd) p o = Some z ->
  args_of peqb (ms_builders (at_point opt bd pt k)) p o = args opt (fst z) pt (snd z).
Proof.
  intros opt bd pt k p o z H. unfold args_of, at_point. simpl.
  rewrite (dget_map peqb (frozen opt pt k)). unfold look in H.
  destruct (dget peqb (bd_builders bd) p) as [b|]; [|discriminate]. simpl.
  destruct (nth_error (ib_inputs b) o) as [i|] eqn:E; [|discriminate]. injection H as <-. simpl.
  apply nth_error_nth. now apply map_nth_error.
Qed.

Lemma emit_all : forall opt bd pt k (f : expression -> bool),
  (forall z, In z (resolve (bd_builders bd) (bd_sets bd)) -> snd z <> None) ->
  flat_map (emit_set peqb (ms_builders (at_point opt bd pt k))) (filter (fun s => f (ss_x s)) (map snd (bd_sets bd)))
  = map (item_event opt pt) (filter (fun z : sitem => f (fst (fst (fst z)))) (resolve (bd_builders bd) (bd_sets bd))).
Proof.
  intros opt bd pt k f. unfold resolve. generalize (bd_sets bd) as ss.
  induction ss as [|[kk s] ss IH]; intros H; auto. simpl in *.
  rewrite filter_app, map_app.
  assert (E : map (item_event opt pt) (filter (fun z : sitem => f (fst (fst (fst z)))) (resolve_set (bd_builders bd) s)) =
     if f (ss_x s) then emit_set peqb (ms_builders (at_point opt bd pt k)) s else []).
  { unfold resolve_set, emit_set. assert (Hs : forall z, In z (resolve_set (bd_builders bd) s) -> snd z <> None)
      by (intros; apply H; apply in_or_app; auto). unfold resolve_set in Hs.
    revert Hs. generalize (ss_items s) as l. induction l as [|it l IHl]; intros Hs; simpl.
    - now destruct (f (ss_x s)).
    - assert (Hs1 := Hs (ss_x s, fst (fst it), snd (fst it), look (bd_builders bd) (ss_builder s) (snd it)) (or_introl eq_refl)).
      simpl in Hs1. destruct (look (bd_builders bd) (ss_builder s) (snd it)) as [[tx i]|] eqn:El; [|congruence].
      destruct (f (ss_x s)) eqn:Ef; simpl.
      + f_equal.
        * assert (A := args_of_look opt bd pt k _ _ _ El). simpl in A. rewrite A. reflexivity.
        * apply IHl. intros z Hz. apply Hs. now right.
      + apply IHl. intros z Hz. apply Hs. now right. }
  rewrite E. destruct (f (ss_x s)); simpl; rewrite IH; auto; intros z Hz; apply H; apply in_or_app; auto.
Qed.

Lemma emit_rall : forall opt bd pt k,
  (forall z, In z (rresolve (bd_builders bd) (bd_rsets bd)) -> snd z <> None) ->
  flat_map (emit_rset peqb (ms_builders (at_point opt bd pt k))) (map snd (bd_rsets bd))
  = map (item_resid opt pt) (rresolve (bd_builders bd) (bd_rsets bd)).
Proof.
  intros opt bd pt k. unfold rresolve. generalize (bd_rsets bd) as ss.
  induction ss as [|[kk s] ss IH]; intros H; auto. simpl in *.
  rewrite map_app, IH by (intros z Hz; apply H; apply in_or_app; auto). f_equal.
  unfold rresolve_set, emit_rset. rewrite map_map. apply map_ext_in. intros it Hit.
  assert (Hs1 := H (rs_eval s, fst (fst it), snd (fst it), look (bd_builders bd) (rs_builder s) (snd it))).
  simpl in Hs1. destruct (look (bd_builders bd) (rs_builder s) (snd it)) as [[tx i]|] eqn:El.
  - assert (A := args_of_look opt bd pt k _ _ _ El). simpl in A. simpl. rewrite A. reflexivity.
  - exfalso. apply Hs1; auto. apply in_or_app. left. unfold rresolve_set. apply in_map_iff. exists it. now rewrite El.
Qed.

Lemma filter_map_comm : forall {A B} (f : A -> B) (g : B -> bool) l,
  filter g (map f l) = map f (filter (fun x => g (f x)) l).
Proof. induction l; simpl; auto. destruct (g (f a)); simpl; now rewrite IHl. Qed.

Lemma emit_perm : forall opt bd pt k (f : expression -> bool) lin,
  (forall x, f x = Bool.eqb (x_linear x) lin) -> binv (all_stamps cs) (all_resids cs) bd ->
  Permutation
   (flat_map (emit_set peqb (ms_builders (at_point opt bd pt k))) (filter (fun s => f (ss_x s)) (map snd (bd_sets bd))))
   (element_events zero nan opt lin pt cs).
Proof.
  intros opt bd pt k f lin Hf H. rewrite emit_all by apply (resolved_some _ _ _ H).
  eapply Permutation_trans.
  - apply Permutation_map, Permutation_filter', (bi_s _ _ _ H).
  - rewrite filter_map_comm, map_map. unfold element_events.
    rewrite (filter_ext _ (fun s => Bool.eqb (x_linear (s_x s)) lin)) by (intros s; apply Hf). reflexivity.
Qed.

Lemma emit_rperm : forall opt bd pt k, binv (all_stamps cs) (all_resids cs) bd ->
  Permutation (flat_map (emit_rset peqb (ms_builders (at_point opt bd pt k))) (map snd (bd_rsets bd)))
    (element_residuals zero nan opt pt cs).
Proof.
  intros opt bd pt k H. rewrite emit_rall by apply (resolved_some _ _ _ H).
  eapply Permutation_trans.
  - apply Permutation_map, (bi_r _ _ _ H).
  - rewrite map_map. unfold all_resids, element_residuals. clear H wf. generalize cs as l.
    induction l as [|c l IH]; simpl; auto. rewrite map_app, map_map. apply Permutation_app; auto.
Qed.

Lemma stamp_linear_ok : forall opt ms pt k tx, represents opt ms pt k ->
  let pt' := {| pt_v := pt_v pt; pt_tx := Some tx |} in
  represents opt (fst (stamp_linear peqb ms tx)) pt' k /\
  Permutation (snd (stamp_linear peqb ms tx)) (element_events zero nan opt true pt' cs).
Proof.
  intros opt ms pt k tx [bd [H ->]] pt'. unfold stamp_linear.
  rewrite on_builders_tx by apply (bi_all _ _ _ H). simpl fst. simpl snd. split; [exists bd; auto|].
  apply emit_perm; [intros x; now destruct (x_linear x)|exact H].
Qed.

Lemma stamp_nonlinear_ok : forall opt ms pt k v k', represents opt ms pt k ->
  let pt' := if Z.eqb k' k then pt else {| pt_v := v; pt_tx := pt_tx pt |} in
  represents opt (fst (stamp_nonlinear peqb ms v k')) pt' k' /\
  Permutation (snd (stamp_nonlinear peqb ms v k')) (element_events zero nan opt false pt' cs).
Proof.
  intros opt ms pt k v k' [bd [H ->]] pt'. unfold stamp_nonlinear, pt'.
  rewrite on_builders_v. destruct (Z.eqb k' k) eqn:E; simpl fst; simpl snd.
  - apply Z.eqb_eq in E. subst k'. split; [exists bd; auto|].
    apply (emit_perm opt bd pt k (fun x => negb (x_linear x))); [intros x; now destruct (x_linear x)|exact H].
  - split; [exists bd; auto|]. apply (emit_perm opt bd _ k' (fun x => negb (x_linear x))); [intros x; now destruct (x_linear x)|exact H].
Qed.

Lemma calc_residuals_ok : forall opt ms pt k tx v k', represents opt ms pt k ->
  let pt' := {| pt_v := if Z.eqb k' k then pt_v pt else v; pt_tx := Some tx |} in
  represents opt (fst (calc_residuals peqb ms tx v k')) pt' k' /\
  Permutation (snd (calc_residuals peqb ms tx v k')) (element_residuals zero nan opt pt' cs).
Proof.
  intros opt ms pt k tx v k' [bd [H ->]] pt'. unfold calc_residuals, pt'.
  rewrite on_builders_v. destruct (Z.eqb k' k) eqn:E.
  - apply Z.eqb_eq in E. subst k'. rewrite on_builders_tx by apply (bi_all _ _ _ H). simpl fst; simpl snd.
    split; [exists bd; auto|]. now apply emit_rperm.
  - rewrite on_builders_tx by apply (bi_all _ _ _ H). simpl fst; simpl snd.
    split; [exists bd; auto|]. now apply emit_rperm.
Qed.
End WF.
End S.
