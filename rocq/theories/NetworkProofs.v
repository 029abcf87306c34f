(** Lemmas for C42-C44. *)
From Coq Require Import String List Bool Arith ZArith Reals Lia.
From Verif Require Import Expr Segment Collect SpecSystem Components SpecComponents UnbalancedLine Network SpecNetwork.
Import ListNotations.

Lemma node_Vr x i : n_Vr x = Some i -> In i (node_indexes x).
Proof. unfold node_indexes; intros H; rewrite in_flat_map; exists (Some i); split; [rewrite <- H; simpl; auto|simpl; auto]. Qed.
Lemma node_Vi x i : n_Vi x = Some i -> In i (node_indexes x).
Proof. unfold node_indexes; intros H; rewrite in_flat_map; exists (Some i); split; [rewrite <- H; simpl; auto|simpl; auto]. Qed.
Lemma node_Lr x i : n_Lr x = Some i -> In i (node_indexes x).
Proof. unfold node_indexes; intros H; rewrite in_flat_map; exists (Some i); split; [rewrite <- H; simpl; auto|simpl; auto]. Qed.
Lemma node_Li x i : n_Li x = Some i -> In i (node_indexes x).
Proof. unfold node_indexes; intros H; rewrite in_flat_map; exists (Some i); split; [rewrite <- H; simpl; auto|simpl; auto 6]. Qed.
#[export] Hint Resolve node_Vr node_Vi node_Lr node_Li : node.

Lemma used_in s i : In i (used s) <-> exists e x, In e (present s) /\ In (x, Some i) (sd_var (fst e)).
Proof.
  unfold used; rewrite in_flat_map; split.
  - intros [e [He H]]; apply in_flat_map in H as [[x o] [Hx Ho]]; exists e, x; split; auto.
    cbn [snd] in Ho; destruct o; [destruct Ho as [->|[]]; exact Hx|destruct Ho].
  - intros [e [x [He Hx]]]; exists e; split; auto; apply in_flat_map; exists (x, Some i); split; simpl; auto.
Qed.

(** indexes of a map at or above n *)
Definition above (n : nat) (m : list (sym * option nat)) : list nat :=
  flat_map (fun x => match snd x with Some i => if Nat.leb n i then [i] else [] | None => [] end) m.
Lemma lookup_in {A} (m : list (sym * A)) x o : lookup m x = Some o -> In (x, o) m.
Proof.
  induction m as [|[k y] m IH]; [discriminate|]; cbn [lookup].
  destruct (String.eqb_spec x k) as [->|]; [intros [= ->]; left; auto|right; auto].
Qed.
Lemma above_in n m x i : In (x, Some i) m -> n <= i -> In i (above n m).
Proof.
  intros H L; unfold above; apply in_flat_map; exists (x, Some i); split; auto; simpl.
  destruct (Nat.leb_spec n i); [simpl; auto|lia].
Qed.
Lemma above_inj n m x y i : NoDup (above n m) -> In (x, Some i) m -> In (y, Some i) m -> n <= i -> x = y.
Proof.
  induction m as [|[k o] m IH]; [intros _ []|].
  change (above n ((k, o) :: m)) with ((match o with Some i => if Nat.leb n i then [i] else [] | None => [] end) ++ above n m).
  intros ND [H1|H1] [H2|H2] L.
  - congruence.
  - injection H1 as -> ->. destruct (Nat.leb_spec n i); [|lia]. inversion ND; subst. exfalso; apply H3; eapply above_in; eauto.
  - injection H2 as -> ->. destruct (Nat.leb_spec n i); [|lia]. inversion ND; subst. exfalso; apply H3; eapply above_in; eauto.
  - apply IH; auto. destruct o as [j|]; [|exact ND]. destruct (Nat.leb n j); [inversion ND; auto|exact ND].
Qed.
Definition low (n : nat) (o : option nat) : Prop := forall i, o = Some i -> i < n.
Lemma above_low n k o m : low n o -> above n ((k, o) :: m) = above n m.
Proof. intros H; unfold above; cbn [flat_map snd]; destruct o as [i|]; auto. destruct (Nat.leb_spec n i); auto. specialize (H i eq_refl); lia. Qed.
Lemma above_own n k i m : n <= i -> above n ((k, Some i) :: m) = i :: above n m.
Proof. intros H; unfold above; cbn [flat_map snd]; destruct (Nat.leb_spec n i); auto; lia. Qed.
Lemma above_none n k m : above n ((k, None) :: m) = above n m.
Proof. reflexivity. Qed.
Lemma above_end n : above n [] = [].
Proof. reflexivity. Qed.

(** *** what one element does *)
Record good (B : nat -> Prop) (n n' : nat) (s : list stamper) : Prop := {
  g_le : n <= n';
  g_used : forall i, In i (used s) -> B i \/ (n <= i < n');
  g_all : forall i, n <= i < n' -> In i (used s);
  g_writes : forall i, n <= i < n' -> writes s i;
  g_rows : forall e x, In e (present s) -> In x (first_orders (fst e)) -> exists o, row_index (fst e) x = Some o /\ forall i, o = Some i -> B i \/ (n <= i < n');
  g_cols : forall e x, In e (present s) -> In x (sg_variables (sd_seg (fst e))) -> exists o, col_index (fst e) x = Some o }.
Definition injective_above (n : nat) (s : list stamper) : Prop := forall e, In e (present s) -> NoDup (above n (sd_var (fst e))).

Lemma present_some d c l : present ((Some d, c) :: l) = (d, c) :: present l. Proof. reflexivity. Qed.
Lemma present_none c l : present ((None, c) :: l) = present l. Proof. reflexivity. Qed.
Lemma present_app a b : present (a ++ b) = present a ++ present b.
Proof. unfold present; now rewrite flat_map_app. Qed.
Lemma used_app a b : used (a ++ b) = used a ++ used b.
Proof. unfold used; rewrite present_app; now rewrite flat_map_app. Qed.

Lemma writes_app_l a b i : writes a i -> writes (a ++ b) i.
Proof. intros [e [x [H H']]]; exists e, x; rewrite present_app, in_app_iff; auto. Qed.
Lemma writes_app_r a b i : writes b i -> writes (a ++ b) i.
Proof. intros [e [x [H H']]]; exists e, x; rewrite present_app, in_app_iff; auto. Qed.
Lemma good_app B n1 n2 n3 a b : good B n1 n2 a -> good B n2 n3 b -> good B n1 n3 (a ++ b).
Proof.
  intros Ga Gb. pose proof (g_le _ _ _ _ Ga); pose proof (g_le _ _ _ _ Gb). constructor.
  - lia.
  - intros i H1; rewrite used_app, in_app_iff in H1; destruct H1 as [H1|H1];
      [destruct (g_used _ _ _ _ Ga i H1)|destruct (g_used _ _ _ _ Gb i H1)]; auto; right; lia.
  - intros i H1; rewrite used_app, in_app_iff. destruct (Nat.lt_ge_cases i n2); [left; apply Ga|right; apply Gb]; lia.
  - intros i H1. destruct (Nat.lt_ge_cases i n2); [apply writes_app_l; apply Ga|apply writes_app_r; apply Gb]; lia.
  - intros e x He Hx; rewrite present_app, in_app_iff in He; destruct He as [He|He];
      [destruct (g_rows _ _ _ _ Ga e x He Hx) as [o [E Ho]]|destruct (g_rows _ _ _ _ Gb e x He Hx) as [o [E Ho]]];
      exists o; split; auto; intros i Hi; destruct (Ho i Hi); auto; right; lia.
  - intros e x He Hx; rewrite present_app, in_app_iff in He; destruct He as [He|He]; [eapply Ga|eapply Gb]; eauto.
Qed.
Lemma good_nil B n : good B n n [].
Proof. constructor; intros; try lia; contradiction. Qed.
Lemma good_none B n n' c s : good B n n' s -> good B n n' ((None, c) :: s).
Proof.
  intros G; constructor; try apply G.
Qed.

Definition covers (B : nat -> Prop) (x : nodes) : Prop := forall i, In i (node_indexes x) -> B i.
Lemma covers_GROUND B : covers B GROUND. Proof. intros i []. Qed.

Ltac names :=
  unfold first_orders, sg_variables, row_index, col_index, sd_eqn_map; cbn -[Nat.add].
Ltac rows_tac :=
  repeat match goal with
  | H : _ \/ _ |- _ => destruct H as [H|H]
  | H : False |- _ => destruct H
  | H : _ = ?x |- _ => is_var x; subst x
  end.

(** one stamper with a given map and no own equation map *)
Lemma good_line B n f t opt sh c : covers B f -> covers B t -> good B n n [(Some (line_details f t opt sh), c)].
Proof.
  intros Hf Ht; constructor; try (intros; lia).
  - intros i H; apply used_in in H as [e [x [[<-|[]] H]]]; cbn -[Nat.add] in H.
    left; repeat (destruct H as [H|H]; [injection H as <- H; solve [apply Hf; auto with node|apply Ht; auto with node]|]); destruct H.
  - intros e x [<-|[]] H; cbn [fst] in *. revert H; unfold first_orders, row_index, sd_eqn_map, line_details; cbn [sd_opt sd_seg sd_eqn sd_var].
    destruct opt, sh; cbn -[Nat.add]; intros H; rows_tac;
      (eexists; split; [reflexivity|intros i Hi; left; solve [apply Hf; auto with node|apply Ht; auto with node]]).
  - intros e x [<-|[]] H; cbn [fst] in *. revert H; unfold col_index, line_details; cbn [sd_opt sd_seg sd_eqn sd_var].
    destruct sh; cbn -[Nat.add]; intros H; rows_tac; (eexists; reflexivity).
Qed.
Lemma injective_line n f t opt sh c : low n (n_Vr f) -> low n (n_Vi f) -> low n (n_Lr f) -> low n (n_Li f) ->
  low n (n_Vr t) -> low n (n_Vi t) -> low n (n_Lr t) -> low n (n_Li t) -> injective_above n [(Some (line_details f t opt sh), c)].
Proof.
  intros H1 H2 H3 H4 H5 H6 H7 H8 e [<-|[]]; cbn [fst line_details sd_var]. unfold bus_map.
  rewrite !above_low by assumption. constructor.
Qed.

Definition rows_of (s : list stamper) : list (option (option nat)) :=
  flat_map (fun e : element => map (row_index (fst e)) (first_orders (fst e))) (present s).
Definition cols_of (s : list stamper) : list (option (option nat)) :=
  flat_map (fun e : element => map (col_index (fst e)) (sg_variables (sd_seg (fst e)))) (present s).
Lemma writes_in s i : In (Some (Some i)) (rows_of s) -> writes s i.
Proof.
  unfold rows_of, writes; rewrite in_flat_map; intros [e [He H]]; apply in_map_iff in H as [x [Hx Hi]]; exists e, x; auto.
Qed.
Lemma writes_rows s i : writes s i <-> In (Some (Some i)) (rows_of s).
Proof.
  split; [|apply writes_in].
  intros [e [x [He [Hx Hi]]]]; unfold rows_of; apply in_flat_map; exists e; split; auto; apply in_map_iff; eauto.
Qed.
Definition row_ok (B : nat -> Prop) (n n' : nat) (r : option (option nat)) : Prop :=
  match r with Some (Some i) => B i \/ (n <= i < n') | Some None => True | None => False end.
Definition use_ok (B : nat -> Prop) (n n' : nat) (r : option nat) : Prop := match r with Some i => B i \/ (n <= i < n') | None => True end.
Arguments use_ok : simpl never.
Arguments row_ok : simpl never.
Lemma good_by_lists B n n' s :
  n <= n' ->
  Forall (fun e : element => Forall (use_ok B n n') (map snd (sd_var (fst e)))) (present s) ->
  (forall i, n <= i < n' -> In i (used s)) ->
  (forall i, n <= i < n' -> In (Some (Some i)) (rows_of s)) ->
  Forall (row_ok B n n') (rows_of s) ->
  Forall (fun r => r <> None) (cols_of s) -> good B n n' s.
Proof.
  intros H1 H2 H3 H4 H5 H6; constructor; auto.
  - intros i H; apply used_in in H as [e [x [He Hx]]]. rewrite Forall_forall in H2; specialize (H2 e He); rewrite Forall_forall in H2.
    specialize (H2 (Some i)); apply H2; apply in_map_iff; exists (x, Some i); auto.
  - intros i Hi; apply writes_in; auto.
  - intros e x He Hx. rewrite Forall_forall in H5. specialize (H5 (row_index (fst e) x)).
    assert (In (row_index (fst e) x) (rows_of s)) as Hin by (apply in_flat_map; exists e; split; auto; apply in_map; auto).
    specialize (H5 Hin). destruct (row_index (fst e) x) as [o|]; [|destruct H5]. exists o; split; auto. intros i ->; exact H5.
  - intros e x He Hx. rewrite Forall_forall in H6. specialize (H6 (col_index (fst e) x)).
    assert (In (col_index (fst e) x) (cols_of s)) as Hin by (apply in_flat_map; exists e; split; auto; apply in_map; auto).
    specialize (H6 Hin). destruct (col_index (fst e) x) as [o|]; [exists o; auto|congruence].
Qed.

Lemma use_Vr B n n' x : covers B x -> use_ok B n n' (n_Vr x).
Proof. intros H; unfold use_ok; destruct (n_Vr x) eqn:E; auto with node. Qed.
Lemma use_Vi B n n' x : covers B x -> use_ok B n n' (n_Vi x).
Proof. intros H; unfold use_ok; destruct (n_Vi x) eqn:E; auto with node. Qed.
Lemma use_Lr B n n' x : covers B x -> use_ok B n n' (n_Lr x).
Proof. intros H; unfold use_ok; destruct (n_Lr x) eqn:E; auto with node. Qed.
Lemma use_Li B n n' x : covers B x -> use_ok B n n' (n_Li x).
Proof. intros H; unfold use_ok; destruct (n_Li x) eqn:E; auto with node. Qed.
Lemma use_none B n n' : use_ok B n n' None. Proof. exact I. Qed.
Lemma use_own B n n' i : n <= i < n' -> use_ok B n n' (Some i). Proof. right; auto. Qed.
Lemma row_use B n n' o : use_ok B n n' o -> row_ok B n n' (Some o). Proof. auto. Qed.

Lemma above_GROUND_1 n k m : above n ((k, n_Vr GROUND) :: m) = above n m. Proof. reflexivity. Qed.

Ltac use_tac :=
  match goal with
  | |- use_ok _ _ _ None => exact I
  | |- use_ok _ _ _ (Some _) => apply use_own; lia
  | |- use_ok _ _ _ (n_Vr _) => apply use_Vr; assumption
  | |- use_ok _ _ _ (n_Vi _) => apply use_Vi; assumption
  | |- use_ok _ _ _ (n_Lr _) => apply use_Lr; assumption
  | |- use_ok _ _ _ (n_Li _) => apply use_Li; assumption
  end.
Ltac find_in := repeat first [left; reflexivity | right].
Ltac pick i m :=
  first [ exfalso; lia
        | destruct (Nat.eq_dec i m) as [->|?]; [first [exfalso; lia | find_in] | pick i (S m)] ].
Definition uses_of (s : list stamper) : list (option nat) := flat_map (fun e : element => map snd (sd_var (fst e))) (present s).
Lemma used_list s i : In (Some i) (uses_of s) -> In i (used s).
Proof.
  unfold uses_of; rewrite in_flat_map; intros [e [He H]]; apply in_map_iff in H as [[x o] [Ho Hx]]; cbn [snd] in Ho; subst o.
  apply used_in; eauto.
Qed.
Ltac list_tac := repeat (apply Forall_nil || (apply Forall_cons; [|])).
Ltac norm n := cbn; rewrite <- ?(Nat.add_assoc n); cbn; rewrite ?(Nat.add_comm n); cbn.
Ltac good_tac n := apply good_by_lists;
  [ norm n; lia
  | norm n; list_tac; list_tac; cbn; use_tac
  | let i := fresh "i" in let H := fresh "H" in intros i H; apply used_list; revert H; norm n; intros H; pick i n
  | let i := fresh "i" in let H := fresh "H" in intros i H; revert H; norm n; intros H; pick i n
  | norm n; list_tac; cbn; first [exact I|apply row_use; use_tac]
  | norm n; list_tac; cbn; discriminate ].
Lemma good_vs B n vr vi f t opt : covers B f -> covers B t -> good B n (snd (vs_stampers vr vi f t n opt)) (fst (vs_stampers vr vi f t n opt)).
Proof.
  intros Hf Ht. destruct opt; good_tac n.
Qed.
Lemma good_slack B n V a b opt : covers B b -> good B n (snd (slack_stampers V a b n opt)) (fst (slack_stampers V a b n opt)).
Proof. intros Hf. destruct opt; good_tac n. Qed.
Lemma good_gen B n V a b opt : covers B b -> good B n (snd (gen_stampers V a b n opt)) (fst (gen_stampers V a b n opt)).
Proof. intros Hf. destruct opt; good_tac n. Qed.
Lemma good_xf B n x fp fn tp tn opt : covers B fp -> covers B fn -> covers B tp -> covers B tn ->
  good B n (snd (xf_stampers x fp fn tp tn n opt)) (fst (xf_stampers x fp fn tp tn n opt)).
Proof. intros H1 H2 H3 H4. destruct opt; good_tac n. Qed.
Lemma good_ct B n c f p s1 t1 s2 t2 opt : covers B f -> covers B p -> covers B s1 -> covers B t1 -> covers B s2 -> covers B t2 ->
  good B n (snd (ct_stampers c f p s1 t1 s2 t2 n opt)) (fst (ct_stampers c f p s1 t1 s2 t2 n opt)).
Proof. intros H1 H2 H3 H4 H5 H6. destruct opt; good_tac n. Qed.
Lemma good_l2 B n b : covers B b -> good B n (snd (l2_stampers b n)) (fst (l2_stampers b n)).
Proof. intros H1. good_tac n. Qed.
Lemma good_l1 B n b : covers B b -> good B n (snd (l1_stampers b n)) (fst (l1_stampers b n)).
Proof. intros H1. good_tac n. Qed.
