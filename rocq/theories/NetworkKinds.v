(** Lemmas for C42-C43: index use of every kind of element. *)
From Coq Require Import String List Bool Arith ZArith Reals Lia.
From Verif Require Import Expr Segment Collect SpecSystem Components SpecComponents UnbalancedLine Network SpecNetwork NetworkProofs.
Import ListNotations.

Arguments above : simpl never.
Definition below (m : nat) : nat -> Prop := fun i => i < m.
Lemma low_Vr m x : covers (below m) x -> low m (n_Vr x). Proof. intros H i Hi; apply H; auto with node. Qed.
Lemma low_Vi m x : covers (below m) x -> low m (n_Vi x). Proof. intros H i Hi; apply H; auto with node. Qed.
Lemma low_Lr m x : covers (below m) x -> low m (n_Lr x). Proof. intros H i Hi; apply H; auto with node. Qed.
Lemma low_Li m x : covers (below m) x -> low m (n_Li x). Proof. intros H i Hi; apply H; auto with node. Qed.
Ltac low_tac := first [apply low_Vr | apply low_Vi | apply low_Lr | apply low_Li]; assumption.
Ltac above_tac :=
  repeat match goal with
  | |- context [above _ ((_, None) :: _)] => rewrite above_none
  | |- context [above _ ((_, Some _) :: _)] => rewrite above_own by lia
  | |- context [above _ ((_, _) :: _)] => rewrite above_low by low_tac
  end; rewrite ?above_end.
Ltac nodup_tac := repeat (apply NoDup_nil || (apply NoDup_cons; [cbn [In]; intros ?; repeat match goal with H : _ \/ _ |- _ => destruct H end; try contradiction; lia|])).
Ltac inj_tac n :=
  let e := fresh "e" in let H := fresh "H" in
  intros e; norm n; intros H;
  repeat match type of H with
         | _ \/ _ => destruct H as [<-|H]; [cbn [fst sd_var line_details]; unfold bus_map, xf_map, ct_map; norm n; above_tac; nodup_tac|]
         | False => destruct H
         end.

Lemma inj_line m f t opt sh c : covers (below m) f -> covers (below m) t -> injective_above m [(Some (line_details f t opt sh), c)].
Proof. intros; apply injective_line; low_tac. Qed.
Lemma inj_vs m n vr vi f t opt : m <= n -> covers (below m) f -> covers (below m) t -> injective_above m (fst (vs_stampers vr vi f t n opt)).
Proof. intros L Hf Ht. destruct opt; inj_tac n. Qed.
Lemma inj_slack m n V a b opt : m <= n -> covers (below m) b -> injective_above m (fst (slack_stampers V a b n opt)).
Proof. intros L Hf. destruct opt; inj_tac n. Qed.
Lemma inj_gen m n V a b opt : m <= n -> covers (below m) b -> injective_above m (fst (gen_stampers V a b n opt)).
Proof. intros L Hf. destruct opt; inj_tac n. Qed.
Lemma inj_xf m n x fp fn tp tn opt : m <= n -> covers (below m) fp -> covers (below m) fn -> covers (below m) tp -> covers (below m) tn ->
  injective_above m (fst (xf_stampers x fp fn tp tn n opt)).
Proof. intros L H1 H2 H3 H4. destruct opt; inj_tac n. Qed.
Lemma inj_ct m n c f p s1 t1 s2 t2 opt : m <= n -> covers (below m) f -> covers (below m) p -> covers (below m) s1 -> covers (below m) t1 -> covers (below m) s2 -> covers (below m) t2 ->
  injective_above m (fst (ct_stampers c f p s1 t1 s2 t2 n opt)).
Proof. intros L H1 H2 H3 H4 H5 H6. destruct opt; inj_tac n. Qed.
Lemma inj_l2 m n b : m <= n -> covers (below m) b -> injective_above m (fst (l2_stampers b n)).
Proof. intros L H. inj_tac n. Qed.
Lemma inj_nil m : injective_above m []. Proof. intros e []. Qed.
Lemma inj_app m a b : injective_above m a -> injective_above m b -> injective_above m (a ++ b).
Proof. intros Ha Hb e; rewrite present_app, in_app_iff; intros [H|H]; auto. Qed.
Lemma inj_none m c s : injective_above m s -> injective_above m ((None, c) :: s).
Proof. intros H; exact H. Qed.
Lemma inj_cons m x s : injective_above m [x] -> injective_above m s -> injective_above m (x :: s).
Proof. intros Ha Hb; exact (inj_app m [x] s Ha Hb). Qed.

(** parts of a load take no indexes *)
Lemma pq_next f t n opt : two_terminal_details lh_pq f t n opt = ({| sd_seg := lh_pq; sd_var := bus_map f t; sd_eqn := None; sd_opt := opt |}, n).
Proof. destruct opt; reflexivity. Qed.
Lemma ic_next f t n opt : two_terminal_details lh_Ic f t n opt = ({| sd_seg := lh_Ic; sd_var := bus_map f t; sd_eqn := None; sd_opt := opt |}, n).
Proof. destruct opt; reflexivity. Qed.
Lemma good_pq B n f t opt c : covers B f -> covers B t ->
  good B n n [(Some {| sd_seg := lh_pq; sd_var := bus_map f t; sd_eqn := None; sd_opt := opt |}, c)].
Proof. intros Hf Ht. destruct opt; good_tac n. Qed.
Lemma good_ic B n f t opt c : covers B f -> covers B t ->
  good B n n [(Some {| sd_seg := lh_Ic; sd_var := bus_map f t; sd_eqn := None; sd_opt := opt |}, c)].
Proof. intros Hf Ht. destruct opt; good_tac n. Qed.
Lemma inj_bus m s f t opt c : covers (below m) f -> covers (below m) t ->
  injective_above m [(Some {| sd_seg := s; sd_var := bus_map f t; sd_eqn := None; sd_opt := opt |}, c)].
Proof. intros H1 H2 e [<-|[]]; exact (inj_line m f t opt true c H1 H2 _ (or_introl eq_refl)). Qed.
Lemma good_cons B n1 n2 n3 x s : good B n1 n2 [x] -> good B n2 n3 s -> good B n1 n3 (x :: s).
Proof. intros Ha Hb; exact (good_app B n1 n2 n3 [x] s Ha Hb). Qed.

Lemma good_load B l f t n opt : covers B f -> covers B t -> good B n (snd (load_stampers l f t n opt)) (fst (load_stampers l f t n opt)).
Proof.
  intros Hf Ht; unfold load_stampers; rewrite pq_next.
  destruct (both0 (ld_P l) (ld_Q l)); rewrite ic_next; destruct (both0 (ld_IP l) (ld_IQ l)); destruct (both0 (ld_Zr l) (ld_Zi l)); cbn [fst snd];
    repeat first [apply good_none | apply good_nil | apply (good_cons B n n n); [first [apply good_pq|apply good_ic|apply good_line]; assumption|]].
Qed.
Lemma inj_load m l f t n opt : covers (below m) f -> covers (below m) t -> injective_above m (fst (load_stampers l f t n opt)).
Proof.
  intros Hf Ht; unfold load_stampers; rewrite pq_next.
  destruct (both0 (ld_P l) (ld_Q l)); rewrite ic_next; destruct (both0 (ld_IP l) (ld_IQ l)); destruct (both0 (ld_Zr l) (ld_Zi l)); cbn [fst snd];
    repeat first [apply inj_none | apply inj_nil | apply inj_cons; [first [apply inj_line|apply inj_bus]; assumption|]].
Qed.

Lemma good_unb_one B s fi ti fj tj opt c n (sh : bool) : s = (if sh then shunt_lh else line_lh) ->
  covers B fi -> covers B ti -> covers B fj -> covers B tj -> good B n n [(Some (unb_details s fi ti fj tj opt), c)].
Proof. intros -> H1 H2 H3 H4. destruct sh, opt; good_tac n. Qed.
Lemma inj_unb_one m s fi ti fj tj opt c : covers (below m) fj -> covers (below m) tj -> injective_above m [(Some (unb_details s fi ti fj tj opt), c)].
Proof. intros H1 H2 e [<-|[]]; exact (inj_line m fj tj opt true c H1 H2 _ (or_introl eq_refl)). Qed.
Lemma good_flat {A} B n (f : A -> list stamper) l : (forall x, In x l -> good B n n (f x)) -> good B n n (flat_map f l).
Proof. induction l as [|x l IH]; intros H; [apply good_nil|]. simpl; apply good_app with n; [apply H; left; auto|apply IH; intros; apply H; right; auto]. Qed.
Lemma inj_flat {A} m (f : A -> list stamper) l : (forall x, In x l -> injective_above m (f x)) -> injective_above m (flat_map f l).
Proof. induction l as [|x l IH]; intros H; [apply inj_nil|]. simpl; apply inj_app; [apply H; left; auto|apply IH; intros; apply H; right; auto]. Qed.
Lemma phase_covers B lines : (forall p, In p lines -> covers B (fst p) /\ covers B (snd p)) -> forall i, covers B (fst (phase lines i)) /\ covers B (snd (phase lines i)).
Proof.
  intros H i; unfold phase. destruct (nth_in_or_default i lines (GROUND, GROUND)) as [Hi| ->]; [auto|split; apply covers_GROUND].
Qed.
Lemma good_unb B n lines g b Bs opt : (forall p, In p lines -> covers B (fst p) /\ covers B (snd p)) -> good B n n (unb_stampers lines g b Bs opt).
Proof.
  intros H. pose proof (phase_covers B lines H) as HP. apply good_flat; intros i _; apply good_flat; intros j _; unfold unb_pair.
  destruct (HP i) as [Hi1 Hi2], (HP j) as [Hj1 Hj2]. destruct (phase lines i) as [fi ti], (phase lines j) as [fj tj]; cbn [fst snd] in *.
  apply (good_cons B n n n); [|apply (good_cons B n n n)].
  - apply good_unb_one with (sh := negb (Nat.eqb i j)); auto. destruct (Nat.eqb i j); reflexivity.
  - apply good_unb_one with (sh := true); auto using covers_GROUND.
  - apply good_unb_one with (sh := true); auto using covers_GROUND.
Qed.
Lemma inj_unb m lines g b Bs opt : (forall p, In p lines -> covers (below m) (fst p) /\ covers (below m) (snd p)) -> injective_above m (unb_stampers lines g b Bs opt).
Proof.
  intros H. pose proof (phase_covers (below m) lines H) as HP. apply inj_flat; intros i _; apply inj_flat; intros j _; unfold unb_pair.
  destruct (HP i) as [Hi1 Hi2], (HP j) as [Hj1 Hj2]. destruct (phase lines i) as [fi ti], (phase lines j) as [fj tj]; cbn [fst snd] in *.
  repeat (apply inj_cons; [apply inj_unb_one; auto using covers_GROUND|]). apply inj_nil.
Qed.

Definition refs_ok (B : nat -> Prop) (tbl : table) (e : elem) : Prop := forall r, In r (refs e) -> covers B (at_ref tbl r).
Lemma good_elem B opt tbl n e : refs_ok B tbl e -> good B n (snd (assign_elem opt tbl n e)) (fst (assign_elem opt tbl n e)).
Proof.
  intros H; destruct e; cbn [assign_elem fst snd]; unfold refs_ok in H; cbn [refs] in H.
  - repeat (apply (good_cons B n n n); [apply good_line; auto using covers_GROUND; apply H; simpl; auto|]). apply good_nil.
  - apply good_unb. intros p Hp. apply in_map_iff in Hp as [q [<- Hq]]; cbn [fst snd].
    split; apply H; apply in_flat_map; exists q; simpl; auto.
  - apply good_xf; apply H; simpl; auto.
  - apply good_ct; apply H; simpl; auto 8.
  - apply good_slack; apply H; simpl; auto.
  - unfold switch_stampers. destruct closed; [apply good_vs; apply H; simpl; auto|apply good_nil].
  - apply good_gen; apply H; simpl; auto.
  - apply good_load; apply H; simpl; auto.
  - apply good_vs; apply H; simpl; auto.
  - apply good_line; auto using covers_GROUND; apply H; simpl; auto.
  - unfold reg_stampers.
    match goal with |- context [xf_stampers ?x ?a ?b ?c ?d ?n ?o] =>
      pose proof (good_xf B n x a b c d o) as G1; destruct (xf_stampers x a b c d n o) as [s1 n1] end.
    match goal with |- context [vs_stampers ?x ?a ?b ?c ?d ?o] =>
      pose proof (good_vs B d x a b c o) as G2; destruct (vs_stampers x a b c d o) as [s2 n2] end.
    cbn [fst snd] in *. apply good_app with n1; [apply G1|apply G2]; auto using covers_GROUND; apply H; simpl; auto.
  - unfold fuse_stampers.
    match goal with |- context [vs_stampers ?x ?a ?b ?c ?d ?o] =>
      pose proof (good_vs B d x a b c o) as G2; destruct (vs_stampers x a b c d o) as [s2 n2] end.
    cbn [fst snd] in *. apply good_cons with n; [apply good_line|apply G2]; apply H; simpl; auto.
  - destruct closed; [apply good_line; apply H; simpl; auto|apply good_nil].
Qed.
Lemma inj_elem m opt tbl n e : m <= n -> refs_ok (below m) tbl e -> injective_above m (fst (assign_elem opt tbl n e)).
Proof.
  intros L H; destruct e; cbn [assign_elem fst snd]; unfold refs_ok in H; cbn [refs] in H.
  - repeat (apply inj_cons; [apply inj_line; auto using covers_GROUND; apply H; simpl; auto|]). apply inj_nil.
  - apply inj_unb. intros p Hp. apply in_map_iff in Hp as [q [<- Hq]]; cbn [fst snd].
    split; apply H; apply in_flat_map; exists q; simpl; auto.
  - apply inj_xf; auto; apply H; simpl; auto.
  - apply inj_ct; auto; apply H; simpl; auto 8.
  - apply inj_slack; auto; apply H; simpl; auto.
  - unfold switch_stampers. destruct closed; [apply inj_vs; auto; apply H; simpl; auto|apply inj_nil].
  - apply inj_gen; auto; apply H; simpl; auto.
  - apply inj_load; auto; apply H; simpl; auto.
  - apply inj_vs; auto; apply H; simpl; auto.
  - apply inj_line; auto using covers_GROUND; apply H; simpl; auto.
  - unfold reg_stampers.
    match goal with |- context [xf_stampers ?x ?a ?b ?c ?d ?n ?o] =>
      pose proof (g_le _ _ _ _ (good_xf (fun _ => True) n x a b c d o (fun _ _ => I) (fun _ _ => I) (fun _ _ => I) (fun _ _ => I))) as L1;
      pose proof (inj_xf m n x a b c d o) as G1; destruct (xf_stampers x a b c d n o) as [s1 n1] end.
    match goal with |- context [vs_stampers ?x ?a ?b ?c ?d ?o] =>
      pose proof (inj_vs m d x a b c o) as G2; destruct (vs_stampers x a b c d o) as [s2 n2] end.
    cbn [fst snd] in *. apply inj_app; [apply G1|apply G2]; auto using covers_GROUND; try lia; apply H; simpl; auto.
  - unfold fuse_stampers.
    match goal with |- context [vs_stampers ?x ?a ?b ?c ?d ?o] =>
      pose proof (inj_vs m d x a b c o) as G2; destruct (vs_stampers x a b c d o) as [s2 n2] end.
    cbn [fst snd] in *. apply inj_cons; [apply inj_line|apply G2; auto]; apply H; simpl; auto.
  - destruct closed; [apply inj_line; apply H; simpl; auto|apply inj_nil].
Qed.

(** with L1 currents, unknowns of the same kind have different indexes *)
Lemma inj_l1 m n b e x y i : m <= n -> covers (below m) b -> In e (present (fst (l1_stampers b n))) ->
  (In x (sg_primals (sd_seg (fst e))) /\ In y (sg_primals (sd_seg (fst e))) \/ In x (sg_duals (sd_seg (fst e))) /\ In y (sg_duals (sd_seg (fst e)))) ->
  lookup (sd_var (fst e)) x = Some (Some i) -> lookup (sd_var (fst e)) y = Some (Some i) -> m <= i -> x = y.
Proof.
  intros L Hb [<-|[]] HH Hx Hy Hi.
  pose proof (low_Vr m b Hb) as L1; pose proof (low_Vi m b Hb) as L2; pose proof (low_Lr m b Hb) as L3; pose proof (low_Li m b Hb) as L4.
  unfold low in *; cbn [fst snd sd_seg sg_primals sg_duals l1_lh In sd_var] in *.
  destruct HH as [[H1 H2]|[H1 H2]]; repeat match goal with H : _ \/ _ |- _ => destruct H as [H|H] | H : False |- _ => destruct H end; subst x y;
    cbn in Hx, Hy; try reflexivity; exfalso;
    injection Hx; injection Hy; intros Ey Ex;
    repeat match goal with H : _ = Some i |- _ => first [apply L1 in H | apply L2 in H | apply L3 in H | apply L4 in H]; lia end; lia.
Qed.
