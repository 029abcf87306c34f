(** Lemmas for C143: where the equations of a network are defined; lengths of the vectors of a run; what a success means for a network. *)
From Coq Require Import String List Bool Arith ZArith Reals Lia Lra.
From Verif Require Import Expr Segment Stamper Builder Residual Collect SpecSystem Components SpecComponents UnbalancedLine Network SpecNetwork NetworkProofs NetworkKinds NetworkAssign
  SystemProofs Solver SpecSolver Homotopy SpecHomotopy HomotopyProofs SpecKirchhoff KirchhoffProofs KirchhoffNet SpecNetStamper NetStamper NetStamperProofs NetStamperNet.
Import ListNotations.
Local Open Scope R_scope.

(** *** no negative powers *)
Fixpoint nonneg (e : expr) : bool :=
  match e with
  | Const _ | Sym _ => true
  | Add a b | Mul a b => nonneg a && nonneg b
  | Pow a n => nonneg a && (0 <=? n)%Z
  | Sin a | Cos a => nonneg a
  end.
Lemma nonneg_wd e rho : nonneg e = true -> wd e rho.
Proof.
  induction e; cbn; auto; rewrite ?andb_true_iff; try tauto.
  intros [H1 H2]. split; auto. apply Z.leb_le in H2. lia.
Qed.
Lemma div_wd a b rho : wd a rho -> wd b rho -> den b rho <> 0 -> wd (Div a b) rho.
Proof. intros. cbn. tauto. Qed.
Definition sq : expr := Add (Pow dVr 2) (Pow dVi 2).
Lemma sq_wd rho : wd sq rho.
Proof. now apply nonneg_wd. Qed.
Lemma pq_wd rho : den sq rho <> 0 -> wd (sg_lagrange lh_pq) rho.
Proof.
  intros H. pose proof (sq_wd rho) as W. unfold lh_pq, seg_of, tt_pq, two, tt_lagrange, tt_to. cbn [sg_lagrange tt_objective tt_kcl_r_from tt_kcl_i_from tt_kcl_to tt_equalities fold_left fst snd].
  fold sq. cbn [wd]. unfold Neg. cbn [wd].
  assert (forall a, nonneg a = true -> wd (Div a sq) rho) as D by (intros; apply div_wd; auto using nonneg_wd).
  repeat split; try (apply D; reflexivity); intros; first [exact H | exfalso; lia].
Qed.
Lemma gen_wd rho : den sq rho <> 0 -> wd (sg_lagrange gen_lh) rho.
Proof.
  intros H. pose proof (sq_wd rho) as W. unfold gen_lh, seg_of, tt_gen, two, tt_lagrange, tt_to. cbn [sg_lagrange tt_objective tt_kcl_r_from tt_kcl_i_from tt_kcl_to tt_equalities fold_left fst snd].
  fold sq. cbn [wd]. unfold Neg. cbn [wd].
  assert (forall a, nonneg a = true -> wd (Div a sq) rho) as D by (intros; apply div_wd; auto using nonneg_wd).
  repeat split; try (apply D; reflexivity); try (apply nonneg_wd; reflexivity); intros; first [exact H | exfalso; lia].
Qed.
Lemma ct_wd rho : den scaled_tr rho <> 0 -> wd (sg_lagrange center_tap_lh) rho.
Proof.
  intros H. assert (wd ct_inv rho) as W by (unfold ct_inv; apply div_wd; auto; apply nonneg_wd; reflexivity).
  unfold center_tap_lh. cbn [sg_lagrange]. unfold ct_duals, ct_eqns. cbn [edot wd]. unfold Neg, Sub, Neg. cbn [wd]. tauto.
Qed.

(** *** the segments of a network *)
Definition all_def (v : nat -> R) (s : list stamper) : Prop := forall e, In e (present s) -> defined_at e v 0.
Lemma def_nil v : all_def v []. Proof. intros e []. Qed.
Lemma def_none v c s : all_def v s -> all_def v ((None, c) :: s). Proof. auto. Qed.
Lemma def_cons v d c s : defined_at (d, c) v 0 -> all_def v s -> all_def v ((Some d, c) :: s).
Proof. intros H1 H2 e [<-|He]; auto. Qed.
Lemma def_app v s t : all_def v s -> all_def v t -> all_def v (s ++ t).
Proof. unfold all_def, present. intros H1 H2 e. rewrite flat_map_app, in_app_iff. intros [H|H]; auto. Qed.
Lemma def_plain v d c : nonneg (sg_lagrange (sd_seg d)) = true -> defined_at (d, c) v 0.
Proof. intros H. now apply nonneg_wd. Qed.
Lemma def_line v f t o sh c : defined_at (line_details f t o sh, c) v 0.
Proof. apply def_plain. destruct sh; reflexivity. Qed.
Lemma def_flat {A} v (g : A -> list stamper) l : (forall x, In x l -> all_def v (g x)) -> all_def v (flat_map g l).
Proof. induction l as [|x l IH]; intros H; [apply def_nil|]. cbn. apply def_app; [apply H; now left|apply IH; intros; apply H; now right]. Qed.
Lemma two_seg s f t n opt : sd_seg (fst (two_terminal_details s f t n opt)) = s.
Proof. unfold two_terminal_details. destruct (fresh_or_skip true _ _ _) as [m1 n1]. now destruct (fresh_or_skip opt _ _ _) as [m2 n2]. Qed.
Lemma def_two v s f t n opt c : nonneg (sg_lagrange s) = true -> defined_at (fst (two_terminal_details s f t n opt), c) v 0.
Proof. intros H. apply def_plain. now rewrite two_seg. Qed.
Lemma def_vs v a b f t n opt : all_def v (fst (vs_stampers a b f t n opt)).
Proof. unfold vs_stampers. rewrite two_next. cbn [fst]. apply def_cons; [now apply def_two|apply def_nil]. Qed.
Lemma def_slack v a b f n opt : all_def v (fst (slack_stampers a b f n opt)).
Proof. unfold slack_stampers. rewrite two_next. cbn [fst]. apply def_cons; [now apply def_two|apply def_nil]. Qed.
Lemma def_xf v x fp fn tp tn n opt : all_def v (fst (xf_stampers x fp fn tp tn n opt)).
Proof. unfold xf_stampers. cbn [fst]. apply def_cons; [now apply def_plain|]. apply def_cons; [apply def_line|apply def_nil]. Qed.
Lemma sq_value d c v f t : sd_seg d = lh_pq \/ sd_seg d = gen_lh ->
  lookup (sd_var d) Vr_from = Some (n_Vr f) -> lookup (sd_var d) Vi_from = Some (n_Vi f) -> lookup (sd_var d) Vr_to = Some (n_Vr t) -> lookup (sd_var d) Vi_to = Some (n_Vi t) ->
  Csub (volt v f) (volt v t) <> C0 -> den sq (sym_val (d, c) v 0) <> 0.
Proof.
  intros Hs H1 H2 H3 H4 N.
  assert (forall x, In x terminals -> sym_val (d, c) v 0 x = match lookup (sd_var d) x with Some (Some n) => v n | _ => 0 end) as G.
  { intros x Hx. unfold sym_val. cbn [fst snd]. destruct Hs as [-> | ->]; simpl in Hx; repeat (destruct Hx as [<-|Hx]; [reflexivity|]); destruct Hx. }
  unfold sq, dVr, dVi, Sub, Neg. cbn [den powerRZ].
  rewrite !G by (simpl; auto). rewrite H1, H2, H3, H4. intros Z. apply N. unfold volt, Csub, C0, read. cbn [fst snd].
  change (Pos.to_nat 2) with 2%nat in Z. cbn [pow] in Z.
  set (p := match n_Vr f with Some n => v n | None => 0 end) in *. set (q := match n_Vr t with Some n => v n | None => 0 end) in *.
  set (p' := match n_Vi f with Some n => v n | None => 0 end) in *. set (q' := match n_Vi t with Some n => v n | None => 0 end) in *.
  match type of Z with ?l = 0 => replace l with ((p - q) * (p - q) + (p' - q') * (p' - q')) in Z by ring end.
  apply Rplus_sqr_eq_0 in Z as [Z1 Z2]. now rewrite Z1, Z2.
Qed.

Lemma volt_ground v : volt v GROUND = C0. Proof. reflexivity. Qed.
Lemma Csub_0 c : Csub c C0 = c. Proof. destruct c. unfold Csub, C0. cbn. f_equal; ring. Qed.
Lemma def_gen v P Vs b n opt : volt v b <> C0 -> all_def v (fst (gen_stampers P Vs b n opt)).
Proof.
  intros N. unfold gen_stampers. rewrite two_next. cbn [fst]. apply def_cons; [|apply def_nil].
  unfold defined_at. cbn [fst]. rewrite two_seg. apply gen_wd. apply sq_value with b GROUND; [right; apply two_seg| | | | |now rewrite volt_ground, Csub_0]; destruct opt; reflexivity.
Qed.
Lemma def_load v l f t n opt : ((ld_P l, ld_Q l) <> C0 -> Csub (volt v f) (volt v t) <> C0) -> all_def v (fst (load_stampers l f t n opt)).
Proof.
  intros N. unfold load_stampers. rewrite pq_next.
  assert (both0 (ld_P l) (ld_Q l) = false -> forall c, defined_at ({| sd_seg := lh_pq; sd_var := bus_map f t; sd_eqn := None; sd_opt := opt |}, c) v 0) as D.
  { intros B c. unfold defined_at. cbn [fst sd_seg]. apply pq_wd. apply sq_value with f t; [left; reflexivity| | | | |]; try reflexivity.
    apply N. intros E. apply both0_C in E. congruence. }
  destruct (both0 (ld_P l) (ld_Q l)); rewrite ic_next; destruct (both0 (ld_IP l) (ld_IQ l)); destruct (both0 (ld_Zr l) (ld_Zi l)); cbn [fst snd];
    repeat first [apply def_none | apply def_nil | apply def_cons; [first [now apply D|apply def_line|now apply def_plain]|]].
Qed.
Lemma def_ct v c f p s1 t1 s2 t2 n opt : ct_ratio c <> 0 -> all_def v (fst (ct_stampers c f p s1 t1 s2 t2 n opt)).
Proof.
  intros N. unfold ct_stampers. cbn [fst]. apply def_cons; [|repeat (apply def_cons; [apply def_line|]); apply def_nil].
  unfold defined_at. cbn [fst sd_seg]. apply ct_wd. unfold scaled_tr, Sub, Neg. cbn [den]. unfold sym_val. cbn. lra.
Qed.
Lemma def_l v (l1 : bool) b n : all_def v (fst ((if l1 then l1_stampers else l2_stampers) b n)).
Proof. destruct l1; cbn [l1_stampers l2_stampers fst]; (apply def_cons; [now apply def_plain|apply def_nil]). Qed.
Lemma def_unb v ph g b B opt : all_def v (unb_stampers ph g b B opt).
Proof.
  unfold unb_stampers. apply def_flat. intros i _. apply def_flat. intros j _. unfold unb_pair. destruct (phase ph i), (phase ph j). destruct (i =? j)%nat;
  (repeat (apply def_cons; [now apply def_plain|])); apply def_nil.
Qed.

Section Network.
Variables (old : table) (nw : network).
Let a := assign_matrix old nw.
Lemma def_elem v n e : live nw (voltages a v) -> In e (elements nw) -> all_def v (fst (assign_elem (optimizing nw) (as_table a) n e)).
Proof.
  intros [[L1 L2] L3] He. destruct e; cbn [assign_elem fst].
  - unfold line_stampers. repeat (apply def_cons; [apply def_line|]). apply def_nil.
  - apply def_unb.
  - apply def_xf.
  - apply def_ct. eapply L3; eauto.
  - apply def_slack.
  - unfold switch_stampers. destruct closed; [apply def_vs|apply def_nil].
  - apply def_gen. now apply L2.
  - apply def_load. intros N. apply (L1 _ _ _ He N).
  - apply def_vs.
  - unfold shunt_stampers. apply def_cons; [apply def_line|apply def_nil].
  - unfold reg_stampers.
    match goal with |- context [xf_stampers ?x ?a ?b ?c ?d ?n ?o] => pose proof (def_xf v x a b c d n o) as G1; destruct (xf_stampers x a b c d n o) as [s1 n1] end.
    match goal with |- context [vs_stampers ?x ?a ?b ?c ?d ?o] => pose proof (def_vs v x a b c d o) as G2; destruct (vs_stampers x a b c d o) as [s2 n2] end.
    now apply def_app.
  - unfold fuse_stampers.
    match goal with |- context [vs_stampers ?x ?a ?b ?c ?d ?o] => pose proof (def_vs v x a b c d o) as G2; destruct (vs_stampers x a b c d o) as [s2 n2] end.
    apply def_cons; [apply def_line|exact G2].
  - destruct closed; [apply def_cons; [apply def_line|apply def_nil]|apply def_nil].
Qed.
Lemma network_defined v e : live nw (voltages a v) -> In e (equations a) -> defined_at e v 0.
Proof.
  intros L. unfold equations. rewrite in_flat_map. intros [s [Hs He]]. destruct (stampers_cases old nw s Hs) as [[x [m [Hx ->]]]|[b [m [l1 [HO [Hb ->]]]]]].
  - exact (def_elem v m x L Hx e He).
  - exact (def_l v l1 _ m e He).
Qed.
End Network.
