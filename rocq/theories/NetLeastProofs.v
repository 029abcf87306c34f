(** Lemmas for C148: the rows of the unknowns are the adjoint of the rows of the multipliers. *)
From Coq Require Import String List Bool Arith ZArith Reals Lra Lia.
From Verif Require Import Expr ExprProofs Segment Collect SpecSystem Components SpecComponents ComponentsProofs ElementProofs UnbalancedLine SpecUnbalanced UnbalancedProofs
  SpecInfeasibility BilinearProofs InfeasibilityProofs Network SpecNetwork NetworkProofs NetworkKinds NetworkAssign SpecKirchhoff KirchhoffProofs KirchhoffNet
  NetTwin SpecNetInfeas NetInfeasProofs NetInfeasFinal SpecNetLeast.
Import ListNotations.
Local Open Scope R_scope.

Section Adjoint.
Variables (P : nat -> bool) (M : nat).
Let Pn := fun i => negb (P i).
Definition adjoint (es : list element) : Prop := forall v w,
  weigh P M (fun i => w i - v i) es v 0 = weigh Pn M v es w 0 - weigh Pn M v es v 0.
Lemma adjoint_nil : adjoint [].
Proof. intros v w. rewrite !weigh_nil. ring. Qed.
Lemma adjoint_app a b : adjoint a -> adjoint b -> adjoint (a ++ b).
Proof. intros A B v w. rewrite !weigh_app, (A v w), (B v w). ring. Qed.
Lemma adjoint_linear es : (forall e, In e es -> linear_element e /\ separated P M e) -> adjoint es.
Proof. intros H v w. rewrite (network_primals P M es) by auto. unfold Pn. rewrite !(network_duals P M es) by auto. reflexivity. Qed.

(** *** lines with matrices *)
Definition placed (b : nodes) : Prop :=
  (forall i, n_Vr b = Some i \/ n_Vi b = Some i -> (i < M)%nat /\ P i = true) /\ (forall i, n_Lr b = Some i \/ n_Li b = Some i -> (i < M)%nat /\ P i = false).
Definition W (P : nat -> bool) (f g : nat -> R) : R := lsum (fun r => if P r then f r * g r else 0) (seq 0 M).
Lemma W_weigh Q f es v : weigh Q M f es v 0 = W Q f (F es v 0). Proof. reflexivity. Qed.
Lemma W_ext Q f g h : (forall r, g r = h r) -> W Q f g = W Q f h.
Proof. intros H. unfold W. apply lsum_ext. intros. now rewrite H. Qed.
Lemma W_add Q f g h : W Q f (fun r => g r + h r) = W Q f g + W Q f h.
Proof. unfold W. apply sum_rows_add. Qed.
Lemma W_sum Q f (g : nat -> nat -> R) n : W Q f (fun r => Rsum (fun i => g i r) n) = Rsum (fun i => W Q f (g i)) n.
Proof.
  unfold W. rewrite Rsum_lsum, lsum_swap. apply lsum_ext. intros r _. rewrite Rsum_lsum. destruct (Q r); [|symmetry; apply lsum_zero; auto].
  rewrite <- lsum_scale. reflexivity.
Qed.
Ltac put := unfold W, balance, at_bus, at_lambda; rewrite sum_rows_add.
Lemma W_bus f b c : placed b -> W P f (at_bus b c) = dot (volt f b) c.
Proof. intros [H _]. put. rewrite !sum_rows by (intros; apply H; auto). reflexivity. Qed.
Lemma W_bus_n f b c : placed b -> W Pn f (at_bus b c) = 0.
Proof. intros [H _]. put. rewrite !sum_rows_none; [ring| |]; intros i E; unfold Pn; destruct (H i) as [_ ->]; auto. Qed.
Lemma W_lam f b c : placed b -> W Pn f (balance true b c) = dot (mult f b) c.
Proof. intros [_ H]. put. rewrite !sum_rows; [reflexivity| |]; intros i E; unfold Pn; destruct (H i) as [? ->]; auto. Qed.
Lemma W_lam_n f b c : placed b -> W P f (balance true b c) = 0.
Proof. intros [_ H]. put. rewrite !sum_rows_none; [ring| |]; intros i E; destruct (H i) as [_ ->]; auto. Qed.
Lemma Rsum_ext g h n : (forall i, (i < n)%nat -> g i = h i) -> Rsum g n = Rsum h n.
Proof. intros H. rewrite !Rsum_lsum. apply lsum_ext. intros i Hi. apply H. now apply in_seq0. Qed.
Lemma Rsum_sub g h n : Rsum (fun i => g i - h i) n = Rsum g n - Rsum h n.
Proof. rewrite !Rsum_lsum. replace (lsum g (seq 0 n) - lsum h (seq 0 n)) with (lsum g (seq 0 n) + (-1) * lsum h (seq 0 n)) by ring. rewrite <- lsum_scale, <- lsum_add. apply lsum_ext. intros. ring. Qed.

Lemma Q_sub n Y B (Lf Lt Vf Vt Wf Wt : nat -> C) :
  Q n Y B 0 (fun i => Csub (Wf i) (Vf i)) (fun i => Csub (Wt i) (Vt i)) Lf Lt = Q n Y B 0 Wf Wt Lf Lt - Q n Y B 0 Vf Vt Lf Lt.
Proof. unfold Q. rewrite <- Rsum_sub. apply Rsum_ext. intros i _. unfold dot, Csub. cbn [fst snd]. ring. Qed.
Lemma volt_sub v w b : volt (fun i => w i - v i) b = Csub (volt w b) (volt v b).
Proof. unfold volt, Csub, SpecComponents.read. cbn [fst snd]. destruct (n_Vr b), (n_Vi b); f_equal; ring. Qed.
Lemma adjoint_unb lines g b B : (forall x, In x lines -> placed (fst x) /\ placed (snd x)) ->
  symmetric (length lines) g -> symmetric (length lines) b -> symmetric (length lines) B -> adjoint (present (unb_stampers lines g b B true)).
Proof.
  intros HP Sg Sb SB v w. set (n := length lines). set (Y := fun i j => (g i j, b i j)).
  assert (HI : forall i, (i < n)%nat -> placed (fst (phase lines i)) /\ placed (snd (phase lines i))) by (intros i Hi; apply HP; apply nth_In; exact Hi).
  set (f := fun i => fst (phase lines i)) in *. set (t := fun i => snd (phase lines i)) in *.
  assert (A : weigh P M (fun i => w i - v i) (present (unb_stampers lines g b B true)) v 0 =
     Q n (fun i j => Cconj (Y i j)) (fun i j => - B i j) 0 (fun i => Csub (volt w (f i)) (volt v (f i))) (fun i => Csub (volt w (t i)) (volt v (t i))) (fun i => mult v (f i)) (fun i => mult v (t i))).
  { rewrite W_weigh, (W_ext _ _ _ _ (fun r => unb_rows lines g b B true v 0 r)). cbv zeta. fold n. rewrite W_sum. unfold Q. apply Rsum_ext. intros i Hi. destruct (HI i Hi) as [H1 H2].
    rewrite !W_add, !W_lam_n, !W_bus by assumption. rewrite !volt_sub. unfold f, t, Y. ring. }
  assert (D : forall u, weigh Pn M v (present (unb_stampers lines g b B true)) u 0 =
     Q n Y B 0 (fun i => mult v (f i)) (fun i => mult v (t i)) (fun i => volt u (f i)) (fun i => volt u (t i))).
  { intros u. rewrite W_weigh, (W_ext _ _ _ _ (fun r => unb_rows lines g b B true u 0 r)). cbv zeta. fold n. rewrite W_sum. unfold Q. apply Rsum_ext. intros i Hi. destruct (HI i Hi) as [H1 H2].
    rewrite !W_add, !W_lam, !W_bus_n by assumption. unfold f, t, Y. ring. }
  rewrite A, !D, Q_sub. rewrite !(transpose n Y B). f_equal; unfold Q; apply Rsum_ext; intros i Hi.
  all: pose proof (fun e => I_end_ext e n (fun i j => Cconj (Y i j)) (fun i j => - B i j) (herm Y) (skew B) (fun i => mult v (f i)) (fun i => mult v (t i)) (fun i => mult v (f i)) (fun i => mult v (t i)) 0 i) as X.
  all: assert (EY : forall j, (j < n)%nat -> Cconj (Y i j) = herm Y i j) by (intros j Hj; unfold herm, Y; now rewrite (Sg i j Hi Hj), (Sb i j Hi Hj)).
  all: assert (EB : forall j, (j < n)%nat -> - B i j = skew B i j) by (intros j Hj; unfold skew; now rewrite (SB i j Hi Hj)).
  all: pose proof (X false EY EB (fun _ _ => eq_refl) (fun _ _ => eq_refl)) as X1; pose proof (X true EY EB (fun _ _ => eq_refl) (fun _ _ => eq_refl)) as X2; cbn [I_end] in X1, X2; now rewrite X1, X2.
Qed.

(** *** elements *)
Lemma pick_linear d c : In (sd_seg d) linear_segments -> sd_eqn d = None -> sd_opt d = true -> linear_element (d, c).
Proof. constructor; assumption. Qed.
Lemma tt_shape s f t n : let d := fst (two_terminal_details s f t n true) in sd_seg d = s /\ sd_eqn d = None /\ sd_opt d = true.
Proof. unfold two_terminal_details. destruct (fresh_or_skip true (sg_primals s) (bus_map f t) n) as [m1 n1]. destruct (fresh_or_skip true (sg_duals s) m1 n1) as [m2 n2]. cbn. auto. Qed.
Ltac open_up Hx := repeat match type of Hx with
  | context [two_terminal_details ?s ?f ?t ?n true] => pose proof (tt_shape s f t n); destruct (two_terminal_details s f t n true) as [? ?]
  | context [if ?c then _ else _] => destruct c eqn:?
  end.
Ltac pick Hx := cbn [fst snd app present flat_map In] in Hx; cbn [fst] in *; repeat (destruct Hx as [<-|Hx]; [apply pick_linear; try (intuition congruence); try reflexivity;
  match goal with X : sd_seg ?d = _ /\ _ |- In (sd_seg ?d) _ => rewrite (proj1 X) | _ => idtac end; cbn; tauto|]); try destruct Hx.
Lemma elem_linear tbl n e : affine_elem e -> (forall ph g b B, e <> EUnb ph g b B) -> forall x, In x (present (fst (assign_elem true tbl n e))) -> linear_element x.
Proof.
  intros HA NU x Hx. destruct e; cbn [affine_elem] in HA; try contradiction; try (exfalso; eapply NU; reflexivity);
    cbn [assign_elem] in Hx.
  all: unfold line_stampers, xf_stampers, ct_stampers, slack_stampers, switch_stampers, load_stampers, vs_stampers, shunt_stampers, reg_stampers, fuse_stampers, line_details in Hx.
  all: try match type of HA with (ld_P ?l, _) = C0 => assert (Z : both0 (ld_P l) (ld_Q l) = true) by (apply both0_true; unfold C0 in HA; injection HA; auto); rewrite Z in Hx end.
  all: open_up Hx; pick Hx.
Qed.
Lemma adjoint_elems tbl es : forall n, (forall e, In e es -> affine_elem e) ->
  (forall x, In x (flat_map present (fst (assign_elems true tbl n es))) -> separated P M x) -> (forall e r, In e es -> In r (refs e) -> placed (at_ref tbl r)) ->
  adjoint (flat_map present (fst (assign_elems true tbl n es))).
Proof.
  induction es as [|e es IH]; intros n HA HS HR; [apply adjoint_nil|]. cbn [assign_elems] in *.
  pose proof (elem_linear tbl n e (HA e (or_introl eq_refl))) as L.
  assert (U : forall ph g b B, e = EUnb ph g b B -> adjoint (present (fst (assign_elem true tbl n e)))).
  { intros ph g b B ->. cbn [assign_elem fst]. destruct (HA _ (or_introl eq_refl)) as [S1 [S2 S3]].
    apply adjoint_unb; rewrite ?map_length; auto. intros x Hx. apply in_map_iff in Hx as [p [<- Hp]]. cbn [fst snd].
    split; (apply (HR (EUnb ph g b B)); [now left|]); cbn [refs]; apply in_flat_map; exists p; split; auto; cbn; auto. }
  destruct (assign_elem true tbl n e) as [s n1]. cbn [fst snd] in *. specialize (IH n1). destruct (assign_elems true tbl n1 es) as [rest n2]. cbn [fst flat_map] in *.
  apply adjoint_app.
  - assert (D : (exists ph g b B, e = EUnb ph g b B) \/ forall ph g b B, e <> EUnb ph g b B) by (destruct e; try (right; intros; discriminate); left; eauto).
    destruct D as [(ph & g & b & B & E)|D]; [eauto|]. apply adjoint_linear. intros x Hx. split; [auto|]. apply HS. apply in_app_iff. auto.
  - apply IH; [intros x Hx; apply HA; now right|intros x Hx; apply HS; apply in_app_iff; auto|intros x r Hx; apply HR; now right].
Qed.
End Adjoint.

Section Network.
Variables (old : table) (nw : network) (l1 : bool).
Hypothesis OK : network_ok nw.
Hypothesis HO : nw_optimization nw = Some l1.
Let a := assign_matrix old nw.
Let a0 := assign_matrix old (plain nw).
Let N := length (nw_buses nw).
Let ws := (repeat 2%nat N ++ flat_map blocks (elements nw))%list.
Let U := unknowns nw.
Let els1 := flat_map present (fst (assign_elems true (as_table a) (2 * (2 * N)) (elements nw))).
Let P := fun q => snd (back ws q).
Lemma ws_sum' : list_sum ws = U. Proof. exact (ws_sum nw). Qed.

Lemma P_sig r : P (sig ws r) = true. Proof. unfold P. now rewrite back_sig. Qed.
Lemma P_del r : P (del ws r) = false. Proof. unfold P. now rewrite back_del. Qed.
Lemma used_bound : forall x s i, In x els1 -> lookup (sd_var (fst x)) s = Some (Some i) -> (i < 2 * U)%nat.
Proof.
  assert (G : forall es n, (forall e, In e es -> refs_ok (below (4 * N)) (as_table a) e) -> (4 * N <= n)%nat ->
    forall x s i, In x (flat_map present (fst (assign_elems true (as_table a) n es))) -> lookup (sd_var (fst x)) s = Some (Some i) -> (i < n + 2 * list_sum (map own_unknowns es))%nat).
  { induction es as [|e es IH]; intros n H Hn x s i Hx E; [destruct Hx|]. cbn [map list_sum fold_right]. fold (list_sum (map own_unknowns es)).
    cbn [assign_elems] in Hx. pose proof (good_elem (below (4 * N)) true (as_table a) n e (H e (or_introl eq_refl))) as G. pose proof (elem_size true (as_table a) n e) as Sz. rewrite Sz in G.
    destruct (assign_elem true (as_table a) n e) as [st n1]. cbn [fst snd] in *. specialize (IH n1 (fun x Hx => H x (or_intror Hx)) ltac:(lia)).
    destruct (assign_elems true (as_table a) n1 es) as [rest n2]. cbn [fst flat_map] in *. apply in_app_iff in Hx as [Hx|Hx]; [|specialize (IH x s i Hx E); lia].
    destruct (g_used _ _ _ _ G i) as [B|B]; [|unfold below in B; lia|lia]. apply used_in. exists x, s. split; [exact Hx|now apply lookup_in]. }
  intros x s i Hx E. assert (i < 2 * (2 * N) + 2 * list_sum (map own_unknowns (elements nw)))%nat; [|unfold U, unknowns; fold N; lia].
  apply (G (elements nw) (2 * (2 * N))%nat) with x s; auto; [|lia]. intros e He. pose proof (covers_ref old nw e OK He) as C. unfold bus_count, optimizing in C. rewrite HO in C. exact C.
Qed.
Lemma els_separated : forall x, In x els1 -> separated P (2 * U) x.
Proof.
  intros x Hx. pose proof (els_twin old nw l1 OK HO) as T. fold N a a0 ws els1 in T.
  assert (TX : exists x0, twin_elem (sig ws) (del ws) x0 x).
  { revert Hx. induction T as [|y0 y l0 l t T IH]; intros Hx; [destruct Hx|]. destruct Hx as [<-|Hx]; eauto. }
  pose proof (fun s i => used_bound x s i Hx) as UB. destruct TX as [x0 TX]. inversion TX as [d0 d1 c TD Ea Eb]. clear TX Hx. subst x. cbn [fst] in UB.
  destruct TD as [E1 E2 E3 E4]. rewrite Forall_forall in E4. split; cbn [fst]; rewrite E1; intros s i Hs L; (split; [eauto|]).
  - rewrite <- (sf_fst _ E2) in Hs. apply in_map_iff in Hs as [q [<- Hq]]. destruct (E4 q Hq) as (o & w & _ & L1 & _). rewrite L1 in L. destruct o as [o|]; [|discriminate]. injection L as <-. apply P_sig.
  - pose proof (sf_dual _ E2) as D. rewrite forallb_forall in D. specialize (D s Hs). destruct (sg_dual_primal (sd_seg d0) s) as [p|]; [|discriminate].
    apply existsb_exists in D as [[p' s'] [Hq E]]. apply andb_true_iff in E as [_ E]. apply String.eqb_eq in E. cbn [snd] in E. subst s'. destruct (E4 _ Hq) as (o & w & _ & _ & L1 & _). cbn [snd] in L1. rewrite L in L1.
    destruct o as [o|]; [|discriminate]. injection L1 as ->. apply P_del.
Qed.
Lemma refs_placed e r : In e (elements nw) -> In r (refs e) -> placed P (2 * U) (at_ref (as_table a) r).
Proof.
  intros He Hr. destruct r as [j|]; [|split; intros i [H|H]; discriminate]. cbn [at_ref]. pose proof (proj2 OK e He j Hr) as Hj. apply in_map_iff in Hj as [b [<- Hb]].
  apply In_nth_error in Hb as [k Hk]. pose proof (table1 old nw l1 OK HO k b Hk) as T1. fold a in T1. rewrite T1.
  pose proof (bus_lt nw k b Hk) as L. destruct (bus_places nw k 0) as [A0 B0]; [exact L|lia|]. destruct (bus_places nw k 1) as [A1 B1]; [exact L|lia|]. fold N ws in A0, A1, B0, B1, L.
  assert (4 * N <= 2 * U)%nat by (unfold U, unknowns; fold N; lia).
  split; intros i [H'|H']; cbn [new_nodes n_Vr n_Vi n_Lr n_Li] in H'; injection H' as <-; (split; [lia|]).
  - pose proof (P_sig (2 * k + 0)) as X. rewrite A0, Nat.add_0_r in X. exact X.
  - pose proof (P_sig (2 * k + 1)) as X. rewrite A1 in X. exact X.
  - pose proof (P_del (2 * k + 0)) as X. rewrite B0, Nat.add_0_r in X. exact X.
  - pose proof (P_del (2 * k + 1)) as X. rewrite B1 in X. replace (4 * k + 2 + 1)%nat with (4 * k + 3)%nat in X by lia. exact X.
Qed.
Lemma els_adjoint : affine_network nw -> adjoint P (2 * U) els1.
Proof. intros HA. apply adjoint_elems; [exact HA|exact els_separated|exact refs_placed]. Qed.
End Network.
