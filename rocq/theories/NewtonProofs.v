(** Lemmas for C150: the solver on networks whose circuit laws are linear. *)
From Coq Require Import String List Bool Arith ZArith Reals Lia Lra Permutation.
From Verif Require Import Expr Segment Stamper SpecStamper Builder SpecBuilder Residual ResidualProofs Collect SpecSystem CollectProofs Components SpecComponents UnbalancedLine Network SpecNetwork NetworkProofs
  SystemProofs Solver SpecSolver SolverProofs NetSolverProofs Homotopy SpecHomotopy HomotopyProofs SpecInfeasibility SpecKirchhoff KirchhoffProofs KirchhoffNet SpecNetStamper NetStamper NetStamperProofs
  ComponentsProofs ElementProofs NetStamperNet NetDefined NetStart NetInfeasProofs SpecNewton NewtonGauss.
Import ListNotations.
Local Open Scope R_scope.

(** *** no stamp depends on the unknowns *)
Definition constant_segment (s : segment) : bool := forallb (fun x => forallb ev_linear (dv_evals (gen_derivative s x))) (sg_variables s).
Definition constant_segments : list segment := linear_segments ++ [l1_lh; l2_lh].
Lemma all_constant : forallb constant_segment constant_segments = true.
Proof. vm_compute. reflexivity. Qed.
Lemma constant_ev s x ev : In s constant_segments -> In x (sg_variables s) -> In ev (dv_evals (gen_derivative s x)) -> ev_linear ev = true.
Proof.
  intros Hs Hx He. pose proof all_constant as H. rewrite forallb_forall in H. specialize (H s Hs). unfold constant_segment in H.
  rewrite forallb_forall in H. specialize (H x Hx). rewrite forallb_forall in H. now apply H.
Qed.
Lemma stamps_ev d i : forall l ss, build_stamps d i l = Some ss -> forall q, In q ss -> exists x ev, In (x, ev) l /\ s_x q = mk_expression (sd_seg d) x ev.
Proof.
  induction l as [|[x ev] l IH]; cbn [build_stamps]; intros ss H q Hq; [injection H as <-; contradiction|].
  assert (Hl : forall ss', build_stamps d i l = Some ss' -> In q ss' -> exists x0 ev0, In (x0, ev0) ((x, ev) :: l) /\ s_x q = mk_expression (sd_seg d) x0 ev0).
  { intros ss' E Hq'. destruct (IH ss' E q Hq') as [x0 [ev0 [B C]]]. exists x0, ev0. split; [now right|auto]. }
  assert (Hc : forall r c, ocons {| s_x := mk_expression (sd_seg d) x ev; s_in := i; s_row := r; s_col := c |} (build_stamps d i l) = Some ss ->
       exists x0 ev0, In (x0, ev0) ((x, ev) :: l) /\ s_x q = mk_expression (sd_seg d) x0 ev0).
  { intros r c E. destruct (build_stamps d i l) as [ss'|]; [|discriminate]. injection E as <-.
    destruct Hq as [<-|Hq]; [|now apply (Hl ss')]. exists x, ev. split; [now left|auto]. }
  destruct (row_index d x) as [[r|]|] eqn:R; try discriminate; [|now apply (Hl ss)].
  destruct (ev_yth ev) as [y|]; [|now apply (Hc r 0%nat)].
  destruct (col_index d y) as [[c|]|]; try discriminate; [now apply (Hc r c)|now apply (Hl ss)].
Qed.
Lemma stamps_constant {M} : forall (l : list (M * option details * list R)) cs, build_colls l = Some cs ->
  (forall e, In e (elements_of l) -> In (sd_seg (fst e)) constant_segments) -> forall q, In q (all_stamps cs) -> x_linear (s_x q) = true.
Proof.
  induction l as [|[[m [d|]] cv] l IH]; cbn; intros cs H HE q Hq; [injection H as <-; contradiction| |eapply IH; eauto].
  destruct (build_coll m d cv) as [c0|] eqn:E; [|discriminate]. destruct (build_colls l) as [cs0|]; [|discriminate]. injection H as <-.
  cbn in Hq. apply in_app_iff in Hq as [Hq|Hq]; [|exact (IH cs0 eq_refl (fun e He => HE e (or_intror He)) q Hq)].
  pose proof (HE (d, cv) (or_introl eq_refl)) as Hs. cbn [fst] in Hs.
  destruct (build_coll_from m d cv c0 E) as [ps [ds CF]]. destruct (stamps_ev _ _ _ _ (cf_ss _ _ _ _ _ _ CF) q Hq) as [x [ev [A B]]]. rewrite B. cbn.
  unfold stamp_exprs in A. apply in_flat_map in A as [y [Hy A]]. apply in_map_iff in A as [ev' [A1 A2]]. injection A1 as <- <-.
  apply (constant_ev (sd_seg d) y); auto. unfold first_orders in Hy. destruct (sd_opt d); [exact Hy|]. unfold sg_variables. apply in_app_iff. now right.
Qed.

(** *** the segments of a network *)
Ltac open_seg Hx := repeat match type of Hx with
  | context [two_terminal_details ?s ?f ?t ?n ?o] => pose proof (two_seg s f t n o); destruct (two_terminal_details s f t n o) as [? ?]
  | context [if ?c then _ else _] => destruct c eqn:?
  end.
Ltac pick_seg Hx := cbn [fst snd app present flat_map In] in Hx; cbn [fst] in *;
  repeat (destruct Hx as [<-|Hx]; [cbn [fst sd_seg]; try match goal with X : sd_seg ?d = _ |- In (sd_seg ?d) _ => rewrite X end; cbn; tauto|]); try destruct Hx.
Lemma elem_segments opt tbl n e : linear_elem e -> forall x, In x (present (fst (assign_elem opt tbl n e))) -> In (sd_seg (fst x)) constant_segments.
Proof.
  intros HA x Hx. assert (U : (exists ph g b B, e = EUnb ph g b B) \/ forall ph g b B, e <> EUnb ph g b B) by (destruct e; try (right; intros; discriminate); left; eauto).
  destruct U as [(ph & g & b & B & ->)|NU].
  - cbn [assign_elem fst] in Hx. unfold unb_stampers in Hx. revert Hx. generalize (map (fun p => (at_ref tbl (fst p), at_ref tbl (snd p))) ph) as lines. intros lines.
    generalize (length lines) as k. intros k. unfold present. rewrite in_flat_map. intros [st [Hst Hx]]. apply in_flat_map in Hst as [i [_ Hst]]. apply in_flat_map in Hst as [j [_ Hst]].
    unfold unb_pair in Hst. destruct (phase lines i), (phase lines j). destruct Hst as [<-|[<-|[<-|[]]]]; (destruct Hx as [<-|[]]; cbn [fst unb_details sd_seg]; destruct (i =? j)%nat; cbn; tauto).
  - destruct e; cbn [linear_elem] in HA; try contradiction; try (exfalso; eapply NU; reflexivity); cbn [assign_elem] in Hx.
    all: unfold reg_stampers, fuse_stampers, switch_stampers in Hx; unfold line_stampers, xf_stampers, ct_stampers, slack_stampers, load_stampers, vs_stampers, shunt_stampers, line_details in Hx.
    all: match type of HA with (ld_P ?l, _) = _ => assert (Z0 : both0 (ld_P l) (ld_Q l) = true) by (apply both0_true; unfold C0 in HA; injection HA; auto); rewrite Z0 in Hx | _ => idtac end.
    all: open_seg Hx; pick_seg Hx.
Qed.

Section Network.
Variables (old : table) (nw : network).
Hypothesis OK : network_ok nw.
Hypothesis EN : ends_on_buses nw.
Hypothesis LN : linear_network nw.
Let a := assign_matrix old nw.
Let opt := optimizing nw.

Lemma network_segments e : In e (equations a) -> In (sd_seg (fst e)) constant_segments.
Proof.
  unfold equations. rewrite in_flat_map. intros [s [Hs He]]. destruct (stampers_cases old nw s Hs) as [[x [m [Hx ->]]]|[b [m [l1 [HO [Hb ->]]]]]].
  - eapply elem_segments; eauto.
  - destruct l1; destruct He as [<-|[]]; cbn; tauto.
Qed.
Lemma linear_energised V : energised nw V.
Proof. split; intros; [apply LN in H; contradiction|apply LN in H; destruct H]. Qed.
Lemma linear_live V : live nw V.
Proof. split; [apply linear_energised|]. intros c f p s1 t1 s2 t2 H. exact (LN _ H). Qed.

(** *** one system of linear equations *)
Lemma system_of es J : length J = as_size a -> (forall u, linearised_at (equations a) 0 u es J) ->
  forall v, length v = as_size a -> (exact_solution es J v <-> solution (equations a) v).
Proof.
  intros L H v Lv. unfold exact_solution, solution. rewrite Lv, L. destruct (H (vec v)) as [_ HJ]. rewrite L in HJ.
  split; [intros [_ E]|intros E; split; [reflexivity|]]; intros r Hr; specialize (E r Hr); specialize (HJ r Hr); lra.
Qed.
Definition exact_for {So} (spsolve : So -> list (nat * nat * R) -> list R -> So * option (list R)) : Prop :=
  forall so es J, length J = as_size a -> (forall u, linearised_at (equations a) 0 u es J) -> exists so' v, spsolve so es J = (so', Some v) /\ exact_solution es J v.
Lemma regular_exact {So} (spsolve : So -> list (nat * nat * R) -> list R -> So * option (list R)) :
  solves_regular spsolve -> one_solution (equations a) (as_size a) -> exact_for spsolve.
Proof.
  intros SV [v [Lv [Hv U]]] so es J L H. apply SV. exists v. split; [now apply system_of|].
  intros w Hw. pose proof (proj1 Hw) as Lw. rewrite L in Lw. apply U; [exact Lw|]. now apply (system_of es J).
Qed.

Lemma newton_exact nan So (spsolve : So -> list (nat * nat * R) -> list R -> So * option (list R)) cfg tx_stepping :
  exact_for spsolve -> set_debug cfg = false -> (2 <= set_max_iters cfg)%nat -> 0 < set_tolerance cfg -> (1 <= as_size a)%nat ->
  exists ms, matrix_stamper nan nw a = Some ms /\
  forall so v0, length v0 = as_size a ->
  exists r s', net_homotopy spsolve None cfg tx_stepping ms so v0 = HOk r s' /\ h_ok r = true /\ h_tx r = 0 /\ (h_iterations r <= 1)%nat /\
    length (h_v r) = as_size a /\ solution (equations a) (h_v r).
Proof.
  intros SV Hd Hm Ht Hn. destruct (network_builds old nw OK EN nan) as [cs [ms [B [EO [SP [BS MS]]]]]]. exists ms. split; [exact MS|].
  intros so v0 L.
  assert (RWS : forall q, In q (all_stamps cs) -> (s_row q < length v0)%nat).
  { intros q Hq. unfold all_stamps in Hq. apply in_flat_map in Hq as [c [Hc Hq]]. destruct (coll_rows _ _ B c Hc) as [e [He [A _]]].
    destruct (A q Hq) as [x [Hx Hr]]. rewrite L. rewrite elements_of_network in He. eapply equation_rows; eauto. }
  assert (RWR : forall c q, In c cs -> In q (c_resids c) -> (r_row q < length v0)%nat).
  { intros c q Hc Hq. destruct (coll_rows _ _ B c Hc) as [e [He [_ A]]].
    destruct (A q Hq) as [x [Hx Hr]]. rewrite L. rewrite elements_of_network in He. eapply equation_rows; eauto. }
  assert (RR : forall u q, In q (net_RS nan opt cs u 0) -> (snd (fst q) < length v0)%nat).
  { intros u q Hq. unfold net_RS, element_residuals in Hq. apply in_flat_map in Hq as [c [Hc Hq]].
    apply in_map_iff in Hq as [z [<- Hz]]. cbn. eapply RWR; eauto. }
  assert (ST : forall q, In q (all_stamps cs) -> x_linear (s_x q) = true).
  { apply (stamps_constant _ _ B). intros e He. rewrite elements_of_network in He. now apply network_segments. }
  destruct (net_linear nan opt _ cs ms B EO SP BS spsolve None cfg [] ms [] so v0 0 eq_refl ltac:(discriminate) eq_refl Hd Hm Ht ST ltac:(lia) RWS RWR)
    as [v [k [st' [so' [R [K [Lv HF]]]]]]].
  { intros u e He. rewrite elements_of_network in He. apply (network_defined old nw); [apply linear_live|exact He]. }
  { intros so1 es J LJ HJ. rewrite elements_of_network in HJ. apply SV; [congruence|exact HJ]. }
  pose proof (net_reached nan opt _ cs ms B EO SP BS [] ms [] eq_refl) as At0. cbn [spec_ops fst op_start op_v op_tx last_iter] in At0.
  destruct (run_state (stamp_linear pkey_eqb) (stamp_nonlinear pkey_eqb) (calc_residuals pkey_eqb) spsolve None cfg
     (at_net nan opt cs) (net_EL nan opt cs) (net_EN nan opt cs) (net_RS nan opt cs)
     (net_lin nan opt cs) (net_nl nan opt cs) (net_res nan opt cs) ms _ _ _ so v0 0 true v k st' so' At0 R) as [u [At1 _]].
  unfold net_homotopy, homotopy_run. unfold net_nr at 1. cbn [fst snd]. rewrite R. cbn [orb]. unfold h_return, net_residuals. cbn [fst].
  destruct (net_res nan opt cs st' u (Some 0) (Z.of_nat k) 0 (vec v) (Z.of_nat k) At1) as [_ P]. rewrite Z.eqb_refl in P.
  destruct (calc_residuals pkey_eqb st' 0 (vec v) (Z.of_nat k)) as [st2 res]. cbn [snd] in *.
  destruct (proj2 (residual_details_defined res (length v))) as [rd Hrd].
  { split; [lia|]. intros q Hq. rewrite Lv. eapply RR. eapply Permutation_in; eauto. }
  rewrite Hrd. eexists; eexists. split; [reflexivity|]. cbn. split; [reflexivity|]. split; [reflexivity|]. split; [exact K|]. split; [congruence|].
  intros q Hq. rewrite <- (elements_of_network a). apply HF. lia.
Qed.
End Network.
