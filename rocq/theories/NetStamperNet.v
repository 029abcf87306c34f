(** Lemmas for C143: the matrix stamper of a network always builds and satisfies the hypotheses of C13-C25. *)
From Coq Require Import String List Bool Arith ZArith Reals Lia.
From Verif Require Import Expr Segment Stamper Collect SpecSystem Components SpecComponents UnbalancedLine Network SpecNetwork NetworkProofs NetworkKinds NetworkAssign
  CollectProofs SystemProofs StamperProofs SpecKirchhoff SpecNetStamper NetStamper NetStamperProofs.
Import ListNotations.

(** *** from the boolean tests *)
Lemma mem_In x l : mem x l = true <-> In x l.
Proof. unfold mem. rewrite existsb_exists. split; [intros [y [H E]]; apply String.eqb_eq in E; now subst|intros H; exists x; split; auto; apply String.eqb_refl]. Qed.
Lemma mem_nIn x l : negb (mem x l) = true <-> ~ In x l.
Proof. rewrite negb_true_iff, <- mem_In. destruct (mem x l); split; intros; try congruence. Qed.
Lemma nodupb_NoDup l : nodupb l = true -> NoDup l.
Proof. induction l as [|x l IH]; cbn; [constructor|]. rewrite andb_true_iff. intros [H1 H2]. constructor; auto. now apply mem_nIn. Qed.
Lemma trigb_ok vars e : trigb vars e = true -> trig_ok vars e.
Proof.
  induction e; cbn; auto; rewrite ?andb_true_iff; try tauto.
  - intros H s Hs. rewrite forallb_forall in H. now apply mem_nIn, H.
  - intros H s Hs. rewrite forallb_forall in H. now apply mem_nIn, H.
Qed.
Lemma fine_parts opt d n : dfine opt d n = true ->
  seg_fine (sd_seg d) = true /\ sd_opt d = opt /\ n = length (sg_constants (sd_seg d)) /\
  (opt = false -> forall x, In x (sg_duals (sd_seg d)) -> col_index d x = Some None) /\
  (has_row d = true -> emits (cells_of (sd_seg d) (sd_opt d)) d = true) /\ known (cells_of (sd_seg d) (sd_opt d)) d = true.
Proof.
  unfold dfine, fine_with. rewrite !andb_true_iff, eqb_true_iff, Nat.eqb_eq. intros [[[[[H1 H2] H3] H4] H5] H6]. repeat (split; auto).
  - intros -> x Hx. cbn [orb] in H4. rewrite forallb_forall in H4. specialize (H4 x Hx). destruct (col_index d x) as [[|]|]; auto; discriminate.
  - intros H. rewrite H in H5. exact H5.
Qed.
Lemma fine_element opt e : fine opt e = true -> element_ok opt e.
Proof.
  intros H. destruct (fine_parts _ _ _ H) as [H1 [H2 [H3 [H4 _]]]].
  unfold seg_fine in H1. rewrite !andb_true_iff in H1. destruct H1 as [[[A B] D] E]. constructor; auto.
  - now apply nodupb_NoDup.
  - now apply mem_nIn.
  - intros x Hx. rewrite forallb_forall in D. now apply mem_In, D.
  - now apply trigb_ok.
Qed.

(** *** building *)
Lemma all_some_map {A B} (f : A -> option B) l : (forall x, In x l -> is_some (f x) = true) -> exists r, all_some (map f l) = Some r.
Proof.
  induction l as [|x l IH]; intros H; [eexists; reflexivity|]. cbn. pose proof (H x (or_introl eq_refl)) as Hx. destruct (f x); [|discriminate].
  destruct IH as [r Hr]; [intros; apply H; now right|]. rewrite Hr. eexists; reflexivity.
Qed.
Lemma stamps_build d i l : (forall x ev, In (x, ev) l -> is_some (row_index d x) = true /\ match ev_yth ev with None => True | Some y => is_some (col_index d y) = true end) ->
  exists ss, build_stamps d i l = Some ss /\
  ((exists x ev, In (x, ev) l /\ is_index (row_index d x) = true /\ match ev_yth ev with None => True | Some y => is_index (col_index d y) = true end) -> ss <> []).
Proof.
  induction l as [|[x ev] l IH]; intros H; [exists []; split; [reflexivity|]; intros [? [? [[] _]]]|].
  destruct IH as [ss [E N]]; [intros; apply H; now right|]. destruct (H x ev (or_introl eq_refl)) as [H1 H2]. cbn [build_stamps].
  destruct (row_index d x) as [[r|]|] eqn:R; [| |discriminate H1].
  - destruct (ev_yth ev) as [y|] eqn:Y.
    + destruct (col_index d y) as [[c|]|] eqn:K; [| |discriminate H2].
      * rewrite E. eexists. split; [reflexivity|]. discriminate.
      * exists ss. split; auto. intros [x' [ev' [[Q|Q] [A B]]]]; [|apply N; eauto]. injection Q as <- <-. rewrite Y, K in B. discriminate.
    + rewrite E. eexists. split; [reflexivity|]. discriminate.
  - exists ss. split; auto. intros [x' [ev' [[Q|Q] [A B]]]]; [|apply N; eauto]. injection Q as <- <-. rewrite R in A. discriminate.
Qed.
Lemma resids_build d i l : (forall x, In x l -> is_some (row_index d x) = true) ->
  exists rs, build_resids d i l = Some rs /\ (rs <> [] -> exists x, In x l /\ is_index (row_index d x) = true).
Proof.
  induction l as [|x l IH]; intros H; [exists []; split; [reflexivity|congruence]|].
  destruct IH as [rs [E N]]; [intros; apply H; now right|]. pose proof (H x (or_introl eq_refl)) as H1. cbn [build_resids].
  destruct (row_index d x) as [[r|]|] eqn:R; [| |discriminate H1].
  - rewrite E. eexists. split; [reflexivity|]. intros _. exists x. rewrite R. split; [now left|reflexivity].
  - exists rs. split; auto. intros Q. destruct (N Q) as [y [A B]]. exists y. split; [now right|auto].
Qed.
Lemma cells_in d x y : In (x, y) (cells_of (sd_seg d) (sd_opt d)) <-> exists ev, In (x, ev) (stamp_exprs d) /\ ev_yth ev = y.
Proof.
  unfold cells_of, stamp_exprs. fold (first_orders d). rewrite in_flat_map. setoid_rewrite in_flat_map. split.
  - intros [z [Hz H]]. apply in_map_iff in H as [ev [E H]]. injection E as -> <-. exists ev. split; auto. exists x. split; auto. now apply in_map.
  - intros [ev [[z [Hz H]] <-]]. apply in_map_iff in H as [ev' [E H]]. injection E as -> ->. exists x. split; auto. apply in_map_iff. exists ev. auto.
Qed.
Lemma row_of_cell d x ev : In (x, ev) (stamp_exprs d) -> In x (first_orders d).
Proof. unfold stamp_exprs. rewrite in_flat_map. intros [z [Hz H]]. apply in_map_iff in H as [? [E _]]. injection E as -> _. exact Hz. Qed.
Lemma coll_builds {M} opt (m : M) d cv : fine opt (d, cv) = true ->
  exists c, build_coll m d cv = Some c /\ (c_resids c <> [] -> c_stamps c <> []).
Proof.
  intros H. destruct (fine_parts _ _ _ H) as [_ [_ [_ [_ [H5 H6]]]]]. cbn [fst] in H5, H6.
  unfold known in H6. rewrite !andb_true_iff, !forallb_forall in H6. destruct H6 as [[K1 K2] K3]. unfold build_coll.
  destruct (all_some_map (col_index d) (sg_primals (sd_seg d))) as [ps ->]. { intros x Hx. apply K1. unfold sg_variables. apply in_app_iff. now left. }
  destruct (all_some_map (col_index d) (sg_duals (sd_seg d))) as [ds ->]. { intros x Hx. apply K1. unfold sg_variables. apply in_app_iff. now right. }
  destruct (stamps_build d {| in_consts := cv; in_primals := ps; in_duals := ds |} (stamp_exprs d)) as [ss [E N]].
  { intros x ev Hx. split; [apply K2; eapply row_of_cell; eauto|]. assert (In (x, ev_yth ev) (cells_of (sd_seg d) (sd_opt d))) as HC by (apply cells_in; eauto).
    specialize (K3 _ HC). cbn [snd] in K3. now destruct (ev_yth ev). }
  destruct (resids_build d {| in_consts := cv; in_primals := ps; in_duals := ds |} (first_orders d)) as [rs [E' N']]; [exact K2|].
  rewrite E, E'. eexists. split; [reflexivity|]. cbn [c_resids c_stamps]. intros R. apply N. destruct (N' R) as [x [Hx Hr]].
  assert (has_row d = true) as HR by (apply existsb_exists; eauto). specialize (H5 HR). apply existsb_exists in H5 as [[x' y'] [HC HE]].
  apply cells_in in HC as [ev [Hev <-]]. cbn [fst snd] in HE. apply andb_true_iff in HE as [A B]. exists x', ev. split; auto. split; auto.
  now destruct (ev_yth ev).
Qed.
Lemma colls_build {M} opt (l : list (M * option details * list R)) : (forall e, In e (elements_of l) -> fine opt e = true) ->
  exists cs, build_colls l = Some cs /\ stamps_present cs.
Proof.
  induction l as [|[[m [d|]] cv] l IH]; intros H.
  - exists []. split; [reflexivity|]. intros c [].
  - destruct (coll_builds opt m d cv) as [c [E N]]; [apply H; now left|]. destruct IH as [cs [E' N']]; [intros; apply H; now right|].
    exists (c :: cs). cbn. rewrite E, E'. split; [reflexivity|]. intros c' [<-|Hc]; auto.
  - apply IH. exact H.
Qed.

(** *** the stampers of a network *)
Lemma numbered_elements l : forall k, elements_of (numbered k l) = flat_map present l.
Proof.
  induction l as [|s l IH]; intros k; [reflexivity|]. cbn [numbered flat_map]. unfold elements_of in *. rewrite flat_map_app, IH. f_equal.
  unfold present. induction s as [|[o c] s IHs]; [reflexivity|]. cbn. now rewrite IHs.
Qed.
Lemma elements_of_network a : elements_of (stamper_list a) = equations a.
Proof. apply numbered_elements. Qed.

Section Network.
Variables (old : table) (nw : network).
Hypothesis OK : network_ok nw.
Hypothesis EN : ends_on_buses nw.
Let a := assign_matrix old nw.
Let opt := optimizing nw.

Lemma bus_shape b : In b (nw_buses nw) -> bus_shaped opt (as_table a (bus_id b)).
Proof. intros H. apply In_nth_error in H as [k Hk]. eexists. eapply table_bus; eauto. Qed.
Lemma ref_bus e j : In e (elements nw) -> In (Some j) (refs e) -> bus_shaped opt (at_ref (as_table a) (Some j)).
Proof. intros He Hj. apply (proj2 OK e He) in Hj. apply in_map_iff in Hj as [b [<- Hb]]. now apply bus_shape. Qed.
Lemma ref_shape e r : In e (elements nw) -> In r (refs e) -> shaped opt (at_ref (as_table a) r).
Proof. intros He Hr. destruct r as [j|]; [|now left]. right. now apply ref_bus with e. Qed.
Lemma fine_elem n e : In e (elements nw) -> all_fine opt (fst (assign_elem opt (as_table a) n e)).
Proof.
  intros He. pose proof (fun r => ref_shape e r He) as H. pose proof (fun j => ref_bus e j He) as HB.
  destruct e; cbn [assign_elem fst snd]; cbn [refs] in H, HB.
  - unfold line_stampers. repeat (apply fine_cons; [apply fine_line; auto using ground_shaped; apply H; simpl; auto|]). apply fine_nil.
  - assert (forall i, (i < length phases)%nat -> let p := phase (map (fun p => (at_ref (as_table a) (fst p), at_ref (as_table a) (snd p))) phases) i in bus_shaped opt (fst p) /\ bus_shaped opt (snd p)) as P.
    { intros i Hi. unfold phase. rewrite nth_indep with (d' := (fun p => (at_ref (as_table a) (fst p), at_ref (as_table a) (snd p))) (None, None)) by now rewrite map_length.
      rewrite map_nth with (f := fun p => (at_ref (as_table a) (fst p), at_ref (as_table a) (snd p))). cbn [fst snd].
      pose proof (nth_In phases (None, None) Hi) as Hn. destruct (proj1 EN _ _ _ _ He _ Hn) as [N1 N2].
      destruct (nth i phases (None, None)) as [[f|] [t|]]; cbn [fst snd] in *; try congruence.
      split; apply HB; apply in_flat_map; exists (Some f, Some t); simpl; auto. }
    unfold unb_stampers. rewrite map_length. apply fine_flat. intros i Hi. apply fine_flat. intros j Hj. apply in_seq in Hi, Hj.
    unfold unb_pair. destruct (P i) as [Pi1 Pi2]; [lia|]. destruct (P j) as [Pj1 Pj2]; [lia|].
    destruct (phase _ i) as [fi ti], (phase _ j) as [fj tj]. cbn [fst snd] in *.
    apply fine_cons; [now apply fine_unb|]. repeat (apply fine_cons; [now apply fine_unb_sh|]). apply fine_nil.
  - apply fine_xf; apply H; simpl; auto.
  - pose proof (proj2 EN _ _ _ _ _ _ _ He) as NP. destruct pri as [j|]; [|congruence]. apply fine_ct; try (apply HB; simpl; auto); apply H; simpl; auto 8.
  - apply fine_slack; apply H; simpl; auto.
  - unfold switch_stampers. destruct closed; [apply fine_vs; apply H; simpl; auto|apply fine_nil].
  - apply fine_gen; apply H; simpl; auto.
  - apply fine_load; apply H; simpl; auto.
  - apply fine_vs; apply H; simpl; auto.
  - unfold shunt_stampers. apply fine_cons; [apply fine_line; auto using ground_shaped; apply H; simpl; auto|apply fine_nil].
  - unfold reg_stampers.
    match goal with |- context [xf_stampers ?x ?a ?b ?c ?d ?n ?o] =>
      pose proof (fine_xf x a b c d n o) as G1; destruct (xf_stampers x a b c d n o) as [s1 n1] end.
    match goal with |- context [vs_stampers ?x ?a ?b ?c ?d ?o] =>
      pose proof (fine_vs x a b c d o) as G2; destruct (vs_stampers x a b c d o) as [s2 n2] end.
    cbn [fst snd] in *. apply fine_app; [apply G1|apply G2]; auto using ground_shaped; apply H; simpl; auto.
  - unfold fuse_stampers.
    match goal with |- context [vs_stampers ?x ?a ?b ?c ?d ?o] =>
      pose proof (fine_vs x a b c d o) as G2; destruct (vs_stampers x a b c d o) as [s2 n2] end.
    cbn [fst snd] in *. apply fine_cons; [apply fine_line|apply G2]; apply H; simpl; auto.
  - destruct closed; [apply fine_cons; [apply fine_line; apply H; simpl; auto|apply fine_nil]|apply fine_nil].
Qed.
Lemma elems_from tbl es : forall n s, In s (fst (assign_elems opt tbl n es)) -> exists e m, In e es /\ s = fst (assign_elem opt tbl m e).
Proof.
  induction es as [|e es IH]; cbn [assign_elems]; intros n s H; [destruct H|].
  destruct (assign_elem opt tbl n e) as [s1 n1] eqn:E1. specialize (IH n1). destruct (assign_elems opt tbl n1 es) as [r n2]. cbn [fst] in *.
  destruct H as [<-|H]; [exists e, n; split; [now left|now rewrite E1]|]. destruct (IH s H) as [e' [m [He ->]]]. exists e', m. split; [now right|reflexivity].
Qed.
Lemma infeas_from l1 tbl bs : forall n s, In s (fst (assign_infeasibility l1 tbl n bs)) -> exists b m, In b bs /\ s = fst ((if l1 then l1_stampers else l2_stampers) (tbl (bus_id b)) m).
Proof.
  induction bs as [|e es IH]; cbn [assign_infeasibility]; intros n s H; [destruct H|].
  destruct ((if l1 then l1_stampers else l2_stampers) (tbl (bus_id e)) n) as [s1 n1] eqn:E1. specialize (IH n1). destruct (assign_infeasibility l1 tbl n1 es) as [r n2]. cbn [fst] in *.
  destruct H as [<-|H]; [exists e, n; split; [now left|now rewrite E1]|]. destruct (IH s H) as [e' [m [He ->]]]. exists e', m. split; [now right|reflexivity].
Qed.
Lemma stampers_cases s : In s (all_stampers a) ->
  (exists e m, In e (elements nw) /\ s = fst (assign_elem opt (as_table a) m e)) \/
  (exists b m l1, opt = true /\ In b (nw_buses nw) /\ s = fst ((if l1 : bool then l1_stampers else l2_stampers) (as_table a (bus_id b)) m)).
Proof.
  unfold all_stampers, a. rewrite table_of. unfold assign_matrix. fold opt. destruct (assign_buses opt (nw_buses nw) old 0) as [tbl n0]. cbn [fst].
  pose proof (elems_from tbl (elements nw) n0) as HE. destruct (assign_elems opt tbl n0 (elements nw)) as [ss n1]. cbn [fst] in HE.
  destruct (nw_optimization nw) as [l1|] eqn:EO; [|cbn; rewrite app_nil_r; left; eauto].
  pose proof (infeas_from l1 tbl (nw_buses nw) n1) as HI. destruct (assign_infeasibility l1 tbl n1 (nw_buses nw)) as [ii n2]. cbn [fst] in HI.
  cbn [as_stampers as_infeasibility]. rewrite in_app_iff. intros [H|H]; [left; eauto|right]. destruct (HI s H) as [b [m [Hb ->]]]. exists b, m, l1. repeat split; auto. unfold opt, optimizing. now rewrite EO.
Qed.
Lemma network_fine e : In e (equations a) -> fine opt e = true.
Proof.
  unfold equations. rewrite in_flat_map. intros [s [Hs He]]. destruct (stampers_cases s Hs) as [[x [m [Hx ->]]]|[b [m [l1 [HO [Hb ->]]]]]].
  - exact (fine_elem m x Hx e He).
  - pose proof (bus_shape b Hb) as HB. rewrite HO in *. destruct l1; [exact (fine_l1 _ m HB e He)|exact (fine_l2 _ m HB e He)].
Qed.

(** *** C143 *)
Lemma network_builds nan : exists cs ms, build_colls (stamper_list a) = Some cs /\ (forall e, In e (elements_of (stamper_list a)) -> element_ok opt e) /\ stamps_present cs /\
  build_stamper 0%R nan skey_eqb pkey_eqb rkey_eqb input_eqb opt cs = SOk ms /\ matrix_stamper nan nw a = Some ms.
Proof.
  destruct (colls_build opt (stamper_list a)) as [cs [E N]]. { intros e He. rewrite elements_of_network in He. now apply network_fine. }
  assert (Q : forall e, In e (elements_of (stamper_list a)) -> element_ok opt e).
  { intros e He. rewrite elements_of_network in He. now apply fine_element, network_fine. }
  destruct (build_ok 0%R nan skey_eqb pkey_eqb rkey_eqb input_eqb skey_eqb_eq pkey_eqb_eq rkey_eqb_eq input_eqb_sound cs (wf_cs opt _ cs E Q N) opt) as [ms [B _]].
  exists cs, ms. repeat (split; auto). unfold matrix_stamper. rewrite E. fold opt. now rewrite B.
Qed.
End Network.
