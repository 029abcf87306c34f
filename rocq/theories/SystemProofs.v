(** The whole network: traces of stamper operations and the assembled system. *)
From Coq Require Import ZArith Reals List String Bool Arith Lia Lra Permutation.
From Verif Require Import Expr Segment SpecSegment ExprProofs SegmentProofs Stamper SpecStamper StamperProofs Collect SpecSystem CollectProofs.
Import ListNotations.
Local Open Scope R_scope.

(** ** entries with the same unknown are the same entry *)
Lemma dict_add_nodup : forall d k p, NoDup (map fst d) -> NoDup (map fst (dict_add d k p)).
Proof.
  induction d as [|[k' q] d IH]; simpl; intros k p H; [repeat constructor; auto|].
  inversion H; subst. destruct (String.eqb_spec k k'); simpl; constructor; auto.
  intros Hin. apply dict_add_keys in Hin as [->|Hin]; auto.
Qed.

Lemma fold_dict_nodup : forall Y d, NoDup (map fst d) ->
  NoDup (map fst (fold_left (fun d (kv : sym * poly) => dict_add d (fst kv) (snd kv)) Y d)).
Proof. induction Y as [|[k p] Y IH]; simpl; intros d H; auto. apply IH. now apply dict_add_nodup. Qed.

Lemma split_nodup : forall vars ms c d, NoDup (map fst d) -> NoDup (map fst (snd (fold_left (split_term vars) ms (c, d)))).
Proof.
  induction ms as [|m ms IH]; intros c d H; auto.
  change (fold_left (split_term vars) (m :: ms) (c, d)) with (fold_left (split_term vars) ms (split_term vars (c, d) m)).
  destruct (split_term vars (c, d) m) as [c1 d1] eqn:E. apply IH. unfold split_term in E.
  destruct (is_constant (of_mono m) vars); [injection E as <- <-; auto|].
  destruct (is_linear (of_mono m) vars).
  - destruct (get_linear_term (of_mono m) vars); injection E as <- <-; auto. now apply dict_add_nodup.
  - destruct (linearize_expr (of_mono m) vars) as [J Y]. injection E as <- <-. now apply fold_dict_nodup.
Qed.

Lemma evals_unique : forall s x e1 e2, In e1 (dv_evals (gen_derivative s x)) -> In e2 (dv_evals (gen_derivative s x)) ->
  ev_yth e1 = ev_yth e2 -> e1 = e2.
Proof.
  intros s x e1 e2. unfold gen_derivative.
  assert (N : NoDup (map fst (snd (split_expr (diff (sg_lagrange s) x) (sg_variables s))))).
  { unfold split_expr. apply split_nodup. constructor. }
  destruct (split_expr (diff (sg_lagrange s) x) (sg_variables s)) as [c d]. simpl in *.
  unfold mk_evals.
  set (flt := fun kv : sym * poly => match snd kv with [] => [] | p => [ {| ev_yth := Some (fst kv); ev_expr := of_poly p; ev_linear := no_variable_in (of_poly p) (sg_variables s) |} ] end).
  assert (Hf : forall e, In e (flat_map flt d) -> exists k p, In (k, p) d /\ ev_yth e = Some k /\
      e = {| ev_yth := Some k; ev_expr := of_poly p; ev_linear := no_variable_in (of_poly p) (sg_variables s) |}).
  { intros e He. apply in_flat_map in He as [[k p] [Hkp He]]. unfold flt in He. simpl in He. destruct p as [|m p]; [contradiction|].
    destruct He as [<-|[]]. exists k, (m :: p). auto. }
  assert (Hc : forall e, In e (match c with [] => [] | _ => [ {| ev_yth := None; ev_expr := of_poly c; ev_linear := no_variable_in (of_poly c) (sg_variables s) |} ] end) ->
      e = {| ev_yth := None; ev_expr := of_poly c; ev_linear := no_variable_in (of_poly c) (sg_variables s) |}).
  { intros e He. destruct c; [contradiction|]. destruct He as [<-|[]]. reflexivity. }
  intros H1 H2 E. apply in_app_or in H1, H2.
  destruct H1 as [H1|H1], H2 as [H2|H2].
  - rewrite (Hc _ H1), (Hc _ H2). reflexivity.
  - rewrite (Hc _ H1) in E. apply Hf in H2 as [k [p [_ [H2 _]]]]. simpl in E. congruence.
  - rewrite (Hc _ H2) in E. apply Hf in H1 as [k [p [_ [H1 _]]]]. simpl in E. congruence.
  - apply Hf in H1 as [k1 [p1 [I1 [Y1 ->]]]]. apply Hf in H2 as [k2 [p2 [I2 [Y2 ->]]]]. simpl in E. injection E as <-.
    replace p2 with p1; auto. clear -N I1 I2.
    induction d as [|[k p] d IH]; simpl in *; [contradiction|]. inversion N; subst.
    destruct I1 as [I1|I1], I2 as [I2|I2].
    + congruence.
    + injection I1 as -> ->. exfalso. apply H1. apply (in_map fst) in I2. exact I2.
    + injection I2 as -> ->. exfalso. apply H1. apply (in_map fst) in I1. exact I1.
    + auto.
Qed.

(** ** shape of collections *)
Lemma build_stamps_shape : forall d i l ss, build_stamps d i l = Some ss -> forall q, In q ss ->
  s_in q = i /\ exists x ev, In (x, ev) l /\ s_x q = mk_expression (sd_seg d) x ev.
Proof.
  induction l as [|[x ev] l IH]; simpl; intros ss H q Hq.
  - injection H as <-. contradiction.
  - assert (Hl : forall ss', build_stamps d i l = Some ss' -> In q ss' ->
      s_in q = i /\ exists x0 ev0, ((x, ev) = (x0, ev0) \/ In (x0, ev0) l) /\ s_x q = mk_expression (sd_seg d) x0 ev0).
    { intros ss' E Hq'. destruct (IH ss' E q Hq') as [A [x0 [ev0 [B C]]]]. split; auto. exists x0, ev0. auto. }
    assert (Hc : forall r c, ocons {| s_x := mk_expression (sd_seg d) x ev; s_in := i; s_row := r; s_col := c |} (build_stamps d i l) = Some ss ->
       s_in q = i /\ exists x0 ev0, ((x, ev) = (x0, ev0) \/ In (x0, ev0) l) /\ s_x q = mk_expression (sd_seg d) x0 ev0).
    { intros r c E. destruct (build_stamps d i l) as [ss'|]; [|discriminate]. injection E as <-.
      destruct Hq as [<-|Hq]; [|now apply (Hl ss')]. simpl. split; auto. exists x, ev. auto. }
    destruct (row_index d x) as [[r|]|]; try discriminate; [|now apply (Hl ss)].
    destruct (ev_yth ev) as [y|]; [|now apply (Hc r 0%nat)].
    destruct (col_index d y) as [[c|]|]; try discriminate; [now apply (Hc r c)|now apply (Hl ss)].
Qed.

Lemma build_resids_shape : forall d i l rs, build_resids d i l = Some rs -> forall q, In q rs ->
  exists x r, In x l /\ q = mk_resid d i x r.
Proof.
  induction l as [|x l IH]; simpl; intros rs H q Hq.
  - injection H as <-. contradiction.
  - destruct (row_index d x) as [[r|]|]; try discriminate.
    + destruct (build_resids d i l) as [rs'|]; [|discriminate]. injection H as <-.
      destruct Hq as [<-|Hq]; [eauto 6|]. destruct (IH rs' eq_refl q Hq) as [x' [r' [A B]]]. eauto 6.
    + destruct (IH rs H q Hq) as [x' [r' [A B]]]. eauto 6.
Qed.

Record coll_from {M} (d : details) (cv : list R) (m : M) (ps ds : list (option nat)) (c : @coll R skey (list sym) rkey M) : Prop := {
  cf_ps : all_some (map (col_index d) (sg_primals (sd_seg d))) = Some ps;
  cf_ds : all_some (map (col_index d) (sg_duals (sd_seg d))) = Some ds;
  cf_ss : build_stamps d {| in_consts := cv; in_primals := ps; in_duals := ds |} (stamp_exprs d) = Some (c_stamps c);
  cf_rs : build_resids d {| in_consts := cv; in_primals := ps; in_duals := ds |} (first_orders d) = Some (c_resids c)
}.

Lemma build_coll_from : forall {M} (m : M) d cv c, build_coll m d cv = Some c -> exists ps ds, coll_from d cv m ps ds c.
Proof.
  intros M m d cv c H. unfold build_coll in H.
  destruct (all_some (map (col_index d) (sg_primals (sd_seg d)))) as [ps|] eqn:Ep; [|discriminate].
  destruct (all_some (map (col_index d) (sg_duals (sd_seg d)))) as [ds|] eqn:Ed; [|discriminate].
  destruct (build_stamps d _ (stamp_exprs d)) as [ss|] eqn:Es; [|discriminate].
  destruct (build_resids d _ (first_orders d)) as [rs|] eqn:Er; [|discriminate].
  injection H as <-. exists ps, ds. constructor; auto.
Qed.

Section Sys.
Context {M : Type}.
Variable nan : R.
Variable opt : bool.
Variable l : list (M * option details * list R).
Variable cs : list (@coll R skey (list sym) rkey M).
Hypothesis Hb : build_colls l = Some cs.
Hypothesis Hok : forall e, In e (elements_of l) -> element_ok opt e.
Hypothesis Hst : stamps_present cs.

Lemma build_colls_from : forall (l' : list (M * option details * list R)) cs', build_colls l' = Some cs' -> (forall e, In e (elements_of l') -> element_ok opt e) ->
  forall c, In c cs' -> exists d cv (m : M) ps ds, coll_from d cv m ps ds c /\ element_ok opt (d, cv).
Proof.
  induction l' as [|[[m [d|]] cv] l' IH]; simpl; intros cs' H Ho c Hc.
  - injection H as <-. contradiction.
  - destruct (build_coll m d cv) as [c0|] eqn:E; [|discriminate].
    destruct (build_colls l') as [cs0|]; [|discriminate]. injection H as <-. destruct Hc as [<-|Hc].
    + destruct (build_coll_from m d cv c0 E) as [ps [ds Hf]]. exists d, cv, m, ps, ds. split; auto.
    + apply (IH cs0); auto.
  - apply (IH cs'); auto.
Qed.

Lemma wf_cs : well_formed cs.
Proof.
  assert (Hf : forall c, In c cs -> exists d cv (m : M) ps ds, coll_from d cv m ps ds c /\ element_ok opt (d, cv)).
  { apply (build_colls_from l cs Hb Hok). }
  assert (Hs : forall q, In q (all_stamps cs) -> exists d cv ps ds x ev,
     element_ok opt (d, cv) /\
     all_some (map (col_index d) (sg_primals (sd_seg d))) = Some ps /\
     all_some (map (col_index d) (sg_duals (sd_seg d))) = Some ds /\
     s_in q = {| in_consts := cv; in_primals := ps; in_duals := ds |} /\
     In ev (dv_evals (gen_derivative (sd_seg d) x)) /\ s_x q = mk_expression (sd_seg d) x ev).
  { intros q Hq. unfold all_stamps in Hq. apply in_flat_map in Hq as [c [Hc Hq]].
    destruct (Hf c Hc) as [d [cv [m [ps [ds [[A B C D] E]]]]]].
    destruct (build_stamps_shape _ _ _ _ C q Hq) as [F [x [ev [G K]]]].
    exists d, cv, ps, ds, x, ev. repeat (split; auto). now apply in_stamp_exprs in G. }
  assert (Htx : forall s1 s2, sg_parameters s1 = sg_parameters s2 -> ~ In tx_factor (sg_variables s1) -> ~ In tx_factor (sg_variables s2) ->
     sg_tx_index s1 = sg_tx_index s2).
  { intros s1 s2 E N1 N2. assert (X : forall s, ~ In tx_factor (sg_variables s) -> sg_tx_index s = index_of tx_factor (sg_parameters s)).
    { intros s N. unfold sg_tx_index, sg_parameters. rewrite index_of_app. apply index_of_None in N. rewrite N.
      destruct (index_of tx_factor (sg_constants s)); auto. }
    rewrite !X by auto. congruence. }
  constructor.
  - intros q1 q2 H1 H2 E. destruct (Hs _ H1) as [d1 [cv1 [ps1 [ds1 [x1 [e1 [_ [_ [_ [_ [I1 X1]]]]]]]]]]].
    destruct (Hs _ H2) as [d2 [cv2 [ps2 [ds2 [x2 [e2 [_ [_ [_ [_ [I2 X2]]]]]]]]]]].
    rewrite X1, X2 in *. simpl in E. injection E as Es Ex Ey El Et. rewrite Es in *. subst x2.
    f_equal. eapply evals_unique; eauto.
  - intros q1 q2 H1 H2 E. destruct (Hs _ H1) as [d1 [cv1 [ps1 [ds1 [x1 [e1 [O1 [_ [_ [_ [I1 X1]]]]]]]]]]].
    destruct (Hs _ H2) as [d2 [cv2 [ps2 [ds2 [x2 [e2 [O2 [_ [_ [_ [I2 X2]]]]]]]]]]].
    rewrite X1, X2 in *. simpl in *. split; [congruence|]. apply Htx; auto.
    + apply (eo_tx _ _ O1).
    + apply (eo_tx _ _ O2).
  - intros q H1. destruct (Hs _ H1) as [d1 [cv1 [ps1 [ds1 [x1 [e1 [O1 [A [B [C [I1 X1]]]]]]]]]]].
    rewrite X1, C. simpl. now apply (input_ok_i opt).
  - intros c1 c2 r1 r2 H1 H2 R1 R2 E.
    destruct (Hf c1 H1) as [d1 [cv1 [m1 [ps1 [ds1 [[_ _ _ D1] _]]]]]].
    destruct (Hf c2 H2) as [d2 [cv2 [m2 [ps2 [ds2 [[_ _ _ D2] _]]]]]].
    destruct (build_resids_shape _ _ _ _ D1 _ R1) as [x1 [n1 [_ ->]]].
    destruct (build_resids_shape _ _ _ _ D2 _ R2) as [x2 [n2 [_ ->]]].
    simpl in E. injection E as Es Ex. simpl. rewrite Es, Ex. auto.
  - intros c r Hc Hr. destruct (Hf c Hc) as [d [cv [m [ps [ds [[A B C D] O]]]]]].
    split; [|split].
    + apply Hst; auto. intros E. rewrite E in Hr. contradiction.
    + destruct (build_resids_shape _ _ _ _ D _ Hr) as [x [n [_ ->]]]. simpl. now apply (input_ok_i opt).
    + intros q Hq. destruct (build_stamps_shape _ _ _ _ C q Hq) as [_ [x [ev [_ ->]]]].
      destruct (build_resids_shape _ _ _ _ D _ Hr) as [x' [n [_ ->]]]. simpl. auto.
Qed.

Notation evs pt := (map (stamp_event 0 nan opt pt) (all_stamps cs)).

Lemma all_linearised : forall v tx r, (forall e, In e (elements_of l) -> defined_at e v tx) ->
  let pt := {| pt_v := v; pt_tx := Some tx |} in
  rsum (evYrow v r) (evs pt) - rsum (evJ r) (evs pt) = F (elements_of l) v tx r.
Proof.
  intros v tx r Hd pt. clear Hst. revert cs Hb Hok Hd.
  induction l as [|[[m [d|]] cv] l' IH]; simpl; intros cs' H Ho Hd.
  - injection H as <-. simpl. ring.
  - destruct (build_coll m d cv) as [c0|] eqn:E; [|discriminate].
    destruct (build_colls l') as [cs0|]; [|discriminate]. injection H as <-.
    specialize (IH cs0 eq_refl (fun e h => Ho e (or_intror h)) (fun e h => Hd e (or_intror h))).
    destruct (build_coll_from m d cv c0 E) as [ps [ds [A B C D]]].
    unfold all_stamps in *. simpl. rewrite map_app, !rsum_app.
    pose proof (elem_linearised nan opt d cv (Ho (d, cv) (or_introl eq_refl)) ps ds A B v tx r _ C (Hd (d, cv) (or_introl eq_refl))) as L.
    simpl in L. fold pt in L. lra.
  - apply IH; auto.
Qed.

Lemma all_jacobian : forall v tx r c, (forall e, In e (elements_of l) -> defined_at e v tx) ->
  let pt := {| pt_v := v; pt_tx := Some tx |} in
  derivable_pt_lim (fun t => F (elements_of l) (set_v v c t) tx r) (v c) (rsum (evY r c) (evs pt)).
Proof.
  intros v tx r c Hd pt. clear Hst. revert cs Hb Hok Hd.
  induction l as [|[[m [d|]] cv] l' IH]; simpl; intros cs' H Ho Hd.
  - injection H as <-. simpl. apply (derivable_pt_lim_const 0).
  - destruct (build_coll m d cv) as [c0|] eqn:E; [|discriminate].
    destruct (build_colls l') as [cs0|]; [|discriminate]. injection H as <-.
    specialize (IH cs0 eq_refl (fun e h => Ho e (or_intror h)) (fun e h => Hd e (or_intror h))).
    destruct (build_coll_from m d cv c0 E) as [ps [ds [A B C D]]].
    unfold all_stamps in *. simpl. rewrite map_app, !rsum_app.
    apply (derivable_pt_lim_plus (fun t => elem_row (d, cv) (set_v v c t) tx r) (fun t => F (elements_of l') (set_v v c t) tx r)); auto.
    apply (elem_jacobian nan opt d cv (Ho (d, cv) (or_introl eq_refl)) ps ds A B v tx r c _ C (Hd (d, cv) (or_introl eq_refl))).
  - apply IH; auto.
Qed.

Lemma all_residuals : forall v tx r,
  let pt := {| pt_v := v; pt_tx := Some tx |} in
  Rrow (element_residuals 0 nan opt pt cs) r = F (elements_of l) v tx r.
Proof.
  intros v tx r pt. rewrite Rrow_rsum. clear Hst. revert cs Hb Hok.
  induction l as [|[[m [d|]] cv] l' IH]; simpl; intros cs' H Ho.
  - injection H as <-. reflexivity.
  - destruct (build_coll m d cv) as [c0|] eqn:E; [|discriminate].
    destruct (build_colls l') as [cs0|]; [|discriminate]. injection H as <-.
    specialize (IH cs0 eq_refl (fun e h => Ho e (or_intror h))).
    destruct (build_coll_from m d cv c0 E) as [ps [ds [A B C D]]].
    unfold element_residuals in *. simpl. rewrite rsum_app, IH. f_equal.
    rewrite rsum_map. rewrite (elem_row_rsum d cv).
    rewrite <- (elem_resid nan opt d cv (Ho (d, cv) (or_introl eq_refl)) ps ds A B v tx r _ _ D).
    apply rsum_ext. intros q _. reflexivity.
  - apply IH; auto.
Qed.

(** linear stamps do not see the unknowns *)
Lemma linear_events_const : forall v v' tx,
  element_events 0 nan opt true {| pt_v := v; pt_tx := tx |} cs = element_events 0 nan opt true {| pt_v := v'; pt_tx := tx |} cs.
Proof.
  intros v v' tx. unfold element_events. apply map_ext_in. intros q Hq.
  apply filter_In in Hq as [Hq Hl]. unfold all_stamps in Hq. apply in_flat_map in Hq as [c [Hc Hq]].
  destruct (build_colls_from l cs Hb Hok c Hc) as [d [cv [m [ps [ds [[A B C D] O]]]]]].
  destruct (build_stamps_shape _ _ _ _ C q Hq) as [Ei [x [ev [Hin Ex]]]].
  apply in_stamp_exprs in Hin as [_ Hin].
  unfold stamp_event. rewrite Ex, Ei in *. simpl in *.
  assert (E : den (ev_expr ev) (the_env nan opt d cv ps ds {| pt_v := v; pt_tx := tx |})
              = den (ev_expr ev) (the_env nan opt d cv ps ds {| pt_v := v'; pt_tx := tx |})).
  { eapply linear_entry_constant; eauto.
    - now apply Bool.eqb_prop in Hl.
    - intros y Hy. eapply the_env_nonvar; eauto. }
  unfold the_env, the_args in E. rewrite E. reflexivity.
Qed.

Lemma events_split : forall (f : @event R -> R) pt,
  rsum f (element_events 0 nan opt true pt cs) + rsum f (element_events 0 nan opt false pt cs) = rsum f (evs pt).
Proof.
  intros f pt. unfold element_events. rewrite !rsum_map.
  rewrite <- (rsum_filter2 (fun q => Bool.eqb (x_linear (s_x q)) true) (fun q => f (stamp_event 0 nan opt pt q)) (all_stamps cs)).
  f_equal. f_equal. apply filter_ext. intros q. now destruct (x_linear (s_x q)).
Qed.
End Sys.

(** ** Traces *)
Section TraceProof.
Context {T K P RK M : Type}.
Variable zero nan : T.
Variable keqb : K -> K -> bool.
Variable peqb : P -> P -> bool.
Variable rkeqb : RK -> RK -> bool.
Variable ieqb : @input T -> @input T -> bool.
Hypothesis keqb_eq : forall a b, keqb a b = true <-> a = b.
Hypothesis peqb_eq : forall a b, peqb a b = true <-> a = b.
Hypothesis rkeqb_eq : forall a b, rkeqb a b = true <-> a = b.
Hypothesis ieqb_sound : forall a b, ieqb a b = true -> a = b.
Variable cs : list (@coll T K P RK M).
Hypothesis wf : well_formed cs.

Notation rep := (represents zero nan keqb peqb rkeqb cs).

Lemma do_op_ok : forall opt ms s o, rep opt ms (op_point s) (op_iter s) ->
  let (ms', x) := do_op peqb ms o in
  let (s', y) := spec_op zero nan opt cs s o in
  rep opt ms' (op_point s') (op_iter s') /\ same_out x y.
Proof.
  intros opt ms s o H. destruct o as [tx|v k|tx v k]; cbn [do_op spec_op].
  - pose proof (stamp_linear_ok zero nan keqb peqb rkeqb cs opt ms _ _ tx H) as [A B].
    destruct (stamp_linear peqb ms tx). simpl in *. split; [exact A|exact B].
  - pose proof (stamp_nonlinear_ok zero nan keqb peqb rkeqb cs opt ms _ _ v k H) as [A B].
    destruct (stamp_nonlinear peqb ms v k) as [ms' ev]. simpl in A, B. unfold new_v, op_point in *. simpl in *.
    destruct (Z.eqb k (op_iter s)); (split; [exact A|exact B]).
  - pose proof (calc_residuals_ok zero nan keqb peqb rkeqb cs opt ms _ _ tx v k H) as [A B].
    destruct (calc_residuals peqb ms tx v k). simpl in *. split; [exact A|exact B].
Qed.

Lemma do_ops_ok : forall opt ops ms s, rep opt ms (op_point s) (op_iter s) ->
  let (ms', xs) := do_ops peqb ms ops in
  let (s', ys) := spec_ops zero nan opt cs s ops in
  rep opt ms' (op_point s') (op_iter s') /\ Forall2 same_out xs ys.
Proof.
  induction ops as [|o ops IH]; intros ms s H; simpl; [split; auto|].
  pose proof (do_op_ok opt ms s o H) as A. destruct (do_op peqb ms o) as [ms1 x].
  destruct (spec_op zero nan opt cs s o) as [s1 y]. destruct A as [A B].
  specialize (IH ms1 s1 A). destruct (do_ops peqb ms1 ops) as [ms2 xs].
  destruct (spec_ops zero nan opt cs s1 ops) as [s2 ys]. destruct IH as [C D]. split; auto.
Qed.

Theorem trace_refinement : forall opt ops, exists ms,
  build_stamper zero nan keqb peqb rkeqb ieqb opt cs = SOk ms /\
  Forall2 same_out (snd (do_ops peqb ms ops)) (snd (spec_ops zero nan opt cs (op_start zero) ops)).
Proof.
  intros opt ops. destruct (build_ok zero nan keqb peqb rkeqb ieqb keqb_eq peqb_eq rkeqb_eq ieqb_sound cs wf opt) as [ms [E H]].
  exists ms. split; auto. pose proof (do_ops_ok opt ops ms (op_start zero) H) as A.
  destruct (do_ops peqb ms ops), (spec_ops zero nan opt cs (op_start zero) ops). simpl. apply A.
Qed.
End TraceProof.

Lemma spec_iter : forall {T K P RK M} (zero nan : T) opt (cs : list (@coll T K P RK M)) ops s,
  op_iter (fst (spec_ops zero nan opt cs s ops)) = last_iter (op_iter s) ops.
Proof.
  intros T K P RK M zero nan opt cs. induction ops as [|o ops IH]; intros s; simpl; auto.
  destruct (spec_op zero nan opt cs s o) as [s1 y] eqn:E.
  specialize (IH s1). destruct (spec_ops zero nan opt cs s1 ops) as [s2 ys]. simpl in *. rewrite IH.
  destruct o; simpl in E; injection E as <- _; reflexivity.
Qed.

(** ** One Newton assembly on a stamper in any reachable state *)
Section Assembly.
Context {M : Type}.
Variable nan : R.
Variable opt : bool.
Variable l : list (M * option details * list R).
Variable cs : list (@coll R skey (list sym) rkey M).
Variable ms0 ms1 : @mstamper R skey (list sym) M.
Variable ops : list (@sop R).
Variable outs : list (@sout R M).
Variable tx : R.
Variable v w : nat -> R.
Variable k : Z.
Hypothesis Hb : build_colls l = Some cs.
Hypothesis Hok : forall e, In e (elements_of l) -> element_ok opt e.
Hypothesis Hst : stamps_present cs.
Hypothesis Hm : build_stamper 0 nan skey_eqb pkey_eqb rkey_eqb input_eqb opt cs = SOk ms0.
Hypothesis Hops : do_ops pkey_eqb ms0 ops = (ms1, outs).
Hypothesis Hk : last_iter (-1)%Z ops <> k.

Lemma assembly : exists ms2 E1 E2 Rs,
  do_ops pkey_eqb ms1 [OLinear tx; ONonlinear v k; OResiduals tx w k] = (ms2, [OutEvents E1; OutEvents E2; OutResids Rs]) /\
  let pt := {| pt_v := v; pt_tx := Some tx |} in
  (forall f : @event R -> R, rsum f (E1 ++ E2) = rsum f (map (stamp_event 0 nan opt pt) (all_stamps cs))) /\
  Permutation Rs (element_residuals 0 nan opt pt cs).
Proof.
  pose proof (wf_cs opt l cs Hb Hok Hst) as wf.
  destruct (build_ok 0 nan skey_eqb pkey_eqb rkey_eqb input_eqb skey_eqb_eq pkey_eqb_eq rkey_eqb_eq input_eqb_sound cs wf opt)
    as [ms [Em H]]. rewrite Em in Hm. injection Hm as ->.
  pose proof (do_ops_ok 0 nan skey_eqb pkey_eqb rkey_eqb cs opt ops ms0 (op_start 0) H) as A.
  pose proof (spec_iter 0 nan opt cs ops (op_start 0)) as Ei. simpl in Ei.
  rewrite Hops in A. destruct (spec_ops 0 nan opt cs (op_start 0) ops) as [s ys]. simpl in Ei. destruct A as [A _].
  pose proof (do_ops_ok 0 nan skey_eqb pkey_eqb rkey_eqb cs opt [OLinear tx; ONonlinear v k; OResiduals tx w k] ms1 s A) as B.
  destruct (do_ops pkey_eqb ms1 [OLinear tx; ONonlinear v k; OResiduals tx w k]) as [ms2 xs] eqn:E.
  cbn [spec_ops spec_op] in B. destruct B as [_ B].
  inversion B as [|x1 y1 xs1 ys1 B1 B']; subst. inversion B' as [|x2 y2 xs2 ys2 B2 B'']; subst.
  inversion B'' as [|x3 y3 xs3 ys3 B3 B4]; subst. inversion B4; subst.
  destruct x1 as [E1|]; [|contradiction]. destruct x2 as [E2|]; [|contradiction]. destruct x3 as [|Rs]; [contradiction|].
  exists ms2, E1, E2, Rs. split; [reflexivity|].
  assert (N : Z.eqb k (op_iter s) = false) by (apply Z.eqb_neq; congruence).
  unfold op_point, new_v, new_tx in B1, B2, B3. simpl in B1, B2, B3. rewrite N in B2, B3. rewrite Z.eqb_refl in B3.
  cbn zeta. split.
  - intros f. rewrite rsum_app, (rsum_perm f _ _ B1), (rsum_perm f _ _ B2).
    rewrite (linear_events_const nan opt l cs Hb Hok (op_v s) v (Some tx)).
    apply events_split.
  - exact B3.
Qed.

Lemma assembled_residual : (forall e, In e (elements_of l) -> defined_at e v tx) ->
  exists ms2 E1 E2 Rs,
  do_ops pkey_eqb ms1 [OLinear tx; ONonlinear v k; OResiduals tx w k] = (ms2, [OutEvents E1; OutEvents E2; OutResids Rs]) /\
  forall r, Rrow Rs r = Yrow (E1 ++ E2) v r - Jentry (E1 ++ E2) r /\ Rrow Rs r = F (elements_of l) v tx r.
Proof.
  intros Hd. destruct assembly as [ms2 [E1 [E2 [Rs [E [A B]]]]]]. exists ms2, E1, E2, Rs. split; auto. intros r.
  assert (X : Rrow Rs r = F (elements_of l) v tx r).
  { rewrite <- (all_residuals nan opt l cs Hb Hok v tx r). rewrite !Rrow_rsum. now apply rsum_perm. }
  split; auto. rewrite X, Yrow_rsum, Jentry_rsum, !A.
  symmetry. apply (all_linearised nan opt l cs Hb Hok v tx r Hd).
Qed.

Lemma assembled_jacobian : (forall e, In e (elements_of l) -> defined_at e v tx) ->
  exists ms2 E1 E2 Rs,
  do_ops pkey_eqb ms1 [OLinear tx; ONonlinear v k; OResiduals tx w k] = (ms2, [OutEvents E1; OutEvents E2; OutResids Rs]) /\
  forall r c, derivable_pt_lim (fun t => F (elements_of l) (set_v v c t) tx r) (v c) (Yentry (E1 ++ E2) r c).
Proof.
  intros Hd. destruct assembly as [ms2 [E1 [E2 [Rs [E [A B]]]]]]. exists ms2, E1, E2, Rs. split; auto. intros r c.
  rewrite Yentry_rsum, A. apply (all_jacobian nan opt l cs Hb Hok v tx r c Hd).
Qed.

Lemma newton_step : (forall e, In e (elements_of l) -> defined_at e v tx) ->
  exists ms2 E1 E2 Rs,
  do_ops pkey_eqb ms1 [OLinear tx; ONonlinear v k; OResiduals tx w k] = (ms2, [OutEvents E1; OutEvents E2; OutResids Rs]) /\
  forall v', (forall r, Yrow (E1 ++ E2) v' r = Jentry (E1 ++ E2) r) ->
    (forall r, F (elements_of l) v tx r + Yrow (E1 ++ E2) (fun c => v' c - v c) r = 0) /\
    ((forall c, v' c = v c) -> forall r, F (elements_of l) v tx r = 0).
Proof.
  intros Hd. destruct (assembled_residual Hd) as [ms2 [E1 [E2 [Rs [E A]]]]]. exists ms2, E1, E2, Rs. split; auto.
  intros v' Hv.
  assert (X : forall r, F (elements_of l) v tx r + Yrow (E1 ++ E2) (fun c => v' c - v c) r = 0).
  { intros r. destruct (A r) as [A1 A2]. rewrite <- A2, A1, <- (Hv r), !Yrow_rsum.
    replace (rsum (evYrow (fun c => v' c - v c) r) (E1 ++ E2)) with (rsum (evYrow v' r) (E1 ++ E2) - rsum (evYrow v r) (E1 ++ E2)).
    - ring.
    - rewrite <- rsum_minus. apply rsum_ext. intros [r' c x|r' x] _; simpl; [destruct (Nat.eqb r' r); ring|ring]. }
  split; auto. intros He r. specialize (X r). rewrite Yrow_rsum, rsum_zero in X; [lra|].
  intros [r' c x|r' x] _; simpl; auto. destruct (Nat.eqb r' r); auto. rewrite He. ring.
Qed.
End Assembly.

Lemma trace_segments : forall {M} nan opt (l : list (M * option details * list R)) cs ops,
  build_colls l = Some cs -> (forall e, In e (elements_of l) -> element_ok opt e) -> stamps_present cs ->
  exists ms, build_stamper 0 nan skey_eqb pkey_eqb rkey_eqb input_eqb opt cs = SOk ms /\
  Forall2 same_out (snd (do_ops pkey_eqb ms ops)) (snd (spec_ops 0 nan opt cs (op_start 0) ops)).
Proof.
  intros M nan opt l cs ops Hb Hok Hst.
  apply (trace_refinement 0 nan skey_eqb pkey_eqb rkey_eqb input_eqb skey_eqb_eq pkey_eqb_eq rkey_eqb_eq input_eqb_sound cs
    (wf_cs opt l cs Hb Hok Hst)).
Qed.

(** ** contributions of one element *)
Lemma flat_map_map : forall {A B C} (f : A -> B) (g : B -> list C) l, flat_map g (map f l) = flat_map (fun x => g (f x)) l.
Proof. induction l; simpl; auto. now rewrite IHl. Qed.
Lemma flat_map_flat_map : forall {A B C} (f : A -> list B) (g : B -> list C) l,
  flat_map g (flat_map f l) = flat_map (fun x => flat_map g (f x)) l.
Proof. induction l; simpl; auto. now rewrite flat_map_app, IHl. Qed.

Lemma element_contributions : forall {M} (m : M) nan opt d cv c v tx,
  build_coll m d cv = Some c -> element_ok opt (d, cv) ->
  exists rho, (forall y, In y (sg_parameters (sd_seg d)) -> rho y = sym_val (d, cv) v tx y) /\
    map (stamp_event 0 nan opt {| pt_v := v; pt_tx := Some tx |}) (c_stamps c) = contributions d rho.
Proof.
  intros M m nan opt d cv c v tx H ok. destruct (build_coll_from m d cv c H) as [ps [ds [A B C D]]].
  exists (the_env nan opt d cv ps ds {| pt_v := v; pt_tx := Some tx |}). split.
  - intros y Hy. now apply the_env_sym_val.
  - revert C. generalize (c_stamps c) as ss. unfold contributions.
    set (G := fun xe : sym * evaluation =>
       match row_index d (fst xe), ev_yth (snd xe) with
       | Some (Some r), None => [EvJ r (den (ev_expr (snd xe)) (the_env nan opt d cv ps ds {| pt_v := v; pt_tx := Some tx |}))]
       | Some (Some r), Some y => match lookup (sd_var d) y with
           | Some (Some c) => [EvY r c (den (ev_expr (snd xe)) (the_env nan opt d cv ps ds {| pt_v := v; pt_tx := Some tx |}))]
           | _ => [] end
       | _, _ => []
       end).
    intros ss C. transitivity (flat_map G (stamp_exprs d)).
    + revert ss C. generalize (stamp_exprs d) as L. induction L as [|[x ev] L IH]; simpl; intros ss C.
      * injection C as <-. reflexivity.
      * unfold G at 1. simpl. unfold col_index in C.
        destruct (row_index d x) as [[r|]|]; try discriminate; [|now apply IH].
        destruct (ev_yth ev) as [y|] eqn:Ey.
        -- destruct (lookup (sd_var d) y) as [[c'|]|]; try discriminate; [|now apply IH].
           destruct (build_stamps d _ L) as [ss'|]; [|discriminate]. injection C as <-. simpl.
           rewrite (IH ss' eq_refl). f_equal. unfold stamp_event. simpl. rewrite Ey. reflexivity.
        -- destruct (build_stamps d _ L) as [ss'|]; [|discriminate]. injection C as <-. simpl.
           rewrite (IH ss' eq_refl). f_equal. unfold stamp_event. simpl. rewrite Ey. reflexivity.
    + unfold stamp_exprs. rewrite flat_map_flat_map. apply flat_map_ext. intros x. rewrite flat_map_map. reflexivity.
Qed.

Lemma ground_value : forall d cv v v' tx y, lookup (sd_var d) y = Some None -> ~ In y (sg_constants (sd_seg d)) ->
  sym_val (d, cv) v tx y = 0 /\ sym_val (d, cv) v' tx y = 0.
Proof.
  intros d cv v v' tx y H N. unfold sym_val. simpl. apply index_of_None in N. rewrite N, H. auto.
Qed.

(** an element with residuals but no stamps, met before any stamp *)
Theorem no_stamps_refused : forall (T K P RK M : Type) (zero nan : T) keqb peqb rkeqb ieqb opt (pre : list (@coll T K P RK M)) c post,
  (forall c', In c' pre -> c_stamps c' = [] /\ c_resids c' = []) -> c_stamps c = [] -> c_resids c <> [] ->
  build_stamper zero nan keqb peqb rkeqb ieqb opt (pre ++ c :: post) = SErr NameError.
Proof.
  intros T K P RK M zero nan keqb peqb rkeqb ieqb opt pre c post HP HS HR. unfold build_stamper.
  assert (G : forall bd, bd_rsets bd = [] -> bd_last bd = None -> fold_res (add_coll keqb peqb rkeqb ieqb) (pre ++ c :: post) bd = SErr NameError).
  { induction pre as [|p pre IH]; intros bd B1 B2; cbn [app fold_res].
    - unfold add_coll. rewrite HS. cbn [fold_res]. destruct (c_resids c) as [|r rs]; [congruence|]. cbn [fold_res].
      unfold add_resid. rewrite B1, B2. reflexivity.
    - destruct (HP p (or_introl eq_refl)) as [E1 E2]. unfold add_coll. rewrite E1. cbn [fold_res]. rewrite E2. cbn [fold_res].
      apply IH; auto. intros c' H'. apply HP. right. exact H'. }
  rewrite G; reflexivity.
Qed.
