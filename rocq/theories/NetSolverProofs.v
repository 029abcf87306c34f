(** The Newton solver on the stamper of a network of elements. *)
From Coq Require Import List Bool Arith ZArith Reals Lra Lia Permutation.
From Verif Require Import Expr Segment Stamper SpecStamper StamperProofs Builder SpecBuilder BuilderProofs Residual SpecResidual ResidualProofs
  Collect SpecSystem CollectProofs SystemProofs Solver SpecSolver SolverProofs.
Import ListNotations.
Local Open Scope R_scope.

(** the product with a vector only depends on the summed entries *)
Fixpoint csum (n : nat) (f : nat -> R) : R := match n with O => 0 | S n => csum n f + f n end.
Lemma csum_plus : forall n f g, csum n (fun c => f c + g c) = csum n f + csum n g.
Proof. induction n; simpl; intros; [ring|]. rewrite IHn. ring. Qed.
Lemma csum_ext : forall n f g, (forall c, (c < n)%nat -> f c = g c) -> csum n f = csum n g.
Proof. induction n; simpl; intros; auto. rewrite (IHn f g), H; auto. Qed.
Lemma csum_one : forall n j x, (j < n)%nat -> csum n (fun c => if Nat.eqb j c then x c else 0) = x j.
Proof.
  induction n; simpl; intros j x H; [lia|]. destruct (Nat.eq_dec j n) as [->|N].
  - rewrite Nat.eqb_refl. rewrite (csum_ext n _ (fun _ => 0)).
    + assert (Z : csum n (fun _ => 0) = 0) by (clear; induction n; simpl; lra). rewrite Z. ring.
    + intros c Hc. replace (Nat.eqb n c) with false by (symmetry; apply Nat.eqb_neq; lia). auto.
  - replace (Nat.eqb j n) with false by (symmetry; apply Nat.eqb_neq; lia). rewrite IHn by lia. ring.
Qed.
Lemma mat_row_csum : forall es v r n, (forall e, In e es -> (snd (fst e) < n)%nat) ->
  mat_row es v r = csum n (fun c => mat_at es r c * v c).
Proof.
  induction es as [|[[i j] x] es IH]; intros v r n H; simpl.
  - induction n; simpl; auto. rewrite <- IHn by (intros e []). ring.
  - rewrite (IH v r n) by (intros; apply H; right; auto).
    pose proof (H (i, j, x) (or_introl eq_refl)) as Hj. simpl in Hj.
    rewrite (csum_ext n (fun c => ((if Nat.eqb i r && Nat.eqb j c then x else 0) + mat_at es r c) * v c)
      (fun c => (if Nat.eqb j c then (if Nat.eqb i r then x * v c else 0) else 0) + mat_at es r c * v c)).
    + rewrite csum_plus, csum_one by auto. reflexivity.
    + intros c _. destruct (Nat.eqb i r), (Nat.eqb j c); simpl; ring.
Qed.
Lemma mat_row_nz : forall l v r n, (forall e, In e (nonzeroY l) -> (snd (fst e) < n)%nat) ->
  Yrow l v r = csum n (fun c => Yentry l r c * v c).
Proof.
  intros l v r n H. rewrite <- mat_row_nonzeroY, (mat_row_csum _ v r n H). apply csum_ext. intros. now rewrite mat_at_nonzeroY.
Qed.
Lemma col_bound : forall (es : list (nat * nat * R)), exists n, forall e, In e es -> (snd (fst e) < n)%nat.
Proof.
  induction es as [|e es [n IH]]; [exists 0%nat; intros e []|]. exists (S (Nat.max n (snd (fst e)))).
  intros x [<-|H]; [lia|]. specialize (IH x H). lia.
Qed.
Lemma mat_row_entry : forall es ev v r, (forall r c, mat_at es r c = Yentry ev r c) -> mat_row es v r = Yrow ev v r.
Proof.
  intros es ev v r H. destruct (col_bound es) as [n1 H1]. destruct (col_bound (nonzeroY ev)) as [n2 H2].
  rewrite (mat_row_csum es v r (n1 + n2)) by (intros e He; specialize (H1 e He); lia).
  rewrite (mat_row_nz ev v r (n1 + n2)) by (intros e He; specialize (H2 e He); lia).
  apply csum_ext. intros. now rewrite H.
Qed.

Section Net.
Context {M So : Type}.
Variable nan : R.
Variable opt : bool.
Variable l : list (M * option details * list R).
Variable cs : list (@coll R skey (list sym) rkey M).
Variable ms0 : @mstamper R skey (list sym) M.
Hypothesis Hb : build_colls l = Some cs.
Hypothesis Hok : forall e, In e (elements_of l) -> element_ok opt e.
Hypothesis Hst : stamps_present cs.
Hypothesis Hm : build_stamper 0 nan skey_eqb pkey_eqb rkey_eqb input_eqb opt cs = SOk ms0.

Definition at_net (st : @mstamper R skey (list sym) M) (w : nat -> R) (txo : option R) (j : Z) : Prop :=
  represents 0 nan skey_eqb pkey_eqb rkey_eqb cs opt st {| pt_v := w; pt_tx := txo |} j.
Definition net_EL (w : nat -> R) (tx : R) := element_events 0 nan opt true {| pt_v := w; pt_tx := Some tx |} cs.
Definition net_EN (w : nat -> R) (tx : R) := element_events 0 nan opt false {| pt_v := w; pt_tx := Some tx |} cs.
Definition net_RS (w : nat -> R) (tx : R) := element_residuals 0 nan opt {| pt_v := w; pt_tx := Some tx |} cs.

Lemma net_lin : forall st w tx0 j tx, at_net st w tx0 j ->
  at_net (fst (stamp_linear pkey_eqb st tx)) w (Some tx) j /\ Permutation (snd (stamp_linear pkey_eqb st tx)) (net_EL w tx).
Proof. intros st w tx0 j tx H. exact (stamp_linear_ok 0 nan skey_eqb pkey_eqb rkey_eqb cs opt st _ j tx H). Qed.

Lemma net_nl : forall st w tx j v k, at_net st w (Some tx) j ->
  let u := if Z.eqb k j then w else v in
  at_net (fst (stamp_nonlinear pkey_eqb st v k)) u (Some tx) k /\ Permutation (snd (stamp_nonlinear pkey_eqb st v k)) (net_EN u tx).
Proof.
  intros st w tx j v k H. pose proof (stamp_nonlinear_ok 0 nan skey_eqb pkey_eqb rkey_eqb cs opt st _ j v k H) as X.
  simpl in X. unfold at_net, net_EN. destruct (Z.eqb k j); exact X.
Qed.

Lemma net_res : forall st w tx0 j tx v k, at_net st w tx0 j ->
  let u := if Z.eqb k j then w else v in
  at_net (fst (calc_residuals pkey_eqb st tx v k)) u (Some tx) k /\ Permutation (snd (calc_residuals pkey_eqb st tx v k)) (net_RS u tx).
Proof. intros st w tx0 j tx v k H. exact (calc_residuals_ok 0 nan skey_eqb pkey_eqb rkey_eqb cs opt st _ j tx v k H). Qed.

Lemma net_const : forall v w tx, net_EL v tx = net_EL w tx.
Proof. intros v w tx. apply (linear_events_const nan opt l cs Hb Hok). Qed.

Lemma net_skip : forall st w tx0 j v v', at_net st w tx0 j -> stamp_nonlinear pkey_eqb st v j = stamp_nonlinear pkey_eqb st v' j.
Proof.
  intros st w tx0 j v v' [bd [H ->]]. unfold stamp_nonlinear. rewrite !on_builders_v, Z.eqb_refl. reflexivity.
Qed.

(** a stamper reached by any calls *)
Lemma net_reached : forall ops st outs, do_ops pkey_eqb ms0 ops = (st, outs) ->
  let s := fst (spec_ops 0 nan opt cs (op_start 0) ops) in at_net st (op_v s) (op_tx s) (last_iter (-1)%Z ops).
Proof.
  intros ops st outs H. pose proof (wf_cs opt l cs Hb Hok Hst) as wf.
  destruct (build_ok 0 nan skey_eqb pkey_eqb rkey_eqb input_eqb skey_eqb_eq pkey_eqb_eq rkey_eqb_eq input_eqb_sound cs wf opt)
    as [ms [Em Hr]]. rewrite Em in Hm. injection Hm as ->.
  pose proof (do_ops_ok 0 nan skey_eqb pkey_eqb rkey_eqb cs opt ops ms0 (op_start 0) Hr) as A.
  pose proof (spec_iter 0 nan opt cs ops (op_start 0)) as Ei. simpl in Ei.
  rewrite H in A. destruct (spec_ops 0 nan opt cs (op_start 0) ops) as [s ys]. simpl in *. destruct A as [A _].
  rewrite <- Ei. exact A.
Qed.

Lemma net_residual_F : forall u tx r, Rrow (net_RS u tx) r = F (elements_of l) u tx r.
Proof. intros. apply (all_residuals nan opt l cs Hb Hok). Qed.

Lemma net_events_rsum : forall (f : @event R -> R) u tx,
  rsum f (net_EL u tx ++ net_EN u tx) = rsum f (map (stamp_event 0 nan opt {| pt_v := u; pt_tx := Some tx |}) (all_stamps cs)).
Proof. intros. rewrite rsum_app. apply events_split. Qed.

Lemma net_system : forall n u tx lin J, (forall e, In e (elements_of l) -> defined_at e u tx) ->
  system_at net_EL net_EN n u tx lin J -> linearised_at (elements_of l) tx u lin J.
Proof.
  intros n u tx lin J Hd [A [B [C D]]]. split.
  - intros r c. rewrite B, Yentry_rsum, net_events_rsum. apply (all_jacobian nan opt l cs Hb Hok u tx r c Hd).
  - intros r Hr. rewrite D by lia. rewrite C, Jentry_rsum, Yrow_rsum, !net_events_rsum.
    pose proof (all_linearised nan opt l cs Hb Hok u tx r Hd) as E. lra.
Qed.

Variable spsolve : So -> list (nat * nat * R) -> list R -> So * option (list R).
Variable limiting : option (list R -> list R -> option (list R)).
Variable cfg : settings.
Notation run := (network_run spsolve limiting cfg).

Lemma net_success : forall ops st outs so v0 tx v k st' so',
  do_ops pkey_eqb ms0 ops = (st, outs) ->
  run st so v0 tx = NOk true v k st' so' ->
  exists u lin stale J so0,
    spsolve so0 (lin ++ stale) J = (so', Some v) /\
    (set_debug cfg = true \/ k = 0%nat -> stale = []) /\
    length J = length v0 /\
    (forall r, (r < length v)%nat -> Rabs (F (elements_of l) u tx r) < set_tolerance cfg) /\
    ((forall e, In e (elements_of l) -> defined_at e u tx) -> linearised_at (elements_of l) tx u lin J) /\
    (k = 0%nat -> u = if Z.eqb 0 (last_iter (-1)%Z ops) then op_v (fst (spec_ops 0 nan opt cs (op_start 0) ops)) else vec v0).
Proof.
  intros ops st outs so v0 tx v k st' so' Hops H.
  destruct (run_success _ _ _ _ _ _ at_net net_EL net_EN net_RS net_lin net_nl net_res net_const _ _ _ _ _ _ _ _ _ _ _
             (net_reached ops st outs Hops) H) as [u [[es [J [lin [stale [so0 [A [B [C [D [E [G [I L]]]]]]]]]]]] U]].
  subst es. exists u, lin, stale, J, so0. split; [exact A|]. split; [intros [X|X]; auto|]. split; [apply C|]. split; [|split].
  - intros r Hr. rewrite <- net_residual_F. now apply G.
  - intros Hd. eapply net_system; eauto.
  - auto.
Qed.

Lemma net_newton : forall ops st outs so v0 tx v k st' so',
  do_ops pkey_eqb ms0 ops = (st, outs) ->
  (forall so es J so' v, spsolve so es J = (so', Some v) -> exact_solution es J v) ->
  (forall u e, In e (elements_of l) -> defined_at e u tx) ->
  set_debug cfg = true ->
  run st so v0 tx = NOk true v k st' so' ->
  exists u lin, (forall r c, derivable_pt_lim (fun t => F (elements_of l) (set_v u c t) tx r) (u c) (mat_at lin r c)) /\
    (forall r, (r < length v0)%nat -> Rabs (F (elements_of l) u tx r) < set_tolerance cfg /\
        F (elements_of l) u tx r + mat_row lin (fun c => vec v c - u c) r = 0).
Proof.
  intros ops st outs so v0 tx v k st' so' Hops Hex Hd Hdbg H.
  destruct (net_success _ _ _ _ _ _ _ _ _ _ Hops H) as [u [lin [stale [J [so0 [A [B [C [D [E _]]]]]]]]]].
  rewrite B, app_nil_r in A by auto. destruct (Hex _ _ _ _ _ A) as [X1 X2]. destruct (E (Hd u)) as [E1 E2].
  exists u, lin. split; auto. intros r Hr. split; [apply D; lia|].
  rewrite mat_row_minus, X2 by lia. rewrite E2 by lia. ring.
Qed.

(** the first system of a run *)
Lemma net_first : forall ops st outs v0 tx,
  do_ops pkey_eqb ms0 ops = (st, outs) -> (0 < set_max_iters cfg)%nat ->
  let u := if Z.eqb 0 (last_iter (-1)%Z ops) then op_v (fst (spec_ops 0 nan opt cs (op_start 0) ops)) else vec v0 in
  forall es J, network_run (fun _ es J => (Some (es, J), None)) limiting cfg st None v0 tx = NErr NSolve (Some (es, J)) ->
  (forall e, In e (elements_of l) -> defined_at e u tx) -> linearised_at (elements_of l) tx u es J.
Proof.
  intros ops st outs v0 tx Hops Hmx u es J H Hd.
  destruct (run_first_system (stamp_linear pkey_eqb) (stamp_nonlinear pkey_eqb) (calc_residuals pkey_eqb)
             (fun _ es J => (Some (es, J), None)) limiting cfg at_net net_EL net_EN net_lin net_nl net_const
             st _ _ _ None v0 tx (net_reached ops st outs Hops) Hmx) as [[e E]|[lin [J' [S E]]]].
  - unfold network_run in H. rewrite H in E. discriminate.
  - simpl in E. unfold network_run in H. rewrite H in E. injection E as -> ->. eapply net_system; eauto.
Qed.

(** a run that follows one which ended in iteration 0 *)
Lemma net_start_irrelevant : forall ops st outs so v0 v0' tx,
  do_ops pkey_eqb ms0 ops = (st, outs) -> last_iter (-1)%Z ops = 0%Z -> limiting = None -> length v0 = length v0' ->
  run st so v0 tx = run st so v0' tx.
Proof.
  intros ops st outs so v0 v0' tx Hops Hk Hl Hn. pose proof (net_reached ops st outs Hops) as A. simpl in A. rewrite Hk in A.
  exact (run_start_irrelevant _ _ _ spsolve limiting cfg at_net net_EL net_lin net_skip st _ _ so v0 v0' tx Hl A Hn).
Qed.

Lemma net_second_run : forall ops st outs so v0 tx b v st' so' v1 v2 tx' so'',
  do_ops pkey_eqb ms0 ops = (st, outs) -> last_iter (-1)%Z ops <> 0%Z -> limiting = None ->
  run st so v0 tx = NOk b v 0 st' so' -> length v1 = length v2 ->
  run st' so'' v1 tx' = run st' so'' v2 tx'.
Proof.
  intros ops st outs so v0 tx b v st' so' v1 v2 tx' so'' Hops Hk Hl H Hn.
  destruct (run_state _ _ _ spsolve limiting cfg at_net net_EL net_EN net_RS net_lin net_nl net_res _ _ _ _ _ _ _ _ _ _ _ _
             (net_reached ops st outs Hops) H) as [u [A _]].
  exact (run_start_irrelevant _ _ _ spsolve limiting cfg at_net net_EL net_lin net_skip st' _ _ so'' v1 v2 tx' Hl A Hn).
Qed.

Lemma net_second_run_point : forall ops st outs so v0 tx b v st' so' v1 tx' es J,
  do_ops pkey_eqb ms0 ops = (st, outs) -> last_iter (-1)%Z ops <> 0%Z -> (0 < set_max_iters cfg)%nat ->
  run st so v0 tx = NOk b v 0 st' so' ->
  network_run (fun _ es J => (Some (es, J), None)) limiting cfg st' None v1 tx' = NErr NSolve (Some (es, J)) ->
  (forall e, In e (elements_of l) -> defined_at e (vec v0) tx') -> linearised_at (elements_of l) tx' (vec v0) es J.
Proof.
  intros ops st outs so v0 tx b v st' so' v1 tx' es J Hops Hk Hmx H H2 Hd.
  destruct (run_state _ _ _ spsolve limiting cfg at_net net_EL net_EN net_RS net_lin net_nl net_res _ _ _ _ _ _ _ _ _ _ _ _
             (net_reached ops st outs Hops) H) as [u [A B]].
  specialize (B eq_refl). replace (Z.eqb 0 (last_iter (-1) ops)) with false in B by (symmetry; apply Z.eqb_neq; auto). subst u.
  destruct (run_first_system (stamp_linear pkey_eqb) (stamp_nonlinear pkey_eqb) (calc_residuals pkey_eqb)
             (fun _ es J => (Some (es, J), None)) limiting cfg at_net net_EL net_EN net_lin net_nl net_const
             st' _ _ _ None v1 tx' A Hmx) as [[e E]|[lin [J' [S E]]]].
  - unfold network_run in H2. rewrite H2 in E. discriminate.
  - simpl in E, S. unfold network_run in H2. rewrite H2 in E. injection E as -> ->. eapply net_system; eauto.
Qed.

(** linear networks *)
Lemma net_linear : forall ops st outs so v0 tx,
  do_ops pkey_eqb ms0 ops = (st, outs) -> last_iter (-1)%Z ops <> 0%Z ->
  limiting = None -> set_debug cfg = false -> (2 <= set_max_iters cfg)%nat -> 0 < set_tolerance cfg ->
  (forall q, In q (all_stamps cs) -> x_linear (s_x q) = true) ->
  (1 <= length v0)%nat ->
  (forall q, In q (all_stamps cs) -> (s_row q < length v0)%nat) ->
  (forall c q, In c cs -> In q (c_resids c) -> (r_row q < length v0)%nat) ->
  (forall u e, In e (elements_of l) -> defined_at e u tx) ->
  (forall so es J, length J = length v0 -> (forall u, linearised_at (elements_of l) tx u es J) ->
     exists so' v, spsolve so es J = (so', Some v) /\ exact_solution es J v) ->
  exists v k st' so', run st so v0 tx = NOk true v k st' so' /\ (k <= 1)%nat /\ length v = length v0 /\
    forall r, (r < length v0)%nat -> F (elements_of l) (vec v) tx r = 0.
Proof.
  intros ops st outs so v0 tx Hops Hk Hlim Hd Hmx Ht Hlin Hn Hr1 Hr2 Hdef Hsol.
  assert (HN : forall u, net_EN u tx = []).
  { intros u. unfold net_EN, element_events. replace (filter _ (all_stamps cs)) with (@nil (@stamp R skey (list sym))); auto.
    symmetry. assert (X : forall q, In q (all_stamps cs) -> Bool.eqb (x_linear (s_x q)) false = false) by (intros q Hq; now rewrite Hlin).
    revert X. generalize (all_stamps cs) as L. induction L as [|q L IH]; simpl; intros X; auto. rewrite X by auto. apply IH. auto. }
  set (w := op_v (fst (spec_ops 0 nan opt cs (op_start 0) ops))).
  assert (HA : forall u r, Rrow (net_RS u tx) r = Yrow (net_EL w tx) u r - Jentry (net_EL w tx) r).
  { intros u r. rewrite net_residual_F, <- (all_linearised nan opt l cs Hb Hok u tx r (Hdef u)).
    rewrite <- !net_events_rsum, HN, app_nil_r, (net_const w u), Yrow_rsum, Jentry_rsum. reflexivity. }
  destruct (run_linear (stamp_linear pkey_eqb) (stamp_nonlinear pkey_eqb) (calc_residuals pkey_eqb) spsolve limiting cfg
     at_net net_EL net_EN net_RS net_lin net_nl net_res st w _ _ so v0 tx (net_reached ops st outs Hops) Hk Hlim Hd Hmx Ht HN Hn)
     as [v [k [st' [so' [A [B [C D]]]]]]].
  - intros r x Hin. unfold net_EL, element_events in Hin. apply in_map_iff in Hin as [q [E Hq]].
    apply filter_In in Hq as [Hq _]. apply Hr1 in Hq. unfold stamp_event in E. destruct (x_isJ (s_x q)); [|discriminate].
    injection E as <- _. exact Hq.
  - intros u q Hq. unfold net_RS, element_residuals in Hq. apply in_flat_map in Hq as [c [Hc Hq]].
    apply in_map_iff in Hq as [z [<- Hz]]. simpl. eapply Hr2; eauto.
  - exact HA.
  - intros so1 es J HJ Hes HJr. apply Hsol; auto. intros u. apply (net_system (length v0) u tx es J (Hdef u)).
    split; [auto|]. rewrite HN, app_nil_r, (net_const u w). split; [auto|]. split; [|auto].
    intros v r. revert r. assert (X : forall r c, mat_at es r c = Yentry (net_EL w tx) r c) by exact Hes.
    intros r. apply mat_row_entry. auto.
  - exists v, k, st', so'. split; [exact A|]. split; [auto|]. split; [auto|]. intros r Hr. rewrite <- net_residual_F. auto.
Qed.
End Net.
