(** Property theorems C16-C20 and C25 (src/logic/nrsolver.py on the stamper of src/logic/stamping/matrixstamper.py). *)
From Coq Require Import String ZArith Reals List Bool Arith Lia Lra Permutation.
From Verif Require Import Expr Segment Builder SpecBuilder Residual Stamper SpecStamper Collect SpecSystem SystemProofs
  Solver SpecSolver SolverProofs NetSolverProofs SolverWitness.
Import ListNotations.
Local Open Scope R_scope.

(** C16 (the expectation is false): for every tolerance there is a network on which an exact linear solver
    leads to success with a returned vector whose residual is above the tolerance. *)
Theorem C16_success_does_not_certify_refuted : forall tol n, 0 < tol -> (1 <= n)%nat ->
  exists (l : list (nat * option details * list R)) cs ms0 v0 v st',
    build_colls l = Some cs /\ (forall e, In e (elements_of l) -> element_ok false e) /\ stamps_present cs /\
    build_stamper 0 0 skey_eqb pkey_eqb rkey_eqb input_eqb false cs = SOk ms0 /\
    network_run scalar_solve None {| set_tolerance := tol; set_max_iters := n; set_debug := false |} ms0 tt v0 0 = NOk true v 0 st' tt /\
    length v = 1%nat /\ tol < Rabs (F (elements_of l) (vec v) 0 0).
Proof. exact success_uncertified. Qed.
Print Assumptions C16_success_does_not_certify_refuted.

Theorem C16_witness_solver_is_exact : forall so es J so' v, scalar_solve so es J = (so', Some v) -> exact_solution es J v.
Proof. exact scalar_solve_exact. Qed.
Print Assumptions C16_witness_solver_is_exact.

(** C17: what success does certify, for a stamper in any state reached by earlier calls: the returned vector is the linear solver's answer for the system linearised at
    a vector [u] whose residual is below the tolerance (plus entries left over in the matrix builder, absent
    in debug mode and in iteration 0). *)
Theorem C17_success_certifies :
  forall (M So : Type) nan opt (l : list (M * option details * list R)) cs ms0,
  build_colls l = Some cs -> (forall e, In e (elements_of l) -> element_ok opt e) -> stamps_present cs ->
  build_stamper 0 nan skey_eqb pkey_eqb rkey_eqb input_eqb opt cs = SOk ms0 ->
  forall (spsolve : So -> list (nat * nat * R) -> list R -> So * option (list R)) limiting cfg ops st outs so v0 tx v k st' so',
  do_ops pkey_eqb ms0 ops = (st, outs) ->
  network_run spsolve limiting cfg st so v0 tx = NOk true v k st' so' ->
  exists u lin stale J so0,
    spsolve so0 (lin ++ stale) J = (so', Some v) /\
    (set_debug cfg = true \/ k = 0%nat -> stale = []) /\
    length J = length v0 /\
    (forall r, (r < length v)%nat -> Rabs (F (elements_of l) u tx r) < set_tolerance cfg) /\
    ((forall e, In e (elements_of l) -> defined_at e u tx) -> linearised_at (elements_of l) tx u lin J) /\
    (k = 0%nat -> u = if Z.eqb 0 (last_iter (-1)%Z ops) then op_v (fst (spec_ops 0 nan opt cs (op_start 0) ops)) else vec v0).
Proof. exact (@net_success). Qed.
Print Assumptions C17_success_certifies.

(** C17: with an exact solver and debug checks the returned vector is one exact Newton step from such a [u]. *)
Theorem C17_one_newton_step_away :
  forall (M So : Type) nan opt (l : list (M * option details * list R)) cs ms0,
  build_colls l = Some cs -> (forall e, In e (elements_of l) -> element_ok opt e) -> stamps_present cs ->
  build_stamper 0 nan skey_eqb pkey_eqb rkey_eqb input_eqb opt cs = SOk ms0 ->
  forall (spsolve : So -> list (nat * nat * R) -> list R -> So * option (list R)) limiting cfg ops st outs so v0 tx v k st' so',
  do_ops pkey_eqb ms0 ops = (st, outs) ->
  (forall so es J so' v, spsolve so es J = (so', Some v) -> exact_solution es J v) ->
  (forall u e, In e (elements_of l) -> defined_at e u tx) ->
  set_debug cfg = true ->
  network_run spsolve limiting cfg st so v0 tx = NOk true v k st' so' ->
  exists u lin, (forall r c, derivable_pt_lim (fun t => F (elements_of l) (set_v u c t) tx r) (u c) (mat_at lin r c)) /\
    (forall r, (r < length v0)%nat -> Rabs (F (elements_of l) u tx r) < set_tolerance cfg /\
        F (elements_of l) u tx r + mat_row lin (fun c => vec v c - u c) r = 0).
Proof. exact (@net_newton). Qed.
Print Assumptions C17_one_newton_step_away.

(** C18: the number of linear solves is bounded by max_iters whatever the parts do, and the reported
    iteration number is one less than the number of solves. *)
Theorem C18_bounded : forall (M St So : Type) st_linear st_nonlinear (st_residuals : St -> R -> (nat -> R) -> Z -> St * list (M * nat * R))
    (spsolve : So -> list (nat * nat * R) -> list R -> So * option (list R)) limiting cfg (cnt : So -> nat),
  (forall so es J, cnt (fst (spsolve so es J)) = S (cnt so)) ->
  forall st so v0 tx,
  let r := nr_run st_linear st_nonlinear st_residuals spsolve limiting cfg st so v0 tx in
  (cnt (so_of r) <= cnt so + set_max_iters cfg)%nat /\
  (forall b v k st' so', r = NOk b v k st' so' -> (k < set_max_iters cfg)%nat /\ (cnt so' = cnt so + S k)%nat) /\
  (set_max_iters cfg = 0%nat -> exists e, r = NErr e so).
Proof. exact (@run_bounded). Qed.
Print Assumptions C18_bounded.

(** C18: giving up before the budget is spent only happens after a multiple of 50 iterations. *)
Theorem C18_early_failure : forall (M St So : Type) st_linear st_nonlinear (st_residuals : St -> R -> (nat -> R) -> Z -> St * list (M * nat * R))
    (spsolve : So -> list (nat * nat * R) -> list R -> So * option (list R)) limiting cfg st so v0 tx v k st' so',
  nr_run st_linear st_nonlinear st_residuals spsolve limiting cfg st so v0 tx = NOk false v k st' so' ->
  (S k < set_max_iters cfg)%nat -> (S k mod 50 = 0)%nat.
Proof. exact (@run_early_failure). Qed.
Print Assumptions C18_early_failure.

(** a solver that counts its calls exists *)
Example C18_nonvacuous : exists (spsolve : nat -> list (nat * nat * R) -> list R -> nat * option (list R)),
  forall so es J, (fun n => n) (fst (spsolve so es J)) = S so.
Proof. exists (fun n _ J => (S n, Some J)). reflexivity. Qed.

(** C19: for every tolerance there is a network and a start from which the 50th iteration meets the
    tolerance but the run is reported as failed; the same iterates started one step later are a success.
    [rd] is the residual report the caller receives next to the failure. *)
Theorem C19_converged_run_discarded : forall tol n, 0 < tol -> (50 <= n)%nat ->
  let cfg := {| set_tolerance := tol; set_max_iters := n; set_debug := false |} in
  exists (l : list (nat * option details * list R)) cs ms0 x0 x1 v st' rd,
    build_colls l = Some cs /\ (forall e, In e (elements_of l) -> element_ok false e) /\ stamps_present cs /\
    build_stamper 0 0 skey_eqb pkey_eqb rkey_eqb input_eqb false cs = SOk ms0 /\
    network_run scalar_solve None cfg ms0 tt [x0] 0 = NOk false v 49 st' tt /\
    mk_residual_details (snd (calc_residuals pkey_eqb st' 0 (vec v) 49%Z)) 1 = Some rd /\ rd_max rd < tol /\
    exists st1, network_run scalar_solve None cfg ms0 tt [x1] 0 = NOk true v 48 st1 tt.
Proof. exact converged_run_discarded. Qed.
Print Assumptions C19_converged_run_discarded.

(** C19: the slope used by the check is the slope of the least squares line through the history. *)
Theorem C19_slope_is_least_squares : forall h m, (2 <= length h)%nat -> (is_least_squares_slope h m <-> m = lsq_slope h).
Proof. exact lsq_slope_correct. Qed.
Print Assumptions C19_slope_is_least_squares.

Example C19_slope_example : lsq_slope [1; 3; 5; 7] = 2 /\ lsq_slope [3; 0; 0] = -3 / 2.
Proof. unfold lsq_slope. simpl. split; field. Qed.

(** C20: a network with linear stamps only and an exact linear solver. *)
Theorem C20_linear_two_iterations :
  forall (M So : Type) nan opt (l : list (M * option details * list R)) cs ms0,
  build_colls l = Some cs -> (forall e, In e (elements_of l) -> element_ok opt e) -> stamps_present cs ->
  build_stamper 0 nan skey_eqb pkey_eqb rkey_eqb input_eqb opt cs = SOk ms0 ->
  forall (spsolve : So -> list (nat * nat * R) -> list R -> So * option (list R)) limiting cfg ops st outs so v0 tx,
  do_ops pkey_eqb ms0 ops = (st, outs) -> last_iter (-1)%Z ops <> 0%Z ->
  limiting = None -> set_debug cfg = false -> (2 <= set_max_iters cfg)%nat -> 0 < set_tolerance cfg ->
  (forall q, In q (all_stamps cs) -> x_linear (s_x q) = true) ->
  (1 <= length v0)%nat ->
  (forall q, In q (all_stamps cs) -> (s_row q < length v0)%nat) ->
  (forall c q, In c cs -> In q (c_resids c) -> (r_row q < length v0)%nat) ->
  (forall u e, In e (elements_of l) -> defined_at e u tx) ->
  (forall so es J, length J = length v0 -> (forall u, linearised_at (elements_of l) tx u es J) ->
     exists so' v, spsolve so es J = (so', Some v) /\ exact_solution es J v) ->
  exists v k st' so', network_run spsolve limiting cfg st so v0 tx = NOk true v k st' so' /\ (k <= 1)%nat /\ length v = length v0 /\
    forall r, (r < length v0)%nat -> F (elements_of l) (vec v) tx r = 0.
Proof. exact (@net_linear). Qed.
Print Assumptions C20_linear_two_iterations.

(** a linear network: the equation d x + e = 0 *)
Definition lin_segment : segment := {|
  sg_lagrange := Mul (Sym "lam"%string) (Add (Mul (Sym "D"%string) (Sym "x"%string)) (Sym "E"%string));
  sg_constants := ["D"; "E"]%string; sg_primals := ["x"]%string; sg_duals := ["lam"]%string |}.
Definition lin_net (d e : R) : list (nat * option details * list R) :=
  [(0%nat, Some {| sd_seg := lin_segment; sd_var := [("x"%string, Some 0%nat); ("lam"%string, None)]; sd_eqn := None; sd_opt := false |}, [d; e])].

Example C20_nonvacuous : forall d e x0 tol n, d <> 0 -> 0 < tol -> (2 <= n)%nat ->
  exists cs ms0 v k st', build_colls (lin_net d e) = Some cs /\ build_stamper 0 0 skey_eqb pkey_eqb rkey_eqb input_eqb false cs = SOk ms0 /\
    network_run scalar_solve' None {| set_tolerance := tol; set_max_iters := n; set_debug := false |} ms0 tt [x0] 0 = NOk true v k st' tt /\
    (k <= 1)%nat /\ d * vec v 0%nat + e = 0.
Proof.
  intros d e x0 tol n Hd Ht Hn.
  assert (Hok : forall x, In x (elements_of (lin_net d e)) -> element_ok false x).
  { intros x [<-|[]]. constructor; try reflexivity; simpl.
    - repeat constructor; simpl; intuition congruence.
    - unfold tx_factor. intuition congruence.
    - intros y. simpl. tauto.
    - intros _ y [<-|[]]. reflexivity.
    - tauto. }
  assert (Hdef : forall u x, In x (elements_of (lin_net d e)) -> defined_at x u 0).
  { intros u x [<-|[]]. unfold defined_at; simpl; repeat split; intros; lia. }
  assert (HF : forall u, F (elements_of (lin_net d e)) u 0 0 = d * u 0%nat + e) by (intros; vm_compute; ring).
  destruct (build_colls (lin_net d e)) as [cs|] eqn:E; [|exfalso; revert E; cbv -[Rplus Rmult IZR Rminus]; discriminate].
  assert (E' := E). cbv -[Rplus Rmult IZR Rminus] in E'. injection E' as Ecs.
  assert (Hs : stamps_present cs) by (subst cs; intros c [<-|[]] _ H; discriminate H).
  destruct (trace_segments 0 false (lin_net d e) cs [] E Hok Hs) as [ms0 [Em _]].
  destruct (C20_linear_two_iterations nat unit 0 false (lin_net d e) cs ms0 E Hok Hs Em scalar_solve' None
     {| set_tolerance := tol; set_max_iters := n; set_debug := false |} [] ms0 [] tt [x0] 0 eq_refl) as [v [k [st' [so' [A [B [C D]]]]]]]; auto.
  - discriminate.
  - intros q Hq. subst cs. repeat destruct Hq as [<-|Hq]; try contradiction; reflexivity.
  - intros q Hq. subst cs. repeat destruct Hq as [<-|Hq]; try contradiction; simpl; lia.
  - intros c q Hc Hq. subst cs. destruct Hc as [<-|[]]. destruct Hq as [<-|[]]. simpl. lia.
  - intros so es J HJ Hlin. destruct J as [|z [|]]; try discriminate. destruct (Hlin (fun _ => 0)) as [L1 _].
    assert (Hm : mat_at es 0 0 = d).
    { specialize (L1 0%nat 0%nat). apply (uniqueness_limite (fun t => d * t + e) 0).
      - eapply derivable_pt_lim_ext; [|exact L1]. intros t. cbv beta. rewrite HF. reflexivity.
      - intros eps Heps. exists (mkposreal 1 Rlt_0_1). intros h Hh _.
        replace ((d * (0 + h) + e - (d * 0 + e)) / h - d) with 0 by (field; auto). now rewrite Rabs_R0. }
    destruct (scalar_solve'_total so es z) as [v Hv]; [now rewrite Hm|]. exists so, v. exact Hv.
  - destruct so'. exists cs, ms0, v, k, st'. split; [reflexivity|]. split; [exact Em|]. split; [exact A|]. split; [exact B|].
    rewrite <- HF. apply D. simpl. lia.
Qed.

(** C25: the first system a run solves is linearised at the start vector, unless the last iteration number
    seen by the stamper is 0: then it is linearised at the point the stamper was left at.
    The system is observed with a linear solver that records it and raises. *)
Theorem C25_first_linearisation :
  forall (M : Type) nan opt (l : list (M * option details * list R)) cs ms0,
  build_colls l = Some cs -> (forall e, In e (elements_of l) -> element_ok opt e) -> stamps_present cs ->
  build_stamper 0 nan skey_eqb pkey_eqb rkey_eqb input_eqb opt cs = SOk ms0 ->
  forall limiting cfg ops st outs v0 tx,
  do_ops pkey_eqb ms0 ops = (st, outs) -> (0 < set_max_iters cfg)%nat ->
  let u := if Z.eqb 0 (last_iter (-1)%Z ops) then op_v (fst (spec_ops 0 nan opt cs (op_start 0) ops)) else vec v0 in
  forall es J, network_run (fun _ es J => (Some (es, J), None)) limiting cfg st None v0 tx = NErr NSolve (Some (es, J)) ->
  (forall e, In e (elements_of l) -> defined_at e u tx) -> linearised_at (elements_of l) tx u es J.
Proof. exact (@net_first). Qed.
Print Assumptions C25_first_linearisation.

(** C25: after a run that ended in iteration 0, the next run on the same stamper is linearised at the start
    vector [v0] of the earlier run ... *)
Theorem C25_next_run_linearised_at_old_start :
  forall (M So : Type) nan opt (l : list (M * option details * list R)) cs ms0,
  build_colls l = Some cs -> (forall e, In e (elements_of l) -> element_ok opt e) -> stamps_present cs ->
  build_stamper 0 nan skey_eqb pkey_eqb rkey_eqb input_eqb opt cs = SOk ms0 ->
  forall (spsolve : So -> list (nat * nat * R) -> list R -> So * option (list R)) limiting cfg ops st outs so v0 tx b v st' so' v1 tx' es J,
  do_ops pkey_eqb ms0 ops = (st, outs) -> last_iter (-1)%Z ops <> 0%Z -> (0 < set_max_iters cfg)%nat ->
  network_run spsolve limiting cfg st so v0 tx = NOk b v 0 st' so' ->
  network_run (fun _ es J => (Some (es, J), None)) limiting cfg st' None v1 tx' = NErr NSolve (Some (es, J)) ->
  (forall e, In e (elements_of l) -> defined_at e (vec v0) tx') -> linearised_at (elements_of l) tx' (vec v0) es J.
Proof. exact (@net_second_run_point). Qed.
Print Assumptions C25_next_run_linearised_at_old_start.

(** ... and without voltage limiting its whole outcome does not depend on the vector it is started with. *)
Theorem C25_next_run_ignores_start :
  forall (M So : Type) nan opt (l : list (M * option details * list R)) cs ms0,
  build_colls l = Some cs -> (forall e, In e (elements_of l) -> element_ok opt e) -> stamps_present cs ->
  build_stamper 0 nan skey_eqb pkey_eqb rkey_eqb input_eqb opt cs = SOk ms0 ->
  forall (spsolve : So -> list (nat * nat * R) -> list R -> So * option (list R)) limiting cfg
    ops st outs so v0 tx b v st' so' v1 v2 tx' so'',
  do_ops pkey_eqb ms0 ops = (st, outs) -> last_iter (-1)%Z ops <> 0%Z -> limiting = None ->
  network_run spsolve limiting cfg st so v0 tx = NOk b v 0 st' so' -> length v1 = length v2 ->
  network_run spsolve limiting cfg st' so'' v1 tx' = network_run spsolve limiting cfg st' so'' v2 tx'.
Proof. exact (@net_second_run). Qed.
Print Assumptions C25_next_run_ignores_start.

(** A run ending in iteration 0 exists for every tolerance, so the following run returns the same for all starts. *)
Example C25_witness : forall tol, 0 < tol ->
  let cfg := {| set_tolerance := tol; set_max_iters := 50; set_debug := false |} in
  exists (ms0 st' : @mstamper R skey (list sym) nat) v0 v, network_run scalar_solve None cfg ms0 tt v0 0 = NOk true v 0 st' tt /\
  forall x y, network_run scalar_solve None cfg st' tt [x] (1/100) = network_run scalar_solve None cfg st' tt [y] (1/100).
Proof.
  intros tol Ht cfg.
  destruct (C16_success_does_not_certify_refuted tol 50 Ht ltac:(lia)) as [l [cs [ms0 [v0 [v [st' [H1 [H2 [H3 [H4 [H5 _]]]]]]]]]]].
  exists ms0, st', v0, v. split; [exact H5|]. intros x y.
  exact (C25_next_run_ignores_start nat unit 0 false l cs ms0 H1 H2 H3 H4 scalar_solve None cfg [] ms0 [] tt v0 0 true v st' tt [x] [y] (1/100) tt
    eq_refl ltac:(discriminate) eq_refl H5 eq_refl).
Qed.

(** C89: the debug check before a solve passes exactly when the entries cover the rows and the columns of one square matrix. *)
Theorem C89_debug_check : forall V (b : @builder V),
  b_assert_valid true b = true <->
  exists n, (0 < n)%nat /\ forall i, ((i < n)%nat <-> exists c v, In (i, c, v) (b_entries b)) /\ ((i < n)%nat <-> exists r v, In (r, i, v) (b_entries b)).
Proof. exact valid_square. Qed.
Print Assumptions C89_debug_check.
Theorem C89_off_by_default : forall V (b : @builder V), b_assert_valid false b = true.
Proof. reflexivity. Qed.
Print Assumptions C89_off_by_default.
Example C89_example :
  b_assert_valid true {| b_entries := [(0, 1, 5%Z); (1, 0, 4%Z)]%nat; b_index := 2 |} = true /\
  b_assert_valid true {| b_entries := [(0, 0, 5%Z); (1, 0, 4%Z)]%nat; b_index := 2 |} = false.
Proof. split; reflexivity. Qed.
