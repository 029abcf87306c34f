(** Property theorems C07, C08, C13, C61 (src/logic/stamping/matrixstamper.py). *)
From Coq Require Import ZArith Reals List String Bool Arith Lia Lra Permutation.
From Verif Require Import Expr Segment Stamper SpecStamper Collect SpecSystem SystemProofs.
Import ListNotations.
Local Open Scope R_scope.

(** C07: whatever sequence of stamping calls is made, the batched stamper emits exactly the contributions
    of the elements evaluated one by one, up to order.  Keys are arbitrary types with sound equality tests. *)
Theorem C07_batched_equals_per_element :
  forall (T K P RK M : Type) (zero nan : T) keqb peqb rkeqb ieqb,
  (forall a b : K, keqb a b = true <-> a = b) -> (forall a b : P, peqb a b = true <-> a = b) ->
  (forall a b : RK, rkeqb a b = true <-> a = b) -> (forall a b : @input T, ieqb a b = true -> a = b) ->
  forall (cs : list (@coll T K P RK M)), well_formed cs ->
  forall opt ops, exists ms,
    build_stamper zero nan keqb peqb rkeqb ieqb opt cs = SOk ms /\
    Forall2 same_out (snd (do_ops peqb ms ops)) (snd (spec_ops zero nan opt cs (op_start zero) ops)).
Proof. exact (@trace_refinement). Qed.
Print Assumptions C07_batched_equals_per_element.

(** two elements sharing one expression, two instances with equal inputs, one with different ones *)
Definition zx (lin : bool) (k : nat) : @expression Z nat nat :=
  {| x_key := k; x_pkey := 7%nat; x_nparams := 3%nat; x_tx := Some 0%nat; x_linear := lin; x_isJ := Nat.eqb k 2;
     x_eval := fun a => (nth 0 a 0 * 100 + nth 1 a 0 * 10 + nth 2 a 0)%Z |}.
Definition zi (c : Z) (p q : option nat) : @input Z := {| in_consts := [c]; in_primals := [p; q]; in_duals := [] |}.
Definition zieqb (a b : @input Z) : bool :=
  list_eqb Z.eqb (in_consts a) (in_consts b) && list_eqb (opt_eqb Nat.eqb) (in_primals a) (in_primals b)
  && list_eqb (opt_eqb Nat.eqb) (in_duals a) (in_duals b).
Definition zr (i : @input Z) : @resid Z nat nat :=
  {| r_key := 0%nat; r_eval := fun a => (nth 1 a 0 - nth 2 a 0)%Z; r_row := 4%nat; r_in := i; r_pkey := 7%nat; r_nparams := 3%nat; r_tx := Some 0%nat |}.
Definition zcs : list (@coll Z nat nat nat string) :=
  [ {| c_model := "a"%string;
       c_stamps := [ {| s_x := zx true 1; s_in := zi 5 (Some 0%nat) None; s_row := 0; s_col := 1 |};
                     {| s_x := zx false 2; s_in := zi 5 (Some 0%nat) None; s_row := 1; s_col := 0 |} ];
       c_resids := [ zr (zi 5 (Some 0%nat) None) ] |};
    {| c_model := "b"%string;
       c_stamps := [ {| s_x := zx true 1; s_in := zi 6 (Some 1%nat) (Some 0%nat); s_row := 2; s_col := 1 |};
                     {| s_x := zx true 1; s_in := zi 5 (Some 0%nat) None; s_row := 3; s_col := 3 |} ];
       c_resids := [ zr (zi 6 (Some 1%nat) (Some 0%nat)) ] |} ].

Example C07_nonvacuous : well_formed zcs /\
  match build_stamper 0%Z 0%Z Nat.eqb Nat.eqb Nat.eqb zieqb false zcs with
  | SOk ms =>
     snd (do_ops Nat.eqb ms [OLinear 1%Z; ONonlinear (fun n => Z.of_nat n + 3)%Z 0%Z; OLinear 2%Z; OResiduals 2%Z (fun _ => 99%Z) 0%Z])
     = [OutEvents [EvY 0 1 100%Z; EvY 2 1 100%Z; EvY 3 3 100%Z]; OutEvents [EvJ 1 130%Z];
        OutEvents [EvY 0 1 230%Z; EvY 2 1 243%Z; EvY 3 3 230%Z];
        OutResids [("a"%string, 4%nat, 3%Z); ("b"%string, 4%nat, 1%Z)]]
     /\ map (fun pb => List.length (fb_args (snd pb))) (ms_builders ms) = [2%nat]
  | SErr _ => False
  end.
Proof.
  split; [|vm_compute; split; reflexivity].
  constructor; simpl.
  - intros s1 s2 H1 H2 E. repeat destruct H1 as [<-|H1]; repeat destruct H2 as [<-|H2]; try contradiction; simpl in *; congruence.
  - intros s1 s2 H1 H2 E. repeat destruct H1 as [<-|H1]; repeat destruct H2 as [<-|H2]; try contradiction; auto.
  - intros s H1. repeat destruct H1 as [<-|H1]; try contradiction; split; simpl; auto with arith.
  - intros c1 c2 r1 r2 H1 H2 R1 R2 E. repeat destruct H1 as [<-|H1]; repeat destruct H2 as [<-|H2]; try contradiction; simpl in *;
      repeat destruct R1 as [<-|R1]; repeat destruct R2 as [<-|R2]; try contradiction; auto.
  - intros c r H1 R1. repeat destruct H1 as [<-|H1]; try contradiction; simpl in *; repeat destruct R1 as [<-|R1]; try contradiction;
     (split; [discriminate|split; [split; simpl; auto with arith|]]);
     intros s Hs; repeat destruct Hs as [<-|Hs]; try contradiction; auto.
Qed.

(** C07 for collections made from segments: the preconditions follow from the segments themselves. *)
Theorem C07_segments : forall (M : Type) nan opt (l : list (M * option details * list R)) cs ops,
  build_colls l = Some cs -> (forall e, In e (elements_of l) -> element_ok opt e) -> stamps_present cs ->
  exists ms, build_stamper 0 nan skey_eqb pkey_eqb rkey_eqb input_eqb opt cs = SOk ms /\
  Forall2 same_out (snd (do_ops pkey_eqb ms ops)) (snd (spec_ops 0 nan opt cs (op_start 0) ops)).
Proof. exact (@trace_segments). Qed.
Print Assumptions C07_segments.

(** The remaining precondition matters: if the first element that has anything has residuals only, nothing can be built. *)
Theorem C07_residuals_before_stamps : forall (T K P RK M : Type) (zero nan : T) keqb peqb rkeqb ieqb opt (pre : list (@coll T K P RK M)) c post,
  (forall c', In c' pre -> c_stamps c' = [] /\ c_resids c' = []) -> c_stamps c = [] -> c_resids c <> [] ->
  build_stamper zero nan keqb peqb rkeqb ieqb opt (pre ++ c :: post) = SErr NameError.
Proof. exact no_stamps_refused. Qed.
Print Assumptions C07_residuals_before_stamps.

(** C08: an element contributes exactly the entries whose row and column exist, evaluated with its constants,
    the solution vector at its own indexes, and 0 wherever it is grounded. *)
Theorem C08_element_contributions : forall (M : Type) (m : M) nan opt d cv c v tx,
  build_coll m d cv = Some c -> element_ok opt (d, cv) ->
  exists rho, (forall y, In y (sg_parameters (sd_seg d)) -> rho y = sym_val (d, cv) v tx y) /\
    map (stamp_event 0 nan opt {| pt_v := v; pt_tx := Some tx |}) (c_stamps c) = contributions d rho.
Proof. exact (@element_contributions). Qed.
Print Assumptions C08_element_contributions.

Theorem C08_ground_is_zero : forall d cv v v' tx y, lookup (sd_var d) y = Some None -> ~ In y (sg_constants (sd_seg d)) ->
  sym_val (d, cv) v tx y = 0 /\ sym_val (d, cv) v' tx y = 0.
Proof. exact ground_value. Qed.
Print Assumptions C08_ground_is_zero.

(** C13: after any history of calls, one assembly at a new iteration number gives
    residual = Y v - J = the network equations at v (and not at the vector w passed to the residual call). *)
Theorem C13_residual_is_Yv_minus_J :
  forall (M : Type) nan opt (l : list (M * option details * list R)) cs ms0 ms1 ops outs tx v w k,
  build_colls l = Some cs -> (forall e, In e (elements_of l) -> element_ok opt e) -> stamps_present cs ->
  build_stamper 0 nan skey_eqb pkey_eqb rkey_eqb input_eqb opt cs = SOk ms0 ->
  do_ops pkey_eqb ms0 ops = (ms1, outs) -> last_iter (-1)%Z ops <> k ->
  (forall e, In e (elements_of l) -> defined_at e v tx) ->
  exists ms2 E1 E2 Rs,
    do_ops pkey_eqb ms1 [OLinear tx; ONonlinear v k; OResiduals tx w k] = (ms2, [OutEvents E1; OutEvents E2; OutResids Rs]) /\
    forall r, Rrow Rs r = Yrow (E1 ++ E2) v r - Jentry (E1 ++ E2) r /\ Rrow Rs r = F (elements_of l) v tx r.
Proof. exact (@assembled_residual). Qed.
Print Assumptions C13_residual_is_Yv_minus_J.

(** C61: the assembled matrix is the Jacobian of the network equations. *)
Theorem C61_matrix_is_jacobian :
  forall (M : Type) nan opt (l : list (M * option details * list R)) cs ms0 ms1 ops outs tx v w k,
  build_colls l = Some cs -> (forall e, In e (elements_of l) -> element_ok opt e) -> stamps_present cs ->
  build_stamper 0 nan skey_eqb pkey_eqb rkey_eqb input_eqb opt cs = SOk ms0 ->
  do_ops pkey_eqb ms0 ops = (ms1, outs) -> last_iter (-1)%Z ops <> k ->
  (forall e, In e (elements_of l) -> defined_at e v tx) ->
  exists ms2 E1 E2 Rs,
    do_ops pkey_eqb ms1 [OLinear tx; ONonlinear v k; OResiduals tx w k] = (ms2, [OutEvents E1; OutEvents E2; OutResids Rs]) /\
    forall r c, derivable_pt_lim (fun t => F (elements_of l) (set_v v c t) tx r) (v c) (Yentry (E1 ++ E2) r c).
Proof. exact (@assembled_jacobian). Qed.
Print Assumptions C61_matrix_is_jacobian.

(** C61: hence solving the assembled system is Newton's step, and its fixed points solve the equations. *)
Theorem C61_newton_step :
  forall (M : Type) nan opt (l : list (M * option details * list R)) cs ms0 ms1 ops outs tx v w k,
  build_colls l = Some cs -> (forall e, In e (elements_of l) -> element_ok opt e) -> stamps_present cs ->
  build_stamper 0 nan skey_eqb pkey_eqb rkey_eqb input_eqb opt cs = SOk ms0 ->
  do_ops pkey_eqb ms0 ops = (ms1, outs) -> last_iter (-1)%Z ops <> k ->
  (forall e, In e (elements_of l) -> defined_at e v tx) ->
  exists ms2 E1 E2 Rs,
    do_ops pkey_eqb ms1 [OLinear tx; ONonlinear v k; OResiduals tx w k] = (ms2, [OutEvents E1; OutEvents E2; OutResids Rs]) /\
    forall v', (forall r, Yrow (E1 ++ E2) v' r = Jentry (E1 ++ E2) r) ->
      (forall r, F (elements_of l) v tx r + Yrow (E1 ++ E2) (fun c => v' c - v c) r = 0) /\
      ((forall c, v' c = v c) -> forall r, F (elements_of l) v tx r = 0).
Proof. exact (@newton_step). Qed.
Print Assumptions C61_newton_step.

(** A non-linear two-node element plus the same element with its far end grounded. *)
Definition ex_segment : segment := {|
  sg_lagrange := Mul (Sym "lam"%string) (Sub (Mul (Sym "G"%string) (Sym "Vf"%string)) (Mul (Sym "B"%string) (Pow (Sym "Vt"%string) 2)));
  sg_constants := ["G"; "B"]%string; sg_primals := ["Vf"; "Vt"]%string; sg_duals := ["lam"]%string |}.
Definition ex_details (far : option nat) : details :=
  {| sd_seg := ex_segment; sd_var := [("Vf"%string, Some 0%nat); ("Vt"%string, far); ("lam"%string, None)]; sd_eqn := None; sd_opt := false |}.
Definition ex_list (g b : R) : list (nat * option details * list R) :=
  [(0%nat, Some (ex_details (Some 1%nat)), [g; b]); (1%nat, None, []); (2%nat, Some (ex_details None), [g; b])].

Example ex_ok : forall far g b, element_ok false (ex_details far, [g; b]).
Proof.
  intros far g b. constructor; try reflexivity; simpl.
  - repeat constructor; simpl; intuition congruence.
  - unfold tx_factor. intuition congruence.
  - intros x. simpl. tauto.
  - intros _ x [<-|[]]. reflexivity.
  - tauto.
Qed.

Example C13_nonvacuous : forall g b v tx, exists cs, build_colls (ex_list g b) = Some cs /\
  stamps_present cs /\ map (fun c => List.length (c_stamps c)) cs = [3%nat; 2%nat] /\
  (forall e, In e (elements_of (ex_list g b)) -> element_ok false e) /\
  (forall e, In e (elements_of (ex_list g b)) -> defined_at e v tx) /\
  F (elements_of (ex_list g b)) v tx 0 = g * v 0%nat - b * (v 1%nat)^2 + g * v 0%nat.
Proof.
  intros g b v tx. eexists. split; [vm_compute; reflexivity|]. split; [|split; [|split; [|split]]].
  - intros c Hc. repeat destruct Hc as [<-|Hc]; try contradiction; simpl; intros; discriminate.
  - reflexivity.
  - intros e He. repeat destruct He as [<-|He]; try contradiction; apply ex_ok.
  - intros e He. repeat destruct He as [<-|He]; try contradiction; unfold defined_at; simpl; repeat split; intros; lia.
  - vm_compute. ring.
Qed.
