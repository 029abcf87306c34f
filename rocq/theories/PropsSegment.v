(** Property theorems C01-C06 (src/logic/stamping/lagrangesegment.py). *)
From Coq Require Import ZArith Reals List String Bool Lra.
From Verif Require Import Expr Segment SpecSegment ExprProofs SegmentProofs.
Import ListNotations.
Local Open Scope string_scope.
Local Open Scope R_scope.
Local Open Scope list_scope.

(** C01: for every equation of every segment (the equation being the partial derivative of the
    Lagrangian), coefficients times unknowns minus J gives the value of the equation. *)
Theorem C01_linearisation_reproduces_equation : forall s x d rho,
  In (x, d) (generate_derivatives s) ->
  NoDup (sg_variables s) -> wd (sg_lagrange s) rho -> trig_ok (sg_variables s) (sg_lagrange s) ->
  Ysum (dv_evals d) rho - Jsum (dv_evals d) rho = den (dv_expr d) rho /\
  derivable_pt_lim (fun t => den (sg_lagrange s) (upd rho x t)) (rho x) (den (dv_expr d) rho).
Proof. exact C01_lemma. Qed.
Print Assumptions C01_linearisation_reproduces_equation.

(** A constant-power load: lam * (P*Vr + Q*Vi) / (Vr^2 + Vi^2), with a cosine of a constant. *)
Definition pq_segment : segment := {|
  sg_lagrange := Mul (Sym "lam") (Div (Add (Mul (Sym "P") (Sym "Vr")) (Mul (Mul (Sym "Q") (Sym "Vi")) (Cos (Sym "P"))))
                                      (Add (Pow (Sym "Vr") 2) (Pow (Sym "Vi") 2)));
  sg_constants := ["P"; "Q"]%string; sg_primals := ["Vr"; "Vi"]%string; sg_duals := ["lam"]%string |}.

Definition pq_env : env := fun s => if String.eqb s "lam" then 2 else 1.

Example C01_nonvacuous :
  In ("lam"%string, gen_derivative pq_segment "lam") (generate_derivatives pq_segment) /\
  NoDup (sg_variables pq_segment) /\ wd (sg_lagrange pq_segment) pq_env /\
  trig_ok (sg_variables pq_segment) (sg_lagrange pq_segment) /\
  map ev_yth (dv_evals (gen_derivative pq_segment "lam")) = [None; Some "Vr"%string; Some "Vi"%string].
Proof.
  split; [right; right; left; reflexivity|].
  split; [simpl; repeat constructor; simpl; intuition congruence|].
  split; [simpl; repeat split; intros; unfold pq_env; simpl; lra|].
  split; [simpl; repeat split; vm_compute; intuition congruence|].
  vm_compute. reflexivity.
Qed.

(** C02: the coefficient of each unknown is the partial derivative of the equation. *)
Theorem C02_coefficient_is_partial_derivative : forall s x d y rho,
  In (x, d) (generate_derivatives s) ->
  NoDup (sg_variables s) -> wd (sg_lagrange s) rho -> In y (sg_variables s) ->
  derivable_pt_lim (fun t => den (dv_expr d) (upd rho y t)) (rho y) (Ycoef (dv_evals d) y rho).
Proof. exact C02_lemma. Qed.
Print Assumptions C02_coefficient_is_partial_derivative.

(** and no entry is stamped for anything that is not an unknown of the segment *)
Theorem C02_no_foreign_entry : forall s x ev y,
  In ev (dv_evals (gen_derivative s x)) -> ev_yth ev = Some y -> In y (sg_variables s).
Proof. exact evals_unknowns. Qed.
Print Assumptions C02_no_foreign_entry.

Example C02_nonvacuous :
  In "Vi"%string (sg_variables pq_segment) /\ wd (sg_lagrange pq_segment) pq_env /\
  List.length (dv_evals (gen_derivative pq_segment "Vr")) = 4%nat.
Proof.
  split; [simpl; tauto|]. split; [apply C01_nonvacuous|]. vm_compute. reflexivity.
Qed.

(** C03: the restriction on sin/cos in C01 cannot be dropped. *)
Theorem C03_trig_of_unknown_refuted :
  exists s x rho, NoDup (sg_variables s) /\ wd (sg_lagrange s) rho /\ In x (sg_duals s) /\
    Ysum (dv_evals (gen_derivative s x)) rho - Jsum (dv_evals (gen_derivative s x)) rho
      <> den (dv_expr (gen_derivative s x)) rho.
Proof. exact trig_identity_fails. Qed.
Print Assumptions C03_trig_of_unknown_refuted.

(** C04: an entry flagged linear has the same value whatever the unknowns are. *)
Theorem C04_linear_entry_constant : forall s x ev rho rho',
  In ev (dv_evals (gen_derivative s x)) -> ev_linear ev = true ->
  (forall y, ~ In y (sg_variables s) -> rho y = rho' y) ->
  den (ev_expr ev) rho = den (ev_expr ev) rho'.
Proof. exact linear_entry_constant. Qed.
Print Assumptions C04_linear_entry_constant.

Theorem C04_nonlinear_entry_mentions_unknown : forall s x ev,
  In ev (dv_evals (gen_derivative s x)) -> ev_linear ev = false ->
  exists y, In y (sg_variables s) /\ In y (fsyms (ev_expr ev)).
Proof. exact nonlinear_entry_mentions. Qed.
Print Assumptions C04_nonlinear_entry_mentions_unknown.

(** a line current: lam * (G*Vf - B*Vt): both kinds of entries occur below *)
Definition line_segment : segment := {|
  sg_lagrange := Mul (Sym "lam") (Sub (Mul (Sym "G") (Sym "Vf")) (Mul (Sym "B") (Pow (Sym "Vt") 2)));
  sg_constants := ["G"; "B"]%string; sg_primals := ["Vf"; "Vt"]%string; sg_duals := ["lam"]%string |}.

Example C04_nonvacuous :
  map (fun e => (ev_yth e, ev_linear e)) (dv_evals (gen_derivative line_segment "lam"))
   = [(None, false); (Some "Vf"%string, true); (Some "Vt"%string, false)] \/
  map (fun e => (ev_yth e, ev_linear e)) (dv_evals (gen_derivative line_segment "lam"))
   = [(None, false); (Some "Vt"%string, false); (Some "Vf"%string, true)].
Proof. vm_compute. auto. Qed.

(** C05: rows of a two-terminal model. *)
Theorem C05_two_terminal_rows : forall t s rho,
  tt_segment t = Some s ->
  only_declared t (tt_kcl_i_from t) ->
  (forall l, In l (multipliers t) -> ~ declared t l) ->
  NoDup (multipliers t) ->
  (forall d, In (Lr_from, d) (generate_derivatives s) -> den (dv_expr d) rho = den (tt_kcl_r_from t) rho) /\
  (forall d, In (Li_from, d) (generate_derivatives s) -> den (dv_expr d) rho = den (tt_kcl_i_from t) rho) /\
  (forall d, In (Lr_to, d) (generate_derivatives s) -> den (dv_expr d) rho = - den (fst (tt_to t)) rho) /\
  (forall d, In (Li_to, d) (generate_derivatives s) -> den (dv_expr d) rho = - den (snd (tt_to t)) rho) /\
  (forall l e d, In (l, e) (tt_equalities t) -> In (l, d) (generate_derivatives s) -> den (dv_expr d) rho = den e rho).
Proof. exact C05_lemma. Qed.
Print Assumptions C05_two_terminal_rows.

(** When no separate 'to' equations are given the two ends sum to zero. *)
Theorem C05_ends_cancel : forall t s rho dr di tr ti,
  tt_segment t = Some s -> tt_kcl_to t = None ->
  (forall l, In l (multipliers t) -> ~ declared t l) -> NoDup (multipliers t) ->
  In (Lr_from, dr) (generate_derivatives s) -> In (Li_from, di) (generate_derivatives s) ->
  In (Lr_to, tr) (generate_derivatives s) -> In (Li_to, ti) (generate_derivatives s) ->
  den (dv_expr dr) rho + den (dv_expr tr) rho = 0 /\ den (dv_expr di) rho + den (dv_expr ti) rho = 0.
Proof. exact C05_cancel_lemma. Qed.
Print Assumptions C05_ends_cancel.

Definition tt_example : two_terminal := {|
  tt_variables := [Vr_from; Vi_from; Vr_to; Vi_to; "I"%string];
  tt_constants := ["G"%string];
  tt_kcl_r_from := Mul (Sym "G") (Sub (Sym Vr_from) (Sym Vr_to));
  tt_kcl_i_from := Add (Sym "I") (Mul (Sym "G") (Sym Vi_from));
  tt_kcl_to := None;
  tt_equalities := [("lambda_eq_1"%string, Sub (Sym "I") (Sym Vr_to))];
  tt_objective := Some (Pow (Sym "I") 2) |}.

Example C05_nonvacuous :
  (exists s, tt_segment tt_example = Some s) /\
  (forall l, In l (multipliers tt_example) -> ~ declared tt_example l) /\ NoDup (multipliers tt_example).
Proof.
  split; [eexists; reflexivity|]. split.
  - intros l Hl [H|H]; simpl in *;
      unfold Lr_from, Li_from, Lr_to, Li_to, Vr_from, Vi_from, Vr_to, Vi_to in *;
      repeat match goal with H : _ \/ _ |- _ => destruct H end; subst; try contradiction; discriminate.
  - repeat constructor; simpl; unfold Lr_from, Li_from, Lr_to, Li_to; intuition discriminate.
Qed.

(** C06: a definition is accepted exactly when these expressions use declared symbols only ... *)
Theorem C06_accepted_iff_declared : forall t, (exists s, tt_segment t = Some s) <->
  (forall o, tt_objective t = Some o -> only_declared t o) /\
  only_declared t (tt_kcl_r_from t) /\
  only_declared t (fst (tt_to t)) /\ only_declared t (snd (tt_to t)) /\
  (forall l e, In (l, e) (tt_equalities t) -> only_declared t e).
Proof. exact C06_lemma. Qed.
Print Assumptions C06_accepted_iff_declared.

(** ... and the imaginary 'from' equation is not among them. *)
Theorem C06_imaginary_from_unchecked : exists t s, tt_segment t = Some s /\ ~ only_declared t (tt_kcl_i_from t).
Proof. exact C06_leak. Qed.
Print Assumptions C06_imaginary_from_unchecked.

Example C06_nonvacuous :
  (exists s, tt_segment tt_example = Some s) /\
  tt_segment {| tt_variables := [Vr_from]; tt_constants := []; tt_kcl_r_from := Sym "oops"; tt_kcl_i_from := Const 0;
                tt_kcl_to := None; tt_equalities := []; tt_objective := None |} = None.
Proof. split; [eexists; reflexivity | reflexivity]. Qed.
