(** C39, C40, C65: what infeasibility currents minimise. *)
From Coq Require Import String List Bool Arith Reals Lra Lia.
From Verif Require Import Expr Segment Collect SpecSystem Components SpecComponents SpecInfeasibility InfeasibilityProofs InfeasibilityWitness.
Import ListNotations.
Local Open Scope R_scope.

(** C39: a solution of the stamped system has the least total squared infeasibility current of all points satisfying the circuit equations *)
Theorem C39_l2_minimal : forall P N es l v w tx,
  (forall e, In e es -> linear_element e /\ separated P N e) -> places_ok P N 2 l ->
  (forall r, (r < N)%nat -> F (es ++ l2_elements l) v tx r = 0) ->
  circuit_holds P N (es ++ l2_elements l) w tx ->
  total_L2 l v <= total_L2 l w.
Proof. exact l2_minimal. Qed.
Print Assumptions C39_l2_minimal.
(** a circuit that works without infeasibility currents gets none *)
Theorem C39_feasible : forall P N es l v w tx,
  (forall e, In e es -> linear_element e /\ separated P N e) -> places_ok P N 2 l ->
  (forall r, (r < N)%nat -> F (es ++ l2_elements l) v tx r = 0) ->
  circuit_holds P N es w tx ->
  (forall b n, In (b, n) l -> w n = 0 /\ w (S n) = 0) ->
  forall b n, In (b, n) l -> v n = 0 /\ v (S n) = 0.
Proof. exact l2_feasible. Qed.
Print Assumptions C39_feasible.
Example C39_example : (forall r, (r < 8)%nat -> F (lone_load ++ l2_elements [(bus4, 4%nat)]) l2_point 0 r = 0) /\ total_L2 [(bus4, 4%nat)] l2_point = 1.
Proof. exact l2_solved. Qed.
Example C39_elements : forall e, In e lone_load -> linear_element e /\ separated circuit_unknown 8 e /\ before 4 e.
Proof. apply lone_ok. repeat constructor. Qed.
Example C39_places : places_ok circuit_unknown 8 2 [(bus4, 4%nat)].
Proof. apply place_ok. repeat constructor. Qed.

(** C40: the L1 model also minimises the sum of squares of the net currents *)
Theorem C40_minimises_squares : forall P N n es bs v w tx, let l := consecutive 4 n bs in
  (forall e, In e es -> linear_element e /\ separated P N e /\ before n e) -> places_ok P N 4 l ->
  (forall r, (r < N)%nat -> F (es ++ l1_elements l) v tx r = 0) ->
  circuit_holds P N (es ++ l1_elements l) w tx ->
  total_net2 l v <= total_net2 l w.
Proof. exact l1_minimal. Qed.
Print Assumptions C40_minimises_squares.
Example C40_network : (forall r, (r < 8)%nat -> F (lone_load ++ l1_elements [(bus4, 4%nat)]) l1_point 0 r = 0) /\ total_net2 [(bus4, 4%nat)] l1_point = 1.
Proof. exact l1_solved. Qed.

(** C65: when optimising, row c is the derivative of the whole Lagrangian by unknown c, whatever indexes elements share *)
Theorem C65_rows_are_gradient : forall es v tx c, (forall e, In e es -> element_ok true e /\ sd_eqn (fst e) = None /\ defined_at e v tx) ->
  derivable_pt_lim (fun t => lagrangian es (set_v v c t) tx) (v c) (F es v tx c).
Proof. exact network_gradient. Qed.
Print Assumptions C65_rows_are_gradient.
Example C65_example : derivable_pt_lim (fun t => lagrangian (l2_elements [(bus4, 4%nat)]) (set_v (fun _ => 1) 4 t) 0) 1 3.
Proof. exact gradient_instance. Qed.
