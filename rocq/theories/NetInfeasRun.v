(** Lemmas for C147: a power flow with infeasibility currents that reports success. *)
From Coq Require Import String List Bool Arith ZArith Reals Lra Lia.
From Verif Require Import PyExc Collect SpecSystem Components SpecComponents Devices UnbalancedLine Solver SpecSolver Network SpecNetwork NetStamper SpecNetStamper SpecKirchhoff SpecNetInfeas NetInfeasFinal
  Graph SpecGraph PowerFlow SpecPowerFlow PowerFlowProofs PowerFlowRun ThreePhase SpecThreePhase RawParser RawText Loader SolverNet SpecSolverNet SolverNetFinal.
Import ListNotations.
Local Open Scope R_scope.

Lemma nearly_without eps d E nw V : nearly_physical_with eps E nw V ->
  (forall k, (k < length (nw_buses nw))%nat -> Rabs (fst (E k)) <= d /\ Rabs (snd (E k)) <= d) -> 0 <= d -> nearly_physical (eps + d) nw V.
Proof.
  intros [V0 [ac [HA [HM HK]]]] H P. split; [exact V0|]. exists ac. split; [exact HA|]. split.
  - eapply Forall_impl; [|exact HM]. cbv beta. intros. lra.
  - intros b Hb. apply In_nth_error in Hb as [k Hk]. specialize (HK k b Hk). cbv zeta in HK. destruct HK as [K1 K2].
    destruct (H k) as [H1 H2]; [apply nth_error_Some; congruence|].
    destruct (net_current (bus_id b) ac) as [x y], (E k) as [p q]. unfold Cadd in *. cbn [fst snd] in *.
    split; [replace x with ((x + p) + - p) by ring|replace y with ((y + q) + - q) by ring]; eapply Rle_lt_trans; try apply Rabs_triang; rewrite Rabs_Ropp; lra.
Qed.

Section Done.
Context {So : Type}.
Lemma done_infeasible x (spsolve : So -> list (nat * nat * R) -> list R -> So * option (list R)) nan cfg old visit nw so so' ok v it tx res ds l1 :
  execute x spsolve nan cfg old visit nw so = PFDone ok v it tx res ds so' ->
  let nw' := with_devices nw ds in let a' := assign_matrix old nw' in
  network_ok nw -> ends_on_buses nw -> sized spsolve -> ok = true -> nw_optimization nw = Some l1 ->
  length v = as_size a' /\
  exists u so0 es J, spsolve so0 es J = (so', Some v) /\
    (energised nw' (voltages a' u) ->
     nearly_physical_with (set_tolerance (pf_nr cfg)) (extra l1 a' u) nw' (voltages a' u) /\
     forall d, 0 <= d -> (forall k, (k < length (nw_buses nw'))%nat -> Rabs (fst (extra l1 a' u k)) <= d /\ Rabs (snd (extra l1 a' u k)) <= d) ->
       nearly_physical (set_tolerance (pf_nr cfg) + d) nw' (voltages a' u)).
Proof.
  intros E nw' a' OK EN SZ OT HO. destruct (done_success _ _ _ _ _ _ _ _ _ _ _ _ _ _ _ E OK EN SZ OT) as (L & u & lin & stale & J & so0 & S1 & _ & _ & B & _).
  split; [exact L|]. exists u, so0, (lin ++ stale), J. split; [exact S1|]. intros G. pose proof (with_devices_re nw ds) as RW. fold nw' in RW.
  destruct (rewired_same _ _ RW) as [_ [Eo _]]. rewrite <- Eo in HO.
  assert (N : nearly_physical_with (set_tolerance (pf_nr cfg)) (extra l1 a' u) nw' (voltages a' u)).
  { apply infeasible_within; auto. - eapply rewired_ok; eauto. - intros r Hr. now apply B. }
  split; [exact N|]. intros d Hd H. eapply nearly_without; eauto.
Qed.
End Done.

Section File.
Variables (T : tools) (W : world) (nm : Z -> nat).
Lemma run_infeasible So (spsolve : So -> list (nat * nat * R) -> list R -> So * option (list R)) nan cfg old visit uri so v it tx res ds so' l1 : sized spsolve ->
  run_file T W nm spsolve nan cfg old visit (Some l1) uri so = Ok (PFDone true v it tx res ds so') ->
  exists r nw, from_file T W uri = Ok r /\ solver_network (Some l1) r = Ok nw /\
    let nw' := with_devices nw ds in let a' := assign_matrix old nw' in
    length v = as_size a' /\
    exists u so0 es J, spsolve so0 es J = (so', Some v) /\
      (energised nw' (voltages a' u) ->
       nearly_physical_with (set_tolerance (pf_nr cfg)) (extra l1 a' u) nw' (voltages a' u) /\
       forall d, 0 <= d -> (forall k, (k < length (nw_buses nw'))%nat -> Rabs (fst (extra l1 a' u k)) <= d /\ Rabs (snd (extra l1 a' u k)) <= d) ->
         nearly_physical (set_tolerance (pf_nr cfg) + d) nw' (voltages a' u)).
Proof.
  intros SZ E. apply run_parts in E as (r & nw & E1 & E2 & E). exists r, nw. split; [exact E1|]. split; [exact E2|].
  destruct (loaded_network _ _ _ _ _ _ E1 E2) as (OK & EN & SO & OP & _). cbv zeta.
  exact (done_infeasible _ _ _ _ _ _ _ _ _ _ _ _ _ _ _ l1 E OK EN SZ eq_refl OP).
Qed.
End File.
