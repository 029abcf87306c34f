(** Proofs for C151. *)
From Coq Require Import Reals ZArith String List Bool Lia Lra Arith.
From Verif Require Import PyExc Expr Collect SpecSystem Components SpecComponents SpecUnbalanced Network SpecNetwork Solver SpecSolver Homotopy Devices Graph PowerFlow SpecPowerFlow PowerFlowRun
  SpecKirchhoff KirchhoffNet SpecNetStamper NetStamper SpecNetInfeas SpecNetLeast SpecNewton NewtonProofs NewtonFinal
  ThreePhase RawParser Loader SolverNet SolverNetProofs SolverRawProofs SolverNetFinal Command SpecCommand.
From Verif Require TimeSeries TimeSeriesRun.
Import ListNotations.
Local Open Scope R_scope.

(** *** the scaled network *)
Lemma set_scaled {A} (f : R) (g : A -> elem) (h : A -> TimeSeries.tload) (ls : list A) :
  (forall l, In l ls -> exists d b t, g l = ELoad d b t /\ TimeSeries.power_of (h l) = (ld_P d, ld_Q d)) ->
  Forall2 (scaled_load f) (map g ls) (set_loads (map TimeSeries.power_of (map (scale_by f) (map h ls))) (map g ls)).
Proof.
  induction ls as [|l ls IH]; intros H; [constructor|]. cbn [map set_loads]. constructor; [|apply IH; intros x Hx; apply H; now right].
  destruct (H l (or_introl eq_refl)) as (d & b & t & -> & E). cbn [set_load]. unfold TimeSeries.power_of in E. injection E as E1 E2. constructor; try reflexivity. unfold scale_by, TimeSeries.set_power, TimeSeries.power_of, Cscale. cbn. rewrite E1, E2. f_equal; ring.
Qed.
Lemma loads_scaled f r opt nw : solver_network opt r = Ok nw -> scaled f nw (with_powers (map (scale_by f) (loads_of r)) nw).
Proof.
  intros E. split; [|repeat split]. unfold with_powers. cbn [nw_loads with_loads]. destruct r as [n|o]; cbn [solver_network loads_of] in *.
  - apply dx_fields in E as (_ & _ & _ & _ & _ & _ & _ & -> & _). apply set_scaled. intros l _. unfold dx_load. do 3 eexists. split; reflexivity.
  - injection E as <-. cbn [nw_loads sx_network]. apply set_scaled. intros l _. do 3 eexists. split; [reflexivity|]. destruct l as [z [p q zr zi ip iq]]. reflexivity.
Qed.
Section Scaled.
Variables (f : R) (nw nw' : Network.network).
Hypothesis SC : scaled f nw nw'.
Lemma scaled_element e' : In e' (Network.elements nw') -> In e' (Network.elements (with_loads nw [])) \/ exists e, In e (nw_loads nw) /\ scaled_load f e e'.
Proof.
  destruct SC as (L & S1 & S2 & S3 & S4 & S5 & S6 & S7 & S8 & S9 & S10 & S11 & S12 & S13 & S14). unfold Network.elements. cbn [with_loads nw_three_phase nw_lines nw_transformers nw_slack nw_switches nw_generators nw_loads nw_misc nw_sources nw_shunts nw_regulators nw_fuses nw_capacitors]. rewrite S1, S3, S4, S5, S6, S7, S8, S9, S10, S11, S12, S13, !in_app_iff.
  intros [H|[H|[H|[H|[H|[H|H]]]]]]; try tauto. right. destruct (forall2_left _ _ _ _ _ L e' H) as (e & He & Q). eauto.
Qed.
Lemma others e : In e (Network.elements (with_loads nw [])) -> In e (Network.elements nw).
Proof. unfold Network.elements. cbn [with_loads nw_three_phase nw_lines nw_transformers nw_slack nw_switches nw_generators nw_loads nw_misc nw_sources nw_shunts nw_regulators nw_fuses nw_capacitors]. rewrite !in_app_iff. cbn [In]. tauto. Qed.
Lemma in_elements e : In e (nw_loads nw) -> In e (Network.elements nw).
Proof. intros H. unfold Network.elements. rewrite !in_app_iff. tauto. Qed.
Lemma scaled_ok : network_ok nw -> network_ok nw'.
Proof.
  intros [N R]. pose proof SC as (_ & _ & S2 & _). split; rewrite S2; [exact N|]. intros e' He k Hk. apply scaled_element in He as [He|(e & He & Q)]; [apply others in He; eauto|].
  apply (R e); [now apply in_elements|]. inversion Q; subst. exact Hk.
Qed.
Lemma scaled_ends : ends_on_buses nw -> ends_on_buses nw'.
Proof.
  intros [A B]. split.
  - intros ph g b Bm H. apply scaled_element in H as [H|(e & He & Q)]; [apply others in H; eauto|inversion Q].
  - intros c f' p s1 t1 s2 t2 H. apply scaled_element in H as [H|(e & He & Q)]; [apply others in H; eauto|inversion Q].
Qed.
Lemma scaled_sorted : sorted nw -> sorted nw'.
Proof. pose proof SC as (_ & _ & _ & _ & _ & _ & _ & _ & _ & _ & _ & _ & S12 & S13 & _). unfold sorted. now rewrite S12, S13. Qed.
Lemma scaled_power V ac l b t : accounts_for V nw' ac -> In (ELoad l b t) (nw_loads nw) ->
  exists l' Ip Iz, let I := Cadd Ip (Cadd (ld_IP l, ld_IQ l) Iz) in In (ELoad l' b t, [(b, I); (t, Copp I)], []) ac /\
    power (across V b t) Ip = Cscale f (ld_P l, ld_Q l) /\
    ((ld_Zr l, ld_Zi l) = C0 /\ Iz = C0 \/ (ld_Zr l, ld_Zi l) <> C0 /\ Cmul (ld_Zr l, ld_Zi l) Iz = across V b t).
Proof.
  intros [AE AB] H. assert (exists e', In e' (Network.elements nw') /\ scaled_load f (ELoad l b t) e') as (e' & He & Q).
  { destruct SC as [L _]. assert (exists e', In e' (nw_loads nw') /\ scaled_load f (ELoad l b t) e') as (e' & He & Q).
    { revert H. induction L as [|x y xs ys Q L IH]; [intros []|]. intros [->|H]; [exists y; split; [now left|exact Q]|]. destruct (IH H) as (z & Hz & Qz). exists z. split; [now right|exact Qz]. }
    exists e'. split; [|exact Q]. unfold Network.elements. rewrite !in_app_iff. tauto. }
  rewrite <- AE in He. apply in_map_iff in He as ([[e I] m] & E & He). cbn [fst] in E. subst e. rewrite Forall_forall in AB. specialize (AB _ He). cbn [fst snd] in AB.
  inversion Q as [l0 l' b0 t0 Q1 Q2 Q3 Q4 Q5 E1 E2]. subst. inversion AB as [| | | | | | | |l1 b1 t1 Ip Iz HP HZ I' E1 E2 E3| | | | | |]. subst. exists l', Ip, Iz. cbv zeta. subst I'. rewrite Q4, Q5 in *. split; [exact He|]. rewrite Q2, Q3 in HZ. split; [|exact HZ].
  destruct HP as [[Z ->]|[_ ->]]; rewrite <- Q1; [|reflexivity]. rewrite Z. unfold power, Cmul, Cconj, C0. cbn. f_equal; ring.
Qed.
End Scaled.

(** *** linear files *)
Lemma other_elements r opt nw e : solver_network opt r = Ok nw -> In e (Network.elements (with_loads nw [])) ->
  match e with
  | ELoad _ _ _ => False
  | EGen _ => exists o, r = Single o /\ n_gens o <> []
  | ECt c _ _ _ _ _ _ => exists n ph from pri s1 t1 s2 t2 g b, r = Three n /\ In (TCT ph from pri s1 t1 s2 t2 c g b) (nt_xfmrs n)
  | EUnb _ _ _ _ => In e (nw_lines nw)
  | _ => True
  end.
Proof.
  intros E H. destruct r as [n|o]; cbn [solver_network] in E.
  - pose proof (dx_fields _ _ _ E) as (L & T & _ & X & SL & SW & GE & LO & MI & _ & _ & RE & FU & CA & _).
    unfold Network.elements in H. cbn [with_loads nw_three_phase nw_lines nw_transformers nw_slack nw_switches nw_generators nw_loads nw_misc nw_sources nw_shunts nw_regulators nw_fuses nw_capacitors] in H.
    rewrite T, X, SL, SW, GE, MI, RE, FU, CA in H. cbn [map app] in H. rewrite !in_app_iff in H.
    destruct H as [H|[H|[H|[H|[H|[H|H]]]]]].
    + destruct (forall2_left _ _ _ _ _ L e H) as (l & Hl & El). unfold dx_line in El. apply ThreePhaseBase.bind_ok in El as (q & _ & El). injection El as <-. exact H.
    + apply in_map_iff in H as (x & <- & Hx). destruct x; cbn; [exact I|]. do 10 eexists. split; [reflexivity|eassumption].
    + rewrite map_map in H. apply in_map_iff in H as (x & <- & Hx). exact I.
    + apply in_map_iff in H as (x & <- & Hx). exact I.
    + apply in_map_iff in H as (x & <- & Hx). exact I.
    + apply in_map_iff in H as (x & <- & Hx). exact I.
    + apply in_map_iff in H as (x & <- & Hx). exact I.
  - injection E as <-. unfold Network.elements in H. cbn in H. rewrite !in_app_iff in H. destruct H as [H|[H|[H|[H|H]]]].
    + apply in_map_iff in H as (x & <- & _). exact I.
    + apply in_map_iff in H as (x & <- & _). exact I.
    + rewrite map_map in H. apply in_map_iff in H as (x & <- & _). exact I.
    + rewrite map_map in H. apply in_map_iff in H as (x & <- & Hx). exists o. split; [reflexivity|]. intros Z. rewrite Z in Hx. destruct Hx.
    + apply in_map_iff in H as (x & <- & _). exact I.
Qed.
Lemma no_power f r opt nw l b t : solver_network opt r = Ok nw -> linear_file f r -> In (ELoad l b t) (nw_loads nw) -> Cscale f (ld_P l, ld_Q l) = C0.
Proof.
  intros E LF H. assert (f = 0 \/ (ld_P l, ld_Q l) = C0) as [-> | ->].
  { destruct r as [n|o]; cbn [solver_network linear_file] in *; destruct LF as [_ [LF|LF]]; try (left; exact LF); right.
    - apply dx_fields in E as (_ & _ & _ & _ & _ & _ & _ & LO & _). rewrite LO in H. apply in_map_iff in H as (x & Q & Hx). unfold dx_load in Q. injection Q as <- _ _. cbn. exact (LF x Hx).
    - injection E as <-. cbn in H. apply in_map_iff in H as (x & Q & Hx). injection Q as <- _ _. exact (LF x Hx). }
  - unfold Cscale, C0. cbn. f_equal; ring.
  - unfold Cscale, C0. cbn. f_equal; ring.
Qed.
Lemma scaled_linear f r opt nw nw' : solver_network opt r = Ok nw -> scaled f nw nw' -> linear_file f r -> linear_network nw'.
Proof.
  intros E SC LF e' He. apply (scaled_element _ _ _ SC) in He as [He|(e & He & Q)].
  - apply (other_elements _ _ _ _ E) in He. destruct e'; cbn; try exact I; try contradiction.
    + destruct He as (n & ph & fr & pr & a1 & b1 & a2 & b2 & g & b & -> & H). destruct LF as [LF _]. eauto.
    + destruct He as (o & -> & N). destruct LF as [LF _]. contradiction.
  - inversion Q; subst. cbn. rewrite H. eapply no_power; eauto.
Qed.
Lemma scaled_affine f r opt nw nw' : solver_network opt r = Ok nw -> scaled f nw nw' -> linear_file f r ->
  (forall ph g b B, In (EUnb ph g b B) (nw_lines nw) -> symmetric (length ph) g /\ symmetric (length ph) b /\ symmetric (length ph) B) -> affine_network nw'.
Proof.
  intros E SC LF SY e' He. pose proof (scaled_linear _ _ _ _ _ E SC LF e' He) as LE. apply (scaled_element _ _ _ SC) in He as [He|(e & He & Q)].
  - apply (other_elements _ _ _ _ E) in He. destruct e'; cbn in *; try exact I; try contradiction. exact (SY _ _ _ _ He).
  - inversion Q; subst. exact LE.
Qed.

(** *** device control without devices *)
Definition uncontrolled (c : pf_settings) : pf_settings :=
  {| pf_nr := pf_nr c; pf_limiting := pf_limiting c; pf_flat := pf_flat c; pf_tx_stepping := pf_tx_stepping c; pf_device_control := false |}.
Lemma no_control x So (spsolve : So -> list (nat * nat * R) -> list R -> So * option (list R)) nan cfg old visit nw so :
  devices_of x nw (assign_matrix old nw) = [] -> execute x spsolve nan cfg old visit nw so = execute x spsolve nan (uncontrolled cfg) old visit nw so.
Proof.
  intros D. unfold execute. rewrite D. destruct (negb (Nat.eqb _ 1)); [reflexivity|]. destruct (negb (validate _ _)); [reflexivity|].
  change (run_homotopy spsolve nan (uncontrolled cfg) old nw) with (run_homotopy spsolve nan cfg old nw). change (v_init (uncontrolled cfg) nw) with (v_init cfg nw).
  destruct (pf_device_control cfg) eqn:DC; [|cbn [uncontrolled pf_device_control]; reflexivity]. cbn [uncontrolled pf_device_control]. unfold device_run.
  assert (TA : forall w : nat -> R, try_adjust_devices (nw_three_phase nw) w [] = Some ([], false)) by (intros w; destruct (nw_three_phase nw); reflexivity).
  rewrite TA. unfold MAX_DEVICE_ITERATIONS. cbn [device_loop]. destruct (solve _ _ _ _) as [h' [[[ok v] res]|e]]; [|reflexivity]. rewrite TA. destruct ok; reflexivity.
Qed.
