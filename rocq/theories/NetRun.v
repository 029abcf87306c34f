(** Lemmas for C143: lengths of the vectors of a run, and what residuals, matrix and success mean for a network. *)
From Coq Require Import String List Bool Arith ZArith Reals Lia Lra.
From Verif Require Import Expr Segment Stamper Builder Residual Collect SpecSystem Components SpecComponents Network SpecNetwork NetworkProofs
  SystemProofs Solver SpecSolver SolverProofs Homotopy SpecHomotopy HomotopyProofs SpecKirchhoff KirchhoffProofs KirchhoffNet SpecNetStamper NetStamper NetStamperProofs NetStamperNet NetDefined.
Import ListNotations.
Local Open Scope R_scope.

(** *** lengths *)
Section Lengths.
Context {M So : Type}.
Variable spsolve : So -> list (nat * nat * R) -> list R -> So * option (list R).
Variable limiting : option (list R -> list R -> option (list R)).
Variable cfg : settings.
Hypothesis SZ : sized spsolve.

Lemma add_at_length : forall (J : list R) r x J', add_at J r x = Some J' -> length J' = length J.
Proof. induction J as [|y J IH]; intros [|r] x J' H; cbn in H; try discriminate; [injection H as <-; reflexivity|]. destruct (add_at J r x) eqn:E; [|discriminate]. injection H as <-. cbn. f_equal. eauto. Qed.
Lemma apply_length : forall evs Y J Y' J', apply_events cfg Y J evs = inl (Y', J') -> length J' = length J.
Proof.
  induction evs as [|[r c x|r x] evs IH]; intros Y J Y' J' H; cbn in H; [now injection H as _ <-| |].
  - destruct (b_stamp _ _ _ _ _); [eauto|discriminate].
  - destruct (add_at J r x) eqn:E; [|discriminate]. rewrite <- (add_at_length _ _ _ _ E). eauto.
Qed.
Lemma loop_length {St} (sl : St -> R -> St * list (@event R)) sn (sr : St -> R -> (nat -> R) -> Z -> St * list (M * nat * R)) :
  forall n k tx li JL st so Y vp h v k' st' so',
  nr_loop sn sr spsolve limiting cfg n k tx li JL st so Y vp h = NOk true v k' st' so' -> length v = length JL.
Proof.
  induction n as [|n IH]; intros k tx li JL st so Y vp h v k' st' so' H; cbn [nr_loop] in H; [destruct k; discriminate|].
  destruct (sn st (vec vp) (Z.of_nat k)) as [st1 evs]. destruct (apply_events cfg Y JL evs) as [[Y1 J]|] eqn:EA; [|discriminate].
  destruct (b_assert_valid (set_debug cfg) Y1); [|discriminate]. destruct (b_to_matrix (set_debug cfg) Y1) as [es|]; [|discriminate].
  destruct (spsolve so es J) as [so2 [vn|]] eqn:ES; [|discriminate]. destruct (sr st1 tx (vec vn) (Z.of_nat k)) as [st2 res].
  destruct (mk_residual_details res (length vn)) as [rd|]; [|discriminate]. destruct (bails_out (h ++ [rd_max rd])); [discriminate|].
  destruct (Rltb (rd_max rd) (set_tolerance cfg)).
  - injection H as <- _ _ _. rewrite (SZ _ _ _ _ _ ES). eapply apply_length; eauto.
  - match type of H with match ?x with Some _ => _ | None => _ end = _ => destruct x; [|discriminate] end. eapply IH; eauto.
Qed.
Lemma nr_length (s : @mstamper R skey (list sym) M * So) v0 tx v k s' : net_nr spsolve limiting cfg s v0 tx = NR true v k s' -> length v = length v0.
Proof.
  unfold net_nr, network_run, nr_run. destruct (stamp_linear pkey_eqb (fst s) tx) as [st0 evs].
  destruct (apply_events cfg b_init (repeat 0 (length v0)) evs) as [[Y JL]|] eqn:EA; [|discriminate].
  match goal with |- match ?x with _ => _ end = _ -> _ => destruct x as [b v1 k1 st1 so1|] eqn:E; [|discriminate] end. intros H. injection H as -> <- <- <-.
  apply loop_length in E; [|exact (stamp_linear pkey_eqb)]. rewrite E, (apply_length _ _ _ _ _ EA). apply repeat_length.
Qed.
Lemma homotopy_length tx_stepping (st : @mstamper R skey (list sym) M) so v0 r s' :
  net_homotopy spsolve limiting cfg tx_stepping st so v0 = HOk r s' -> h_ok r = true -> length (h_v r) = length v0.
Proof.
  intros H Hk. destruct (homotopy_success _ _ _ _ _ _ _ H Hk) as [[k [A _]]|[_ [v1 [k1 [s [v [k [A [B [C [D [E _]]]]]]]]]]]].
  - eapply nr_length; eauto.
  - assert (forall i, (i <= 101)%nat -> length (v i) = length v0) as L; [|rewrite <- E; apply L; lia].
    induction i as [|i IH]; intros Hi; [now rewrite B|]. rewrite <- IH by lia. eapply nr_length. apply (C i). lia.
Qed.
End Lengths.

(** *** C143 *)
Section Network.
Variables (old : table) (nw : network).
Hypothesis OK : network_ok nw.
Hypothesis EN : ends_on_buses nw.
Let a := assign_matrix old nw.
Let opt := optimizing nw.

Lemma network_residuals nan : nw_optimization nw = None -> exists ms, matrix_stamper nan nw a = Some ms /\
  forall ops ms1 outs v w k, do_ops pkey_eqb ms ops = (ms1, outs) -> last_iter (-1)%Z ops <> k -> live nw (voltages a v) ->
  exists ms2 E1 E2 Rs ac, do_ops pkey_eqb ms1 [OLinear 0; ONonlinear v k; OResiduals 0 w k] = (ms2, [OutEvents E1; OutEvents E2; OutResids Rs]) /\
    accounts_for (voltages a v) nw ac /\ as_size a = (2 * length (nw_buses nw) + length (misses ac))%nat /\
    tells nw ac (Rrow Rs) /\ tells nw ac (fun r => Yrow (E1 ++ E2) v r - Jentry (E1 ++ E2) r).
Proof.
  intros NO. destruct (network_builds old nw OK EN nan) as [cs [ms [B [EO [SP [BS MS]]]]]]. exists ms. split; [exact MS|].
  intros ops ms1 outs v w k D L LV.
  destruct (@assembled_residual _ _ _ _ _ _ _ _ _ 0 v w k B EO SP BS D L) as [ms2 [E1 [E2 [Rs [D2 HR]]]]].
  { intros e He. rewrite elements_of_network in He. now apply (network_defined old nw). }
  destruct (all_rows old nw OK NO v (proj1 LV)) as [ac [AC [G1 [G2 G3]]]].
  exists ms2, E1, E2, Rs, ac. split; [exact D2|]. split; [exact AC|]. split; [exact G3|].
  rewrite elements_of_network in HR.
  assert (T : tells nw ac (F (equations a) v 0)) by (split; assumption).
  split; split; destruct T as [T1 T2]; intros.
  - rewrite !(proj2 (HR _)). eauto.
  - rewrite !(proj2 (HR _)). eauto.
  - rewrite <- !(proj1 (HR _)), !(proj2 (HR _)). eauto.
  - rewrite <- !(proj1 (HR _)), !(proj2 (HR _)). eauto.
Qed.
Lemma network_jacobian nan : exists ms, matrix_stamper nan nw a = Some ms /\
  forall ops ms1 outs v w k, do_ops pkey_eqb ms ops = (ms1, outs) -> last_iter (-1)%Z ops <> k -> live nw (voltages a v) ->
  exists ms2 E1 E2 Rs, do_ops pkey_eqb ms1 [OLinear 0; ONonlinear v k; OResiduals 0 w k] = (ms2, [OutEvents E1; OutEvents E2; OutResids Rs]) /\
    forall r c, derivable_pt_lim (fun t => F (equations a) (set_v v c t) 0 r) (v c) (Yentry (E1 ++ E2) r c).
Proof.
  destruct (network_builds old nw OK EN nan) as [cs [ms [B [EO [SP [BS MS]]]]]]. exists ms. split; [exact MS|].
  intros ops ms1 outs v w k D L LV.
  destruct (@assembled_jacobian _ _ _ _ _ _ _ _ _ 0 v w k B EO SP BS D L) as [ms2 [E1 [E2 [Rs [D2 HR]]]]].
  { intros e He. rewrite elements_of_network in He. now apply (network_defined old nw). }
  exists ms2, E1, E2, Rs. split; [exact D2|]. intros r c. rewrite <- elements_of_network. apply HR.
Qed.
Lemma network_success nan So (spsolve : So -> list (nat * nat * R) -> list R -> So * option (list R)) limiting cfg tx_stepping : sized spsolve ->
  exists ms, matrix_stamper nan nw a = Some ms /\
  forall so v0 r s', length v0 = as_size a -> net_homotopy spsolve limiting cfg tx_stepping ms so v0 = HOk r s' -> h_ok r = true ->
  length (h_v r) = as_size a /\
  exists u lin stale J so0,
    spsolve so0 (lin ++ stale) J = (snd s', Some (h_v r)) /\ (set_debug cfg = true -> stale = []) /\
    (live nw (voltages a u) -> linearised_at (equations a) 0 u lin J) /\
    (forall q, (q < as_size a)%nat -> Rabs (F (equations a) u 0 q) < set_tolerance cfg /\ nth q (rd_residuals (h_res r)) 0 = F (equations a) u 0 q) /\
    (nw_optimization nw = None -> energised nw (voltages a u) -> nearly_physical (set_tolerance cfg) nw (voltages a u)).
Proof.
  intros SZ. destruct (network_builds old nw OK EN nan) as [cs [ms [B [EO [SP [BS MS]]]]]]. exists ms. split; [exact MS|].
  intros so v0 r s' L H Hk. pose proof (homotopy_length _ _ _ SZ _ _ _ _ _ _ H Hk) as LH. rewrite L in LH. split; [exact LH|].
  destruct (@net_homotopy_certified _ _ _ _ _ _ _ B EO SP BS _ _ _ _ _ _ _ _ H Hk) as [u [lin [stale [J [so0 [P1 [P2 [P3 [P4 P5]]]]]]]]].
  rewrite elements_of_network in P3, P4. rewrite LH in P4.
  exists u, lin, stale, J, so0. split; [exact P1|]. split; [exact P2|]. split; [|split; [exact P4|]].
  - intros LV. apply P3. intros e He. now apply (network_defined old nw).
  - intros NO Hen. apply (within old nw OK NO); auto. intros q Hq. now apply P4.
Qed.
End Network.
