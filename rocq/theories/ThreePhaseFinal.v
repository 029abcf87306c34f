(** Consequences of the element lemmas in the form the properties use. *)
From Coq Require Import Reals ZArith String Ascii Bool Lia Lra Arith List.
From Verif Require Import PyExc Components Devices UnbalancedLine ThreePhase SpecThreePhase SpecThreeElems ThreePhaseBase ThreePhaseBusProofs ThreePhaseElemProofs ThreePhaseXfmrProofs ThreePhaseInitProofs.
Import ListNotations.
Local Open Scope R_scope.

Lemma forall2_in A B (P : A -> B -> Prop) l m b : Forall2 P l m -> In b m -> exists a, In a l /\ P a b.
Proof. induction 1 as [|x y l m H F IH]; [intros []|]. intros [->|I]; [exists x; split; [left|]; auto|]. destruct (IH I) as (a & Ia & Pa). exists a. split; [now right|exact Pa]. Qed.
Lemma mfold_map S A B (f : S -> B -> pres S) (h : A -> B) l s : mfold f (map h l) s = mfold (fun s x => f s (h x)) l s.
Proof. revert s. induction l as [|x l IH]; intros s; cbn; [reflexivity|]. destruct (f s (h x)); cbn; auto. Qed.
Lemma mfold_congr S A (f g : S -> A -> pres S) l s : (forall s x, f s x = g s x) -> mfold f l s = mfold g l s.
Proof. intros H. revert s. induction l as [|x l IH]; intros s; cbn; [reflexivity|]. rewrite H. destruct (g s x); cbn; auto. Qed.
Lemma reopen_same inv cap f ms : parse_three inv cap (map (reopen f) ms) = parse_three inv cap ms.
Proof.
  unfold parse_three, create_buses. rewrite mfold_map.
  rewrite (mfold_congr _ _ (fun s x => node_buses s (reopen f x)) node_buses).
  2:{ intros s m. destruct m; try reflexivity. cbn. destruct (dl_fuse l); reflexivity. }
  destruct (mfold node_buses ms (empty_net, None)) as [s|e]; cbn [pbind]; [|reflexivity].
  rewrite mfold_map. apply mfold_congr. intros n m. destruct m; try reflexivity. cbn [reopen]. destruct (dl_fuse l) eqn:F; [|reflexivity].
  cbn [create_element]. unfold create_line. cbn [dl_fuse dl_wires]. rewrite F, mfold_map. apply mfold_congr. reflexivity.
Qed.
Lemma conditions ms : known_elements ms -> Forall (fun m => Forall known (element_phases m)) ms.
Proof. intros H; exact H. Qed.

Section P.
Variables (inv : matrix -> option matrix) (cap : bool) (ms : list dmodel) (n : net).
Hypothesis K : known_elements ms.
Hypothesis E : parse_three inv cap ms = Ok n.
Lemma p_xfmrs : exists gs, nt_xfmrs n = concat gs /\ Forall2 (fun us x => xfmr_made n x us) gs (flat_map xfmrs_of ms).
Proof.
  destruct (parse_ok _ _ _ _ K E) as (n0 & _ & _ & _ & [_ _ _ _ _ _ (gs & H1 & H2)]). exists gs. split; [exact H1|].
  eapply forall2_impl; [|exact H2]. intros a b [_ Q]. exact Q.
Qed.
Lemma in_xfmrs x : In (MXfmr x) ms -> In x (flat_map xfmrs_of ms).
Proof. intros H. apply in_flat_map. exists (MXfmr x). split; [exact H|left; reflexivity]. Qed.
Lemma p_one x : In (MXfmr x) ms -> exists us, incl us (nt_xfmrs n) /\ xfmr_made n x us.
Proof.
  intros H. destruct p_xfmrs as (gs & E1 & F). destruct (forall2_in _ _ _ _ _ _ F (in_xfmrs _ H)) as (us & I & M).
  exists us. split; [|exact M]. intros u Hu. rewrite E1. apply in_concat. eauto.
Qed.
Lemma p_tap x : In (MXfmr x) ms -> dx_tap x = true -> exists u, In u (nt_xfmrs n) /\ ct_made n x u.
Proof.
  intros H T. destruct (p_one x H) as (us & I & M). unfold xfmr_made in M. rewrite T in M. destruct M as (u & -> & M).
  exists u. split; [apply I; left; reflexivity|exact M].
Qed.
Lemma coil_fun w v v' : coil_voltage w v -> coil_voltage w v' -> v = v'.
Proof.
  intros (u & A1 & A2 & A3) (u' & B1 & B2 & B3). assert (u = u') by congruence. subst u'.
  destruct (delta (dw_conn w)) eqn:D.
  - apply delta_spec in D. rewrite (A2 D), (B2 D). reflexivity.
  - assert (N : ~ is_delta w) by (rewrite <- delta_spec; congruence). rewrite (A3 N), (B3 N). reflexivity.
Qed.
Lemma p_shunt x w1 w2 p r xx vp s : In (MXfmr x) ms -> dx_tap x = false -> dx_windings x = [w1; w2] -> In p (dw_phases w1) ->
  dx_shunt x = Some (r, xx) -> ~ (r = 0 /\ xx = 0) -> coil_voltage w1 vp -> dw_rated w2 = Some s -> 0 < s ->
  exists fp fn tp tn d g b rt, In (TX fp fn tp tn d g b rt) (nt_xfmrs n) /\ leads_to_o n (dx_from x) p (match fp with Some i => i | None => 0%nat end) /\
    (let k := s / (vp * vp) * (s / (vp * vp)) in inverse_of (g * k) (b * k) (r * (vp * vp / s)) (xx * (vp * vp / s))) /\
    (inverse_of g b (r * (vp * vp / s)) (xx * (vp * vp / s)) <-> vp * vp = s).
Proof.
  intros H T W P SH NZ CV RT PS. destruct (p_one x H) as (us & I & M). unfold xfmr_made in M. rewrite T in M.
  destruct M as (w1' & w2' & W' & _ & M). rewrite W in W'. injection W' as <- <-.
  apply In_nth_error in P as [i P]. destruct (M i p P) as (u & U & fp & fn & tp & tn & d & g & b & -> & L1 & _ & _ & _ & vp' & vs & s' & r2 & V1 & _ & S1 & _ & _ & _ & _ & _ & _ & SU).
  rewrite RT in S1. injection S1 as <-. rewrite (coil_fun _ _ _ V1 CV) in SU.
  exists (Some fp), fn, (Some tp), tn, d, g, b, (dw_rated w1). split; [apply I; eapply nth_error_In; exact U|]. split; [exact L1|]. split.
  - unfold shunt_unit in SU. rewrite SH in SU. destruct SU as [_ SU]. exact (proj2 (SU NZ)).
  - exact (shunt_right x s vp g b r xx SH NZ PS SU).
Qed.
Lemma p_loads : Forall2 (fun t i => load_made n (fst i) (snd i) t) (nt_loads n) (flat_map load_items ms).
Proof. destruct (parse_ok _ _ _ _ K E) as (n0 & _ & _ & _ & [H _ _ _ _ _ _]). exact H. Qed.
Lemma p_caps : Forall2 (fun t i => cap_made n (fst i) (snd i) t) (nt_caps n) (flat_map caps_of ms).
Proof. destruct (parse_ok _ _ _ _ K E) as (n0 & _ & _ & _ & [_ H _ _ _ _ _]). eapply forall2_impl; [|exact H]. intros a b [_ Q]. exact Q. Qed.
Lemma p_regs : Forall2 (fun t i => reg_made n (fst i) (snd i) t) (nt_regs n) (flat_map regs_of ms).
Proof. destruct (parse_ok _ _ _ _ K E) as (n0 & _ & _ & _ & [_ _ H _ _ _ _]). eapply forall2_impl; [|exact H]. intros a b [_ Q]. exact Q. Qed.
Lemma p_fuses : Forall2 (fun t i => fuse_made n (fst i) (snd i) t) (nt_fuses n) (flat_map fuses_of ms).
Proof. destruct (parse_ok _ _ _ _ K E) as (n0 & _ & _ & _ & [_ _ _ H _ _ _]). eapply forall2_impl; [|exact H]. intros a b [_ Q]. exact Q. Qed.
Lemma p_switches : Forall2 (fun t i => switch_made n (fst i) (snd i) t) (nt_switches n) (flat_map switches_of ms).
Proof. destruct (parse_ok _ _ _ _ K E) as (n0 & _ & _ & _ & [_ _ _ _ H _ _]). eapply forall2_impl; [|exact H]. intros a b [_ Q]. exact Q. Qed.
Lemma p_lines : Forall2 (fun t l => line_made cap l t) (nt_lines n) (flat_map lines_of ms).
Proof. destruct (parse_ok _ _ _ _ K E) as (n0 & _ & _ & _ & [_ _ _ _ _ H _]). exact H. Qed.
Lemma p_refs : Forall (fun i => (i < List.length (nt_buses n))%nat) (all_refs n).
Proof. destruct (parse_ok _ _ _ _ K E) as (n0 & _ & _ & [W B] & _). rewrite (wf_length _ W). exact B. Qed.
Lemma p_numbers : map tb_id (nt_buses n) = seq 0 (List.length (nt_buses n)).
Proof. destruct (parse_ok _ _ _ _ K E) as (n0 & _ & _ & [W B] & _). rewrite (wf_length _ W). exact (proj1 W). Qed.
Lemma p_frame : exists n0, create_buses ms = Ok n0 /\ nt_slack n = nt_slack n0 /\
  (exists l, map ident (nt_buses n) = map ident (nt_buses n0) ++ l /\ Forall (fun i => snd (fst i) = true) l) /\
  forall name p b, one_letter p -> ~ interior_name name -> (found n name p b <-> found n0 name p b).
Proof.
  destruct (parse_ok _ _ _ _ K E) as (n0 & E0 & X & _). exists n0. split; [exact E0|]. split; [exact (ext_slack _ _ X)|]. split; [exact (ext_buses _ _ X)|].
  intros name p b O N. unfold found. rewrite !lookup_ok, (ext_map _ _ X); tauto.
Qed.
End P.

(** the local variables of create_buses are always bound when they are read *)
Lemma no_unbound ms : create_buses ms <> Err UnboundLocalError.
Proof.
  unfold create_buses. rewrite nodes_as_visits.
  assert (G : forall l s, wf (fst s) -> (snd s = None -> nt_map (fst s) = []) -> mfold step l s <> Err UnboundLocalError).
  { induction l as [|[nd p] l IH]; intros [n st] W H; cbn [mfold]; [discriminate|].
    destruct (step (n, st) (nd, p)) as [[n' st']|e] eqn:S; cbn [pbind].
    - pose proof (step_visited _ _ _ _ _ _ W S) as V. cbn [fst snd] in *.
      assert (L : forall c q b, st = None -> lookup n c q = Ok b -> False).
      { intros c q b -> Q. apply lookup_ok in Q. rewrite (H eq_refl) in Q. discriminate. }
      inversion V as [NK|par b n1 K EP EL SA|c b n1 K EP EC EL SA|va vr vi n1 K RT SP SA]; subst.
      + apply IH; auto.
      + apply IH; cbn [fst snd].
        * pose proof (wf_lookup _ _ _ _ W EL). inversion SA; subst; now apply wf_set_map.
        * intros Q. destruct (L _ _ _ Q EL).
      + apply IH; cbn [fst snd].
        * inversion SA; subst; exact W.
        * intros Q. destruct (L _ _ _ Q EL).
      + apply IH; cbn [fst snd]; [|discriminate].
        assert (W' : wf (set_buses (fst (create_bus n (fst va) (snd va) (dn_name nd) p false))
           (nt_buses n ++ [{| tb_id := nt_next n; tb_name := dn_name nd; tb_phase := p; tb_virtual := false; tb_vnom := fst va; tb_vr := vr; tb_vi := vi |}]))).
        { destruct (wf_create n (fst va) (snd va) (dn_name nd) p false W) as [W1 W2]. split; [|exact W2].
          cbn [set_buses nt_buses nt_next]. rewrite map_app. cbn [create_bus fst nt_buses nt_next] in W1. rewrite map_app in W1. exact W1. }
        inversion SA; subst; exact W'.
    - intros Q. injection Q as ->. unfold step, node_phase in S. cbn [fst snd] in *.
      destruct (phase_angle p) as [ang|]; [|discriminate].
      assert (L : forall c q, lookup n c q <> Err UnboundLocalError) by (intros c q; unfold lookup; destruct (assoc _ _); discriminate).
      assert (LS : forall c q b, lookup n c q = Ok b -> exists va, st = Some va).
      { intros c q b Q. destruct st; [eauto|]. apply lookup_ok in Q. rewrite (H eq_refl) in Q. discriminate. }
      destruct (dn_parent nd) as [par|].
      + destruct (lookup n par p) as [b|e] eqn:EL; cbn in S.
        * destruct (LS _ _ _ EL) as [[m a] ->]. destruct (dn_source nd); discriminate.
        * injection S as ->. exact (L _ _ EL).
      + destruct (dn_conn nd) as [c|].
        * destruct (lookup n c p) as [b|e] eqn:EL; cbn in S.
          -- destruct (LS _ _ _ EL) as [[m a] ->]. destruct (dn_source nd); discriminate.
          -- injection S as ->. exact (L _ _ EL).
        * destruct (if triplex p then None else dn_volt nd p) as [[m a]|].
          -- cbn in S. destruct (dn_source nd); discriminate.
          -- destruct (dn_vnom nd) as [m|]; cbn in S; [|discriminate]. destruct (dn_source nd); discriminate. }
  destruct (mfold step (visits (nodes_of ms)) (empty_net, None)) as [s|e] eqn:EM; cbn [pbind]; [discriminate|].
  intros Q. injection Q as ->. revert EM. apply G; [apply wf_empty|reflexivity].
Qed.
