(** Transformers of the three-phase parser, and the whole of parse. *)
From Coq Require Import Reals ZArith String Ascii Bool Lia Lra Arith Relations Permutation List.
From Verif Require Import PyExc Components Devices UnbalancedLine ThreePhase SpecThreePhase SpecThreeElems ThreePhaseBase ThreePhaseBusProofs ThreePhaseElemProofs.
Import ListNotations.
Local Open Scope R_scope.

(** *** phase lists *)
Lemma append_each_length l m : List.length l = List.length m -> List.length (append_each l m) = List.length l.
Proof. revert m. induction l as [|a l IH]; intros [|b m]; cbn; auto; discriminate || (intros E; f_equal; apply IH; congruence). Qed.
Lemma append_each_nth : forall l m i a b, nth_error l i = Some a -> nth_error m i = Some b -> nth_error (append_each l m) i = Some (a ++ b)%string.
Proof.
  induction l as [|x l IH]; intros [|y m] [|i] a b Ha Hb; cbn in *; try discriminate.
  - injection Ha as ->. injection Hb as ->. reflexivity.
  - apply IH; assumption.
Qed.
Lemma rotate_length ps : List.length (rotate ps) = List.length ps.
Proof. destruct ps; [reflexivity|]. unfold rotate. rewrite app_length. cbn. lia. Qed.
Lemma rotate_nth ps i : (i < List.length ps)%nat -> nth_error (rotate ps) i = succ_phase ps i.
Proof.
  intros H. unfold succ_phase. destruct ps as [|p ps]; [cbn in H; lia|]. cbn [rotate skipn firstn List.length] in *.
  change (rotate (p :: ps)) with (ps ++ [p]).
  destruct (Nat.eq_dec i (List.length ps)) as [->|NE].
  - rewrite Nat.mod_same by lia. rewrite nth_error_app2 by lia. rewrite Nat.sub_diag. reflexivity.
  - rewrite Nat.mod_small by lia. rewrite nth_error_app1 by lia. reflexivity.
Qed.
Definition partner (d : bool) (ps : list string) (i : nat) : option string :=
  if d then succ_phase ps i else Some "N"%string.
Lemma nth_some A (l : list A) i : (i < List.length l)%nat -> exists a, nth_error l i = Some a.
Proof. intros H. destruct (nth_error l i) eqn:E; [eauto|]. apply nth_error_None in E. lia. Qed.
Lemma mod_lt' a b : (0 < b)%nat -> (Nat.modulo a b < b)%nat.
Proof. intros H. apply Nat.mod_upper_bound. lia. Qed.
Lemma partner_some d ps i : (i < List.length ps)%nat -> exists q, partner d ps i = Some q.
Proof.
  intros H. destruct d; cbn; [|eauto]. apply nth_some. apply mod_lt'. lia.
Qed.
Lemma neg_list (d : bool) ps i : (i < List.length ps)%nat -> nth_error (if d then rotate ps else map (fun _ : string => "N"%string) ps) i = partner d ps i.
Proof.
  intros H. destruct d; cbn [partner]; [now apply rotate_nth|]. destruct (nth_some _ _ _ H) as [p E]. now rewrite (map_nth_error _ _ _ E).
Qed.
Lemma neg_length (d : bool) ps : List.length (if d then rotate ps else map (fun _ : string => "N"%string) ps) = List.length ps.
Proof. destruct d; [apply rotate_length|apply map_length]. Qed.
Lemma list_length d1 d2 ps : List.length (get_phase_list d1 d2 ps) = List.length ps.
Proof.
  unfold get_phase_list.
  assert (L1 : List.length (append_each ps (if d1 then rotate ps else map (fun _ : string => "N"%string) ps)) = List.length ps) by (apply append_each_length; now rewrite neg_length).
  assert (L2 : List.length (append_each (append_each ps (if d1 then rotate ps else map (fun _ : string => "N"%string) ps)) ps) = List.length ps) by (rewrite append_each_length; auto).
  rewrite append_each_length; [exact L2|]. now rewrite L2, neg_length.
Qed.
Lemma list_nth d1 d2 ps i p q1 q2 : nth_error ps i = Some p -> partner d1 ps i = Some q1 -> partner d2 ps i = Some q2 ->
  nth_error (get_phase_list d1 d2 ps) i = Some (p ++ q1 ++ p ++ q2)%string.
Proof.
  intros E Q1 Q2. assert (L : (i < List.length ps)%nat) by (apply nth_error_Some; congruence).
  unfold get_phase_list. rewrite (append_each_nth _ _ i (p ++ q1 ++ p)%string q2).
  - f_equal. now rewrite !sapp_assoc.
  - rewrite (append_each_nth _ _ i (p ++ q1)%string p); [now rewrite sapp_assoc| |exact E].
    apply append_each_nth; [exact E|]. rewrite neg_list; auto.
  - rewrite neg_list; auto.
Qed.
Lemma unpack_letters a b c d : one_letter a -> one_letter b -> one_letter c -> one_letter d ->
  unpack4 (a ++ b ++ c ++ d) = Ok (a, b, c, d).
Proof. intros [w ->] [x ->] [y ->] [z ->]. reflexivity. Qed.
Lemma partner_letter d ps i q : Forall one_letter ps -> partner d ps i = Some q -> one_letter q.
Proof.
  intros F H. destruct d; cbn in H; [|injection H as <-; exists "N"%char; reflexivity].
  rewrite Forall_forall in F. apply F. eapply nth_error_In; exact H.
Qed.
Lemma phase_entry d1 d2 ps i p : Forall one_letter ps -> nth_error ps i = Some p ->
  exists e q1 q2, nth_error (get_phase_list d1 d2 ps) i = Some e /\ unpack4 e = Ok (p, q1, p, q2) /\ partner d1 ps i = Some q1 /\ partner d2 ps i = Some q2.
Proof.
  intros F E. assert (L : (i < List.length ps)%nat) by (apply nth_error_Some; congruence).
  destruct (partner_some d1 ps i L) as [q1 Q1], (partner_some d2 ps i L) as [q2 Q2].
  exists (p ++ q1 ++ p ++ q2)%string, q1, q2. split; [now apply list_nth|]. split; [|auto].
  assert (one_letter p) by (rewrite Forall_forall in F; apply F; eapply nth_error_In; exact E).
  apply unpack_letters; auto; eapply partner_letter; eauto.
Qed.

(** *** electrical data *)
Lemma both0_spec a b : both0 a b = true <-> a = 0 /\ b = 0.
Proof.
  unfold both0, is0. destruct (Req_EM_T a 0), (Req_EM_T b 0); cbn; intuition (discriminate || auto).
Qed.
Lemma sum_sq_nz r x : ~ (r = 0 /\ x = 0) -> r * r + x * x <> 0.
Proof.
  intros H E. apply H. assert (0 <= r * r) by (apply Rle_0_sqr). assert (0 <= x * x) by (apply Rle_0_sqr).
  split; apply Rsqr_0_uniq; unfold Rsqr; lra.
Qed.
Lemma series_inverse r x : both0 r x = false -> inverse_of (series_G r x) (series_B r x) r x.
Proof.
  intros H. assert (NZ : r * r + x * x <> 0).
  { apply sum_sq_nz. rewrite <- both0_spec. congruence. }
  unfold inverse_of, series_G, series_B. split; field; exact NZ.
Qed.
Lemma new_transformer_spec r x tr a d : new_transformer r x tr a = Some d ->
  xf_tr d = tr /\ xf_ang d = a * PI / 180 /\ inverse_of (xf_G d) (xf_B d) r x.
Proof.
  unfold new_transformer. destruct (both0 r x) eqn:B; [discriminate|]. injection 1 as <-. cbn.
  split; [reflexivity|]. split; [reflexivity|]. now apply series_inverse.
Qed.
Lemma fold_left_sum l : fold_left Rplus l 0 = fold_right Rplus 0 l.
Proof.
  assert (G : forall l a, fold_left Rplus l a = a + fold_right Rplus 0 l).
  { induction l0 as [|x l0 IH]; intros a; cbn; [ring|]. rewrite IH. ring. }
  rewrite G. ring.
Qed.
Lemma delta_spec w : delta (dw_conn w) = true <-> is_delta w.
Proof.
  unfold delta, is_delta. destruct (dw_conn w) as [s|]; [|split; discriminate].
  destruct (String.eqb_spec s "D") as [->|]; split; congruence.
Qed.
Lemma nominal_spec w v : nominal w = Ok v -> coil_voltage w v.
Proof.
  unfold nominal. destruct (delta (dw_conn w)) eqn:D; intros E.
  - apply bind_ok in E as (u & E & E'). injection E' as <-. apply num_ok in E. apply delta_spec in D.
    exists u. split; [exact E|]. split; [reflexivity|tauto].
  - apply num_ok in E. exists v. split; [exact E|]. split; [|reflexivity]. rewrite <- delta_spec. congruence.
Qed.
Lemma coil_spec res rea v s : s <> 0 -> coil_made (coil_G (coil_r res v s) (coil_r rea v s)) (coil_B (coil_r res v s) (coil_r rea v s)) res rea v s.
Proof.
  intros S. unfold coil_made, coil_G, coil_B. split.
  - intros H. assert (B : both0 (coil_r res v s) (coil_r rea v s) = true).
    { apply both0_spec. unfold coil_r. destruct H as [[-> ->]| ->]; split; field; exact S. }
    rewrite B. auto.
  - intros H V. destruct (both0 (coil_r res v s) (coil_r rea v s)) eqn:B.
    + apply both0_spec in B as [B1 B2]. exfalso. apply H. unfold coil_r in *.
      assert (K : forall y, y * (v * v) / s = 0 -> y = 0).
      { intros y E. apply (Rmult_eq_reg_r (v * v / s)).
        - rewrite Rmult_0_l. rewrite <- E. field. exact S.
        - intros Q. apply V. apply (Rmult_eq_compat_r s) in Q. rewrite Rmult_0_l in Q. unfold Rdiv in Q. rewrite Rmult_assoc, Rinv_l, Rmult_1_r in Q by exact S.
          apply Rsqr_0_uniq. exact Q. }
      auto.
    + now apply series_inverse.
Qed.

Lemma series_admittance_spec r x g b : series_admittance r x = Ok (g, b) -> inverse_of g b r x.
Proof.
  unfold series_admittance. intros E. apply bind_ok in E as (g' & E1 & E). apply bind_ok in E as (b' & E2 & E). injection E as -> ->.
  apply pdiv_ok in E1 as [NZ ->]. apply pdiv_ok in E2 as [_ ->]. split; field; exact NZ.
Qed.
Lemma sq_nz v : v * v <> 0 -> v <> 0.
Proof. intros H ->. apply H. ring. Qed.
Lemma shunt3_spec x w2 s vp g b : dw_rated w2 = Some s -> s <> 0 -> shunt3 x (dw_rated w2) vp = Ok (g, b) -> shunt_unit x s vp g b.
Proof.
  intros ES NS E. unfold shunt3 in E. unfold shunt_unit. destruct (dx_shunt x) as [[r xx]|]; [|injection E as <- <-; auto].
  destruct (both0 r xx) eqn:B.
  - apply both0_spec in B. injection E as <- <-. split; [auto|tauto].
  - assert (NB : ~ (r = 0 /\ xx = 0)) by (rewrite <- both0_spec; congruence). split; [tauto|intros _].
    rewrite ES in E. cbn [num pbind] in E. apply bind_ok in E as (r' & E1 & E). apply bind_ok in E as (x' & E2 & E).
    apply pdiv_ok in E1 as [NV ->]. apply pdiv_ok in E2 as [_ ->]. apply series_admittance_spec in E as [I1 I2].
    pose proof (sq_nz _ NV) as NV'. split; [exact NV'|]. cbv zeta. split.
    + rewrite <- I1. field. auto.
    + rewrite <- I2. field. auto.
Qed.
Lemma shunt_ct_spec x w2 v0 g b : shunt_ct x v0 (dw_rated w2) = Ok (g, b) -> shunt_tap x w2 v0 g b.
Proof.
  intros E. unfold shunt_ct in E. unfold shunt_tap. destruct (dx_shunt x) as [[r xx]|]; [|injection E as <- <-; auto].
  destruct (both0 r xx) eqn:B.
  - apply both0_spec in B. injection E as <- <-. split; [auto|tauto].
  - assert (NB : ~ (r = 0 /\ xx = 0)) by (rewrite <- both0_spec; congruence). split; [tauto|intros _].
    apply bind_ok in E as (s2 & ES & E). apply bind_ok in E as (r' & E1 & E). apply bind_ok in E as (x' & E2 & E).
    apply num_ok in ES. apply pdiv_ok in E1 as [NV ->]. apply pdiv_ok in E2 as [_ ->]. apply series_admittance_spec in E.
    exists s2. split; [exact ES|]. split; [exact NV|].
    replace (r * (v0 * v0 / s2)) with (r * (v0 * v0) / s2) by (field; exact NV).
    replace (xx * (v0 * v0 / s2)) with (xx * (v0 * v0) / s2) by (field; exact NV). exact E.
Qed.
(** what the factor means *)
Lemma scaled_inverse g b r x k : inverse_of (g * k) (b * k) r x -> inverse_of g b r x -> k = 1.
Proof.
  intros [A1 A2] [B1 B2]. assert (A : (g * r - b * x) * k = 1) by (rewrite <- A1; ring). rewrite B1 in A. lra.
Qed.
Lemma shunt_right x s vp g b r xx : dx_shunt x = Some (r, xx) -> ~ (r = 0 /\ xx = 0) -> 0 < s -> shunt_unit x s vp g b ->
  inverse_of g b (r * (vp * vp / s)) (xx * (vp * vp / s)) <-> vp * vp = s.
Proof.
  intros E NZ S H. unfold shunt_unit in H. rewrite E in H. destruct H as [_ H]. destruct (H NZ) as [NV I]. cbv zeta in I.
  assert (VV : 0 < vp * vp) by (apply Rsqr_pos_lt; exact NV). split.
  - intros J. pose proof (scaled_inverse _ _ _ _ _ I J) as K.
    assert (P : 0 < s / (vp * vp)) by (apply Rdiv_lt_0_compat; lra).
    assert (Q : s / (vp * vp) = 1).
    { set (q := s / (vp * vp)) in *. assert (F : (q - 1) * (q + 1) = 0) by lra. apply Rmult_integral in F as [F|F]; lra. }
    apply (Rmult_eq_compat_r (vp * vp)) in Q. unfold Rdiv in Q. rewrite Rmult_assoc, Rinv_l, Rmult_1_r, Rmult_1_l in Q by lra. auto.
  - intros F. rewrite F in *. replace (s / s * (s / s)) with 1 in I by (field; lra). rewrite !Rmult_1_r in I. exact I.
Qed.

(** *** the ring of a delta *)
Lemma combine_nth A B (l : list A) (m : list B) i a b : nth_error l i = Some a -> nth_error m i = Some b -> nth_error (combine l m) i = Some (a, b).
Proof. revert m i. induction l as [|x l IH]; intros [|y m] [|i] Ha Hb; cbn in *; try discriminate; [congruence|auto]. Qed.
Lemma combine_fst A B (l : list A) (m : list B) : List.length l = List.length m -> map fst (combine l m) = l.
Proof. revert m. induction l as [|x l IH]; intros [|y m] E; cbn in *; try discriminate; [reflexivity|]. f_equal. apply IH. lia. Qed.
Lemma combine_snd A B (l : list A) (m : list B) : List.length l = List.length m -> map snd (combine l m) = m.
Proof. revert m. induction l as [|x l IH]; intros [|y m] E; cbn in *; try discriminate; [reflexivity|]. f_equal. apply IH. lia. Qed.
Definition negs (d : bool) (ps : list string) := if d then rotate ps else map (fun _ : string => "N"%string) ps.
Lemma ring_link ps i a b : nth_error ps i = Some a -> succ_phase ps i = Some b -> linked (combine ps (rotate ps)) a b.
Proof.
  intros Ha Hb. apply rt_step. eapply nth_error_In with (n := i). apply combine_nth; [exact Ha|].
  rewrite rotate_nth; [exact Hb|]. apply nth_error_Some. congruence.
Qed.
Lemma ring_up ps : forall k i a b, nth_error ps i = Some a -> nth_error ps (i + k) = Some b -> linked (combine ps (rotate ps)) a b.
Proof.
  induction k as [|k IH]; intros i a b Ha Hb.
  - rewrite Nat.add_0_r in Hb. replace b with a by congruence. apply rt_refl.
  - assert (L : (i + S k < List.length ps)%nat) by (apply nth_error_Some; congruence).
    destruct (nth_some _ ps (S i)) as [c Hc]; [lia|]. apply rt_trans with c.
    + eapply ring_link; [exact Ha|]. unfold succ_phase. rewrite Nat.mod_small by lia. exact Hc.
    + eapply IH; [exact Hc|]. replace (S i + k)%nat with (i + S k)%nat by lia. exact Hb.
Qed.
Lemma wired_negs d ps : wired d ps (combine ps (negs d ps)).
Proof.
  assert (L : List.length ps = List.length (negs d ps)) by (unfold negs; now rewrite neg_length).
  unfold wired. split; [now apply combine_fst|]. destruct d; cbn [negs] in *.
  - split; [|split].
    + rewrite combine_snd by exact L. destruct ps as [|p ps]; [constructor|]. change (rotate (p :: ps)) with (ps ++ [p]). apply Permutation_sym, Permutation_cons_append.
    + intros ND TWO. apply Forall_forall. intros [a b] H. apply In_nth_error in H as [i H].
      assert (LI : (i < List.length ps)%nat).
      { assert (X : (i < List.length (combine ps (rotate ps)))%nat) by (apply nth_error_Some; congruence). rewrite combine_length in X. lia. }
      destruct (nth_some _ ps i LI) as [a' Ha]. destruct (partner_some true ps i LI) as [b' Hb]. cbn [partner] in Hb.
      rewrite (combine_nth _ _ _ _ i a' b' Ha) in H by (now rewrite rotate_nth). injection H as <- <-. cbn [fst snd]. intros EQ. subst b'.
      unfold succ_phase in Hb. rewrite NoDup_nth_error in ND. assert (M : (Nat.modulo (S i) (List.length ps) < List.length ps)%nat) by (apply mod_lt'; lia).
      assert (Q : i = Nat.modulo (S i) (List.length ps)) by (apply ND; congruence).
      destruct (Nat.eq_dec (S i) (List.length ps)) as [E|E].
      * rewrite E, Nat.mod_same in Q by lia. lia.
      * rewrite Nat.mod_small in Q by lia. lia.
    + intros a b Ha Hb. apply In_nth_error in Ha as [i Ha], Hb as [j Hb].
      assert (LI : (i < List.length ps)%nat) by (apply nth_error_Some; congruence).
      destruct (nth_some _ ps (List.length ps - 1)) as [z Hz]; [lia|]. destruct (nth_some _ ps 0) as [f Hf]; [lia|].
      apply rt_trans with z; [|apply rt_trans with f].
      * apply (ring_up ps (List.length ps - 1 - i) i); [exact Ha|]. replace (i + _)%nat with (List.length ps - 1)%nat by lia. exact Hz.
      * eapply ring_link; [exact Hz|]. unfold succ_phase. replace (S (List.length ps - 1)) with (List.length ps) by lia. rewrite Nat.mod_same by lia. exact Hf.
      * apply (ring_up ps j 0); assumption.
  - apply Forall_forall. intros [a b] H. apply in_combine_r in H. apply in_map_iff in H as (x & <- & _). reflexivity.
Qed.
Lemma nth_ext_some A (l m : list A) : List.length l = List.length m -> (forall i a, nth_error l i = Some a -> nth_error m i = Some a) -> l = m.
Proof.
  revert m. induction l as [|x l IH]; intros [|y m] L H; cbn in L; try discriminate; [reflexivity|].
  pose proof (H 0%nat x eq_refl) as H0. cbn in H0. injection H0 as ->. f_equal. apply IH; [lia|]. intros i a E. exact (H (S i) a E).
Qed.
Lemma phase_list_wired d1 d2 ps : Forall one_letter ps ->
  exists l1 l2, wired d1 ps l1 /\ wired d2 ps l2 /\
    map unpack4 (get_phase_list d1 d2 ps) = map (fun c => Ok (fst (fst c), snd (fst c), fst (snd c), snd (snd c))) (combine l1 l2).
Proof.
  intros F. exists (combine ps (negs d1 ps)), (combine ps (negs d2 ps)). split; [apply wired_negs|]. split; [apply wired_negs|].
  assert (L : forall d, List.length (negs d ps) = List.length ps) by (intros; unfold negs; now rewrite neg_length).
  apply nth_ext_some.
  - rewrite !map_length, list_length, !combine_length, !L. lia.
  - intros i a E. rewrite nth_error_map in E. destruct (nth_error (get_phase_list d1 d2 ps) i) as [e|] eqn:Ee; [|discriminate]. cbn in E. injection E as <-.
    assert (LI : (i < List.length ps)%nat) by (rewrite <- (list_length d1 d2 ps); apply nth_error_Some; congruence).
    destruct (nth_some _ ps i LI) as [p Hp]. destruct (phase_entry d1 d2 ps i p F Hp) as (e' & q1 & q2 & E1 & E2 & E3 & E4).
    rewrite E1 in Ee. injection Ee as ->. rewrite E2, nth_error_map.
    rewrite (combine_nth _ _ _ _ i (p, q1) (p, q2)); [reflexivity| |]; apply combine_nth; try exact Hp; unfold negs; rewrite neg_list; auto.
Qed.

(** *** two-winding transformers *)
Definition many_xfmrs x := {| e_loads := []; e_xfmrs := x; e_caps := []; e_regs := []; e_fuses := []; e_switches := []; e_lines := [] |}.
Lemma connections_spec n name ps m : connections n name ps = Ok m -> forall p b, connect m p = Ok b -> lookup_o n name p = Ok b.
Proof.
  intros E p b C. unfold connections in E.
  assert (I : Forall (fun e => lookup_o n name (fst e) = Ok (snd e)) m).
  { refine (mfold_inv _ _ _ (fun m => Forall (fun e => lookup_o n name (fst e) = Ok (snd e)) m) ps _ [] m (Forall_nil _) E).
    intros s x s' _ H Es. apply bind_ok in Es as (b0 & E0 & Es). injection Es as <-. constructor; auto. }
  unfold connect in C. destruct (assoc p m) as [b'|] eqn:A; [|discriminate]. injection C as ->.
  apply assoc_in in A. rewrite Forall_forall in I. exact (I _ A).
Qed.
Lemma add_add n a b : add_elems (add_elems n a) b = add_elems n (eapp a b).
Proof. unfold add_elems, eapp. cbn. now rewrite !app_assoc. Qed.
Lemma add_none n : add_elems n no_elems = n.
Proof. unfold add_elems, no_elems. cbn. rewrite !app_nil_r. now destruct n. Qed.
Lemma unit_loop A (f : net -> A -> pres net) (Q : txfmr -> A -> Prop) l :
  (forall n x n', f n x = Ok n' -> exists u, n' = add_elems n (one_xfmr u) /\ Q u x) ->
  forall n n', mfold f l n = Ok n' -> exists us, n' = add_elems n (many_xfmrs us) /\ Forall2 Q us l.
Proof.
  intros H. induction l as [|x l IH]; intros n n' E; cbn in E.
  - injection E as <-. exists []. split; [symmetry; apply add_none|constructor].
  - apply bind_ok in E as (n1 & E1 & E2). destruct (H _ _ _ E1) as (u & -> & Qu). destruct (IH _ _ E2) as (us & -> & Qs).
    exists (u :: us). split; [|constructor; auto]. rewrite add_add. reflexivity.
Qed.
Lemma forall2_nth A B (P : A -> B -> Prop) l m : Forall2 P l m -> forall i b, nth_error m i = Some b -> exists a, nth_error l i = Some a /\ P a b.
Proof. induction 1 as [|x y l m H F IH]; intros [|i] b E; cbn in *; try discriminate; [injection E as <-; eauto|auto]. Qed.
Definition raw_unit (n : net) (x : dxfmr) (w1 w2 : dwinding) (r2 vp vs : R) (entry : string) (u : txfmr) : Prop :=
  exists p1 n1 p2 n2 fp fn tp tn s d g b, unpack4 entry = Ok (p1, n1, p2, n2) /\ u = TX (Some fp) fn (Some tp) tn d g b (dw_rated w1) /\
    lookup_o n (dx_from x) p1 = Ok fp /\ lookup_o n (dx_to x) p2 = Ok tp /\
    (n1 = "N"%string /\ fn = None \/ n1 <> "N"%string /\ exists c, fn = Some c /\ lookup_o n (dx_from x) n1 = Ok c) /\
    (n2 = "N"%string /\ tn = None \/ n2 <> "N"%string /\ exists c, tn = Some c /\ lookup_o n (dx_to x) n2 = Ok c) /\
    dw_rated w2 = Some s /\ s <> 0 /\ xf_tr d = vp / vs /\ xf_ang d = match dx_shift x with Some a => a | None => 0 end * PI / 180 /\
    inverse_of (xf_G d) (xf_B d) (2 * r2 * (vs * vs / s)) (fold_right Rplus 0 (dx_reactances x) * (vs * vs / s)) /\
    shunt3 x (dw_rated w2) vp = Ok (g, b).
Lemma three_raw n x w1 w2 n' : create_three n x w1 w2 = Ok n' ->
  exists r2 vp vs us, dw_res w2 = Some r2 /\ coil_voltage w1 vp /\ coil_voltage w2 vs /\ vs <> 0 /\ n' = add_elems n (many_xfmrs us) /\
    Forall2 (fun u e => raw_unit n x w1 w2 r2 vp vs e u) us (get_phase_list (delta (dw_conn w1)) (delta (dw_conn w2)) (dw_phases w1)).
Proof.
  unfold create_three. intros E.
  apply bind_ok in E as (r2 & E1 & E). apply bind_ok in E as (vp & E2 & E). apply bind_ok in E as (vs & E3 & E).
  apply bind_ok in E as (ratio & E4 & E). apply bind_ok in E as (m1 & E5 & E). apply bind_ok in E as (m2 & E6 & E). apply bind_ok in E as ([g b] & E7 & E).
  apply num_ok in E1. apply nominal_spec in E2, E3. apply pdiv_ok in E4 as [NZ ->].
  cbn [fst snd] in E. exists r2, vp, vs.
  refine ((fun H => match unit_loop _ _ (fun u e => raw_unit n x w1 w2 r2 vp vs e u) _ H n n' E with
            ex_intro _ us (conj P Q) => ex_intro _ us (conj E1 (conj E2 (conj E3 (conj NZ (conj P Q))))) end) _).
  intros m e m' U. unfold create_unit in U.
  apply bind_ok in U as ([[[p1 n1] p2] n2] & U1 & U). apply bind_ok in U as (fp & U2 & U). apply bind_ok in U as (fn & U3 & U).
  apply bind_ok in U as (tp & U4 & U). apply bind_ok in U as (tn & U5 & U). apply bind_ok in U as (s & U6 & U).
  apply bind_ok in U as (r & U7 & U). apply bind_ok in U as (xx & U8 & U). apply bind_ok in U as (d & U9 & U). injection U as <-.
  eexists. split; [reflexivity|]. apply num_ok in U6. apply pdiv_ok in U7 as [SN ->]. apply pdiv_ok in U8 as [_ ->].
  destruct (new_transformer _ _ _ _) as [d'|] eqn:ND; [|discriminate]. injection U9 as ->.
  apply new_transformer_spec in ND as (D1 & D2 & D3).
  exists p1, n1, p2, n2, fp, fn, tp, tn, s, d, g, b.
  split; [exact U1|]. split; [reflexivity|].
  split; [eapply connections_spec; eauto|]. split; [eapply connections_spec; eauto|].
  assert (TM : forall m nm q t, connections n nm (dw_phases w1) = Ok m -> terminal m q = Ok t ->
     q = "N"%string /\ t = None \/ q <> "N"%string /\ exists c, t = Some c /\ lookup_o n nm q = Ok c).
  { intros m0 nm q t Em T. unfold terminal in T. destruct (String.eqb_spec q "N") as [->|]; [injection T as <-; auto|].
    right. split; [assumption|]. apply bind_ok in T as (c & C & T). injection T as <-. exists c. split; [reflexivity|]. eapply connections_spec; eauto. }
  split; [eapply TM; eauto|]. split; [eapply TM; eauto|]. split; [exact U6|]. split; [exact SN|]. split; [exact D1|]. split; [exact D2|].
  split; [|exact E7]. rewrite fold_left_sum in D3.
  replace (2 * r2 * (vs * vs / s)) with (r2 * 2 * (vs * vs) / s) by (field; exact SN).
  replace (fold_right Rplus 0 (dx_reactances x) * (vs * vs / s)) with (fold_right Rplus 0 (dx_reactances x) * (vs * vs) / s) by (field; exact SN).
  exact D3.
Qed.
Lemma known_not_N p : known p -> p <> "N"%string.
Proof. intros K ->. cbn in K. intuition discriminate. Qed.
Lemma succ_in ps i q : succ_phase ps i = Some q -> In q ps.
Proof. apply nth_error_In. Qed.
Lemma second_raw n w name ps i q t n' : Forall known ps -> ext n n' -> partner (delta (dw_conn w)) ps i = Some q ->
  (q = "N"%string /\ t = None \/ q <> "N"%string /\ exists c, t = Some c /\ lookup_o n name q = Ok c) ->
  second_terminal n' w name ps i t.
Proof.
  intros K X P H. unfold second_terminal. rewrite <- delta_spec. destruct (delta (dw_conn w)); cbn in P.
  - split; [intros _|congruence]. assert (KQ : known q) by (rewrite Forall_forall in K; apply K; eapply succ_in; exact P).
    destruct H as [[-> _]|[_ (c & -> & L)]]; [now apply known_not_N in KQ|].
    exists q, c. split; [exact P|]. split; [reflexivity|]. eapply leads_o_mono; [now apply known_letter|exact X|now apply lookup_leads].
  - injection P as <-. split; [discriminate|intros _]. destruct H as [[_ H]|[H _]]; [exact H|congruence].
Qed.
Lemma three_step n x w1 w2 n' : Forall known (dw_phases w1) -> good n -> dx_tap x = false -> dx_windings x = [w1; w2] -> create_three n x w1 w2 = Ok n' ->
  ext n n' /\ good n' /\ exists us, grew n n' (many_xfmrs us) /\ xfmr_made n' x us.
Proof.
  intros K G T W E. destruct (three_raw _ _ _ _ _ E) as (r2 & vp & vs & us & R2 & VP & VS & NZ & -> & F).
  assert (O : Forall one_letter (dw_phases w1)) by (eapply Forall_impl; [|exact K]; apply known_letter).
  split; [apply ext_add|]. split.
  - apply good_add; [exact G|]. unfold elem_refs. cbn. rewrite !app_nil_r.
    clear - F G. induction F as [|u e us l H F IH]; [constructor|]. cbn. apply bounded_app. split; [|exact IH].
    destruct H as (p1 & n1 & p2 & n2 & fp & fn & tp & tn & s & d & g & b & _ & -> & L1 & L2 & L3 & L4 & _).
    cbn [xfmr_refs opt_list]. rewrite !bounded_app.
    assert (B1 : forall nm p c, lookup_o n nm p = Ok c -> bounded (nt_next n) [c]).
    { intros nm p c L. pose proof (wf_lookup_o _ _ _ _ (proj1 G) L). bnd. }
    split; [eapply B1; eauto|]. split; [destruct L3 as [[_ ->]|[_ (c & -> & L)]]; [constructor|eapply B1; eauto]|].
    split; [eapply B1; eauto|]. destruct L4 as [[_ ->]|[_ (c & -> & L)]]; [constructor|eapply B1; eauto].
  - exists us. split; [apply grew_add; reflexivity|]. unfold xfmr_made. rewrite T. exists w1, w2. split; [exact W|].
    split; [rewrite (Forall2_length _ _ _ _ _ F), list_length; reflexivity|].
    intros i p EI. destruct (phase_entry (delta (dw_conn w1)) (delta (dw_conn w2)) _ _ _ O EI) as (e & q1 & q2 & NE & UN & P1 & P2).
    destruct (forall2_nth _ _ _ _ _ F _ _ NE) as (u & NU & H). exists u. split; [exact NU|].
    destruct H as (p1 & n1 & p2 & n2 & fp & fn & tp & tn & s & d & g & b & U & -> & L1 & L2 & L3 & L4 & S1 & S2 & D1 & D2 & D3 & SH).
    rewrite UN in U. injection U as <- <- <- <-.
    assert (OP : one_letter p) by (rewrite Forall_forall in O; apply O; eapply nth_error_In; exact EI).
    exists fp, fn, tp, tn, d, g, b. split; [reflexivity|].
    split; [eapply leads_o_mono; [exact OP|apply ext_add|now apply lookup_leads]|].
    split; [eapply second_raw; [exact K|apply ext_add|exact P1|exact L3]|].
    split; [eapply leads_o_mono; [exact OP|apply ext_add|now apply lookup_leads]|].
    split; [eapply second_raw; [exact K|apply ext_add|exact P2|exact L4]|].
    exists vp, vs, s, r2. pose proof (shunt3_spec _ _ _ _ _ _ S1 S2 SH). auto 12.
Qed.

(** *** center taps *)
Lemma ct_step n x n' : Forall known (dx_phases x) -> good n -> dx_tap x = true -> create_ct n x = Ok n' ->
  ext n n' /\ good n' /\ exists us, grew n n' (many_xfmrs us) /\ xfmr_made n' x us.
Proof.
  intros K G T E. unfold create_ct in E. destruct (dx_phases x) as [|ph phs] eqn:EP; [discriminate|].
  destruct (dx_windings x) as [|w0 [|w1 [|w2 ws]]] eqn:EW; try discriminate.
  destruct (dx_reactances x) as [|x0 [|x1 [|x2 xs]]] eqn:EX; try discriminate.
  apply bind_ok in E as (v0 & E1 & E). apply bind_ok in E as (v1 & E2 & E). apply bind_ok in E as (ratio & E3 & E). apply bind_ok in E as ([g b] & E4 & E).
  apply bind_ok in E as (from & E5 & E).
  assert (O : one_letter ph) by (apply known_letter; now inversion K).
  destruct (create_bus n (1/10) (1/10) (dx_name x ++ "_primary") ph true) as [n1 pri] eqn:B1.
  destruct (create_bus n1 (1/10) (1/10) (dx_name x ++ "_sending_1") ph true) as [n2 s1] eqn:B2.
  apply bind_ok in E as (t1 & E6 & E).
  destruct (create_bus n2 (1/10) (1/10) (dx_name x ++ "_sending_2") ph true) as [n3 s2] eqn:B3.
  apply bind_ok in E as (t2 & E7 & E). apply bind_ok in E as (s & E8 & E). apply bind_ok in E as (r0 & E9 & E). apply bind_ok in E as (r1 & E10 & E).
  apply bind_ok in E as (r2 & E11 & E). apply bind_ok in E as (v2 & E12 & E). apply bind_ok in E as (c & E13 & E). injection E as <-.
  apply num_ok in E1, E2, E8, E9, E10, E11, E12. apply pdiv_ok in E3 as [NZ ->].
  pose proof (ext_create n (1/10) (1/10) (dx_name x ++ "_primary") ph O (or_intror (or_intror (or_introl (ends_app _ _))))) as X1.
  pose proof (ext_create n1 (1/10) (1/10) (dx_name x ++ "_sending_1") ph O (or_intror (or_intror (or_intror (or_introl (ends_app _ _)))))) as X2.
  pose proof (ext_create n2 (1/10) (1/10) (dx_name x ++ "_sending_2") ph O (or_intror (or_intror (or_intror (or_intror (ends_app _ _)))))) as X3.
  pose proof (good_create n (1/10) (1/10) (dx_name x ++ "_primary") ph true G) as G1. rewrite B1 in X1, G1. cbn [fst] in X1, G1.
  pose proof (good_create n1 (1/10) (1/10) (dx_name x ++ "_sending_1") ph true G1) as G2. rewrite B2 in X2, G2. cbn [fst] in X2, G2.
  pose proof (good_create n2 (1/10) (1/10) (dx_name x ++ "_sending_2") ph true G2) as G3. rewrite B3 in X3, G3. cbn [fst] in X3, G3.
  pose proof (created_interior n (1/10) (1/10) (dx_name x ++ "_primary") ph (proj1 G)) as I1. rewrite B1 in I1. cbn [fst snd] in I1.
  pose proof (created_interior n1 (1/10) (1/10) (dx_name x ++ "_sending_1") ph (proj1 G1)) as I2. rewrite B2 in I2. cbn [fst snd] in I2.
  pose proof (created_interior n2 (1/10) (1/10) (dx_name x ++ "_sending_2") ph (proj1 G2)) as I3. rewrite B3 in I3. cbn [fst snd] in I3.
  assert (N1 : nt_next n1 = S (nt_next n) /\ pri = nt_next n) by (unfold create_bus in B1; injection B1 as <- <-; auto).
  assert (N2 : nt_next n2 = S (nt_next n1) /\ s1 = nt_next n1) by (unfold create_bus in B2; injection B2 as <- <-; auto).
  assert (N3 : nt_next n3 = S (nt_next n2) /\ s2 = nt_next n2) by (unfold create_bus in B3; injection B3 as <- <-; auto).
  assert (XX : forall e, ext n3 (add_elems n3 e)) by (intros; apply ext_add).
  assert (Xn : forall e, ext n (add_elems n3 e)) by (intros; eapply ext_trans; [exact X1|eapply ext_trans; [exact X2|eapply ext_trans; [exact X3|apply ext_add]]]).
  assert (Xn1 : forall e, ext n1 (add_elems n3 e)) by (intros; eapply ext_trans; [exact X2|eapply ext_trans; [exact X3|apply ext_add]]).
  assert (Xn2 : forall e, ext n2 (add_elems n3 e)) by (intros; eapply ext_trans; [exact X3|apply ext_add]).
  split; [apply Xn|]. split.
  - apply good_add; [exact G3|]. unfold elem_refs. cbn.
    pose proof (wf_lookup_o _ _ _ _ (proj1 G) E5). pose proof (wf_lookup_o _ _ _ _ (proj1 G2) E6). pose proof (wf_lookup_o _ _ _ _ (proj1 G3) E7). bnd.
  - eexists. split.
    + unfold create_bus in B1, B2, B3. injection B1 as <- _. injection B2 as <- _. injection B3 as <- _. apply (grew_add n _ (many_xfmrs [_])); reflexivity.
    + unfold xfmr_made. rewrite T. eexists. split; [reflexivity|].
      exists ph, from, pri, s1, t1, s2, t2, c, g, b. split; [reflexivity|]. split; [rewrite EP; reflexivity|].
      split; [eapply leads_o_mono; [exact O|apply Xn|now apply lookup_leads]|].
      split; [eapply leads_o_mono; [exists "1"%char; reflexivity|apply Xn2|now apply lookup_leads]|].
      split; [eapply leads_o_mono; [exists "2"%char; reflexivity|apply XX|now apply lookup_leads]|].
      split; [eapply interior_mono; [apply Xn1|exact I1]|].
      split; [eapply interior_mono; [apply Xn2|exact I2]|].
      split; [eapply interior_mono; [apply XX|exact I3]|]. split; [lia|].
      exists w0, w1, w2, ws, x0, x1, x2, xs, v0, v1, v2, r0, r1, r2, s.
      destruct (new_center_tap _ _ _ _ _) as [c'|] eqn:NC; [|discriminate]. injection E13 as ->.
      unfold new_center_tap, is0 in NC. destruct (Req_EM_T s 0) as [|SN]; [discriminate|]. cbn [nth] in NC. injection NC as <-.
      cbn [ct_ratio ct_g0 ct_b0 ct_g1 ct_b1 ct_g2 ct_b2].
      repeat (split; [assumption|]). split; [field; exact NZ|].
      split; [now apply coil_spec|]. split; [now apply coil_spec|]. split; [now apply coil_spec|]. now apply shunt_ct_spec.
Qed.
Lemma unit_mono n n' x w1 w2 i p u : Forall known (dw_phases w1) -> known p -> ext n n' -> unit_made n x w1 w2 i p u -> unit_made n' x w1 w2 i p u.
Proof.
  intros K KP X (fp & fn & tp & tn & d & g & b & U & L1 & L2 & L3 & L4 & R).
  assert (S : forall w nm t, second_terminal n w nm (dw_phases w1) i t -> second_terminal n' w nm (dw_phases w1) i t).
  { intros w nm t [H1 H2]. split; [|exact H2]. intros D. destruct (H1 D) as (q & c & Q1 & Q2 & Q3). exists q, c. split; [exact Q1|]. split; [exact Q2|].
    eapply leads_o_mono; [|exact X|exact Q3]. apply known_letter. rewrite Forall_forall in K. apply K. eapply succ_in; exact Q1. }
  exists fp, fn, tp, tn, d, g, b. split; [exact U|].
  split; [eapply leads_o_mono; [now apply known_letter|exact X|exact L1]|]. split; [now apply S|].
  split; [eapply leads_o_mono; [now apply known_letter|exact X|exact L3]|]. split; [now apply S|exact R].
Qed.
Lemma xfmr_mono n n' x us : Forall known (dx_phases x ++ flat_map dw_phases (dx_windings x)) -> ext n n' -> xfmr_made n x us -> xfmr_made n' x us.
Proof.
  intros K X. apply Forall_app in K as [K1 K2]. unfold xfmr_made. destruct (dx_tap x).
  - intros (u & -> & ph & from & pri & s1 & t1 & s2 & t2 & c & g & b & U & HP & L1 & L2 & L3 & I1 & I2 & I3 & R).
    assert (KP : known ph). { destruct (dx_phases x); [discriminate|]. cbn in HP. injection HP as ->. now inversion K1. }
    exists u. split; [reflexivity|]. exists ph, from, pri, s1, t1, s2, t2, c, g, b. split; [exact U|]. split; [exact HP|].
    split; [eapply leads_o_mono; [now apply known_letter|exact X|exact L1]|].
    split; [eapply leads_o_mono; [exists "1"%char; reflexivity|exact X|exact L2]|].
    split; [eapply leads_o_mono; [exists "2"%char; reflexivity|exact X|exact L3]|].
    split; [eapply interior_mono; eauto|]. split; [eapply interior_mono; eauto|]. split; [eapply interior_mono; eauto|exact R].
  - intros (w1 & w2 & W & L & H). exists w1, w2. split; [exact W|]. split; [exact L|]. rewrite W in K2. cbn in K2. apply Forall_app in K2 as [K2 _].
    intros i p E. destruct (H i p E) as (u & U & M). exists u. split; [exact U|]. eapply unit_mono; eauto.
    rewrite Forall_forall in K2. apply K2. eapply nth_error_In; exact E.
Qed.
Lemma xfmr_step n x n' : Forall known (dx_phases x ++ flat_map dw_phases (dx_windings x)) -> good n -> create_xfmr n x = Ok n' ->
  ext n n' /\ good n' /\ exists us, grew n n' (many_xfmrs us) /\ xfmr_made n' x us.
Proof.
  intros K G E. apply Forall_app in K as [K1 K2]. unfold create_xfmr in E. destruct (dx_tap x) eqn:T; [now apply ct_step|].
  destruct (dx_windings x) as [|w1 [|w2 [|]]] eqn:W; try discriminate. cbn in K2. apply Forall_app in K2 as [K2 _]. eapply three_step; eauto.
Qed.

(** *** the whole of parse *)
Record elem_ok (cap : bool) (n : net) (ms : list dmodel) (e : elems) : Prop := {
  ok_loads : Forall2 (fun t i => load_made n (fst i) (snd i) t) (e_loads e) (flat_map load_items ms);
  ok_caps : Forall2 (fun t i => known (fst (snd i)) /\ cap_made n (fst i) (snd i) t) (e_caps e) (flat_map caps_of ms);
  ok_regs : Forall2 (fun t i => one_letter (snd i) /\ reg_made n (fst i) (snd i) t) (e_regs e) (flat_map regs_of ms);
  ok_fuses : Forall2 (fun t i => one_letter (wi_phase (snd i)) /\ fuse_made n (fst i) (snd i) t) (e_fuses e) (flat_map fuses_of ms);
  ok_switches : Forall2 (fun t i => one_letter (wi_phase (snd i)) /\ switch_made n (fst i) (snd i) t) (e_switches e) (flat_map switches_of ms);
  ok_lines : Forall2 (fun t l => line_made cap l t) (e_lines e) (flat_map lines_of ms);
  ok_xfmrs : exists gs, e_xfmrs e = concat gs /\
     Forall2 (fun us x => Forall known (dx_phases x ++ flat_map dw_phases (dx_windings x)) /\ xfmr_made n x us) gs (flat_map xfmrs_of ms) }.
Lemma elem_ok_nil cap n : elem_ok cap n [] no_elems.
Proof. constructor; try constructor. exists []. split; [reflexivity|constructor]. Qed.
Lemma elem_ok_app cap n l m e f : elem_ok cap n l e -> elem_ok cap n m f -> elem_ok cap n (l ++ m) (eapp e f).
Proof.
  intros [A1 A2 A3 A4 A5 A6 (g1 & A7 & A8)] [B1 B2 B3 B4 B5 B6 (g2 & B7 & B8)].
  constructor; cbn; rewrite ?flat_map_app; try (apply Forall2_app; assumption).
  exists (g1 ++ g2). rewrite concat_app, A7, B7. split; [reflexivity|now apply Forall2_app].
Qed.
Lemma forall2_impl A B (P Q : A -> B -> Prop) l m : (forall a b, P a b -> Q a b) -> Forall2 P l m -> Forall2 Q l m.
Proof. intros H. induction 1; constructor; auto. Qed.
Lemma elem_ok_mono cap n n' ms e : ext n n' -> elem_ok cap n ms e -> elem_ok cap n' ms e.
Proof.
  intros X [A1 A2 A3 A4 A5 A6 (g & A7 & A8)]. constructor; try exact A6.
  - eapply forall2_impl; [|exact A1]. intros. eapply load_mono; eauto.
  - eapply forall2_impl; [|exact A2]. intros a b [K H]. split; [exact K|]. eapply cap_mono; eauto.
  - eapply forall2_impl; [|exact A3]. intros a b [K H]. split; [exact K|]. eapply reg_mono; eauto.
  - eapply forall2_impl; [|exact A4]. intros a b [K H]. split; [exact K|]. eapply fuse_mono; eauto.
  - eapply forall2_impl; [|exact A5]. intros a b [K H]. split; [exact K|]. eapply switch_mono; eauto.
  - exists g. split; [exact A7|]. eapply forall2_impl; [|exact A8]. intros a b [K H]. split; [exact K|]. eapply xfmr_mono; eauto.
Qed.
Lemma letters l : Forall known l -> Forall one_letter l.
Proof. intros H. eapply Forall_impl; [|exact H]. apply known_letter. Qed.
Lemma element_step inv cap n m n' : Forall known (element_phases m) -> good n -> create_element inv cap n m = Ok n' ->
  ext n n' /\ good n' /\ exists e, grew n n' e /\ elem_ok cap n' [m] e.
Proof.
  intros K G E. unfold create_element in E.
  assert (NOTHING : Ok n = Ok n' -> (forall X : Prop, X -> X) -> flat_map load_items [m] = [] -> flat_map caps_of [m] = [] -> flat_map regs_of [m] = [] ->
     flat_map fuses_of [m] = [] -> flat_map switches_of [m] = [] -> flat_map lines_of [m] = [] -> flat_map xfmrs_of [m] = [] ->
     ext n n' /\ good n' /\ exists e, grew n n' e /\ elem_ok cap n' [m] e).
  { intros Q _ H1 H2 H3 H4 H5 H6 H7. injection Q as <-. split; [apply ext_refl|]. split; [exact G|]. exists no_elems. split; [apply grew_refl|].
    constructor; rewrite ?H1, ?H2, ?H3, ?H4, ?H5, ?H6, ?H7; try constructor. exists []. split; [reflexivity|constructor]. }
  destruct m as [nd|x|c|r|l|l| |]; cbn [element_phases] in K; try (apply NOTHING; auto; fail); try discriminate; clear NOTHING.
  - destruct (xfmr_step n x n' K G E) as (X & G' & us & GR & M). split; [exact X|]. split; [exact G'|]. exists (many_xfmrs us). split; [exact GR|].
    constructor; cbn; try constructor. exists [us]. split; [cbn; now rewrite app_nil_r|]. constructor; [auto|constructor].
  - destruct (cap_step c n n' G E) as (X & G' & t & GR & M). split; [exact X|]. split; [exact G'|]. exists (many_caps t). split; [exact GR|].
    constructor; cbn; rewrite ?app_nil_r; try constructor; try exact M. exists []. split; [reflexivity|constructor].
  - destruct (reg_step r n n' (letters _ K) G E) as (X & G' & t & GR & M). split; [exact X|]. split; [exact G'|]. exists (many_regs t). split; [exact GR|].
    constructor; cbn; rewrite ?app_nil_r; try constructor; try exact M. exists []. split; [reflexivity|constructor].
  - destruct (line_step inv cap l n n') as (X & G' & e & GR & M); auto.
    { intros B. rewrite B in K. apply letters in K. rewrite Forall_forall in K |- *. intros w Hw. apply K. now apply in_map. }
    split; [exact X|]. split; [exact G'|]. exists e. split; [exact GR|]. unfold lines_made in M.
    unfold plain_line in *. destruct (dl_fuse l) eqn:F.
    + destruct M as (t & -> & M). constructor; cbn; unfold plain_line; rewrite ?F; cbn; rewrite ?app_nil_r; try constructor; try exact M. exists []. split; [reflexivity|constructor].
    + destruct (dl_switch l) eqn:S.
      * destruct M as (t & -> & M). constructor; cbn; unfold plain_line; rewrite ?F, ?S; cbn; rewrite ?app_nil_r; try constructor; try exact M. exists []. split; [reflexivity|constructor].
      * destruct M as (t & -> & M). constructor; cbn; unfold plain_line; rewrite ?F, ?S; cbn; rewrite ?app_nil_r; try constructor; try exact M; try constructor. exists []. split; [reflexivity|constructor].
  - destruct (load_step l n n' G E) as (X & G' & t & GR & M). split; [exact X|]. split; [exact G'|]. exists (many_loads t). split; [exact GR|].
    constructor; cbn; rewrite ?app_nil_r; try constructor; try exact M. exists []. split; [reflexivity|constructor].
Qed.
Lemma elements inv cap : forall ms n n', Forall (fun m => Forall known (element_phases m)) ms -> good n -> mfold (create_element inv cap) ms n = Ok n' ->
  ext n n' /\ good n' /\ exists e, grew n n' e /\ elem_ok cap n' ms e.
Proof.
  induction ms as [|m ms IH]; intros n n' K G E; cbn in E.
  - injection E as <-. split; [apply ext_refl|]. split; [exact G|]. exists no_elems. split; [apply grew_refl|apply elem_ok_nil].
  - apply bind_ok in E as (n1 & E1 & E2). inversion K; subst.
    destruct (element_step _ _ _ _ _ H1 G E1) as (X1 & G1 & e1 & W1 & M1).
    destruct (IH n1 n' H2 G1 E2) as (X2 & G2 & e2 & W2 & M2).
    split; [eapply ext_trans; eauto|]. split; [exact G2|]. exists (eapp e1 e2). split; [eapply grew_trans; eauto|].
    change (m :: ms) with ([m] ++ ms). apply elem_ok_app; [|exact M2]. eapply elem_ok_mono; eauto.
Qed.

(** create_buses leaves the element lists empty *)
Definition bare (n : net) : Prop := good n /\ grew empty_net n no_elems.
Lemma bare_buses ms n : create_buses ms = Ok n -> bare n.
Proof.
  intros E. unfold create_buses in E. apply bind_ok in E as ([n0 st] & E & E1). injection E1 as <-. cbn [fst].
  rewrite nodes_as_visits in E.
  refine (mfold_inv _ _ step (fun s => bare (fst s)) (visits (nodes_of ms)) _ (empty_net, None) (n0, st) _ E).
  2:{ split; [split; [apply wf_empty|constructor]|apply grew_refl]. }
  intros [m t] [nd p] [m' t'] _ [[W B] GR] S. cbn [fst] in *. pose proof (step_visited _ _ _ _ _ _ W S) as V.
  assert (SK : forall m1 b st1, wf m1 -> bounded (nt_next m1) (all_refs m1) -> grew empty_net m1 no_elems -> (b < nt_next m1)%nat -> slack_added nd b st1 m1 m' -> bare m').
  { intros m1 b st1 W1 B1 G1 L SA. inversion SA; subst.
    - split; [split; assumption|assumption].
    - split; [|exact G1]. split; [exact W1|]. unfold all_refs in *. cbn. rewrite map_app. cbn. rewrite !bounded_app in *. cbn [add_slack nt_next]. split; [split; [tauto|]|tauto]. bnd. }
  inversion V as [NK|par b n1 K EP EL SA|c b n1 K EP EC EL SA|va vr vi n1 K RT SP SA]; subst.
  - split; [split; assumption|assumption].
  - pose proof (wf_lookup _ _ _ _ W EL). eapply SK; [| | | |exact SA].
    + now apply wf_set_map.
    + exact B.
    + exact GR.
    + exact H.
  - pose proof (wf_lookup _ _ _ _ W EL). eapply SK; [| | | |exact SA]; assumption.
  - eapply SK; [| | | |exact SA].
    + destruct (wf_create m (fst va) (snd va) (dn_name nd) p false W) as [W1 W2]. split; [|exact W2].
      cbn [set_buses nt_buses nt_next]. rewrite map_app. cbn [create_bus fst nt_buses nt_next] in W1. rewrite map_app in W1. exact W1.
    + cbn [set_buses create_bus fst nt_next]. change (all_refs _) with (all_refs m). eapply bounded_le; [|exact B]. lia.
    + exact GR.
    + cbn. lia.
Qed.
Lemma parse_ok inv cap ms n' : Forall (fun m => Forall known (element_phases m)) ms -> parse_three inv cap ms = Ok n' ->
  exists n, create_buses ms = Ok n /\ ext n n' /\ good n' /\
    elem_ok cap n' ms {| e_loads := nt_loads n'; e_xfmrs := nt_xfmrs n'; e_caps := nt_caps n'; e_regs := nt_regs n';
                         e_fuses := nt_fuses n'; e_switches := nt_switches n'; e_lines := nt_lines n' |}.
Proof.
  intros K E. unfold parse_three in E. apply bind_ok in E as (n & E1 & E2). destruct (bare_buses _ _ E1) as [G GR].
  destruct (elements _ _ _ _ _ K G E2) as (X & G' & e & W & M). exists n. split; [exact E1|]. split; [exact X|]. split; [exact G'|].
  destruct GR as (A1 & A2 & A3 & A4 & A5 & A6 & A7), W as (B1 & B2 & B3 & B4 & B5 & B6 & B7).
  cbn in A1, A2, A3, A4, A5, A6, A7. rewrite A1 in B1. rewrite A2 in B2. rewrite A3 in B3. rewrite A4 in B4. rewrite A5 in B5. rewrite A6 in B6. rewrite A7 in B7.
  rewrite B1, B2, B3, B4, B5, B6, B7. cbn. destruct e; exact M.
Qed.
