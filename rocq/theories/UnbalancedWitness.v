(** Concrete instances for C36, C37 and C64. *)
From Coq Require Import String List Bool Arith ZArith Reals Lra Lia.
From Verif Require Import Expr Segment Collect SpecSystem Components SpecComponents ComponentsProofs ElementProofs UnbalancedLine SpecUnbalanced UnbalancedBranch UnbalancedProofs.
Import ListNotations.
Local Open Scope R_scope.

Definition at8 (n : nat) : nodes := {| n_Vr := Some n; n_Vi := Some (n + 1)%nat; n_Lr := Some (n + 2)%nat; n_Li := Some (n + 3)%nat |}.
Definition two_phases : list (nodes * nodes) := [(at8 0, at8 4); (at8 8, at8 12)].
Lemma two_phases_placed : well_placed two_phases.
Proof.
  split.
  - unfold two_phases, line_indexes. cbn. repeat (constructor; [cbn; intuition discriminate|]). constructor.
  - unfold two_phases, line_indexes. cbn. intuition discriminate.
Qed.
(** admittance only from phase 1 to phase 0 *)
Definition one_way (i j : nat) : R := if (Nat.eqb i 0 && Nat.eqb j 1)%bool then 1 else 0.
Lemma asymmetric_wrong : exists v c, voltage_unknown two_phases c /\
  ~ derivable_pt_lim (fun t => line_lagrangian two_phases (fun i j => (one_way i j, 0)) (fun _ _ => 0) 0 (set_v v c t)) (v c)
      (F (present (unb_stampers two_phases one_way (fun _ _ => 0) (fun _ _ => 0) true)) v 0 c).
Proof.
  exists (fun m => if Nat.eqb m 10 then 1 else 0), 0%nat.
  assert (U : voltage_unknown two_phases 0) by (exists (at8 0, at8 4); split; cbn; auto). split; auto. intros D.
  rewrite (stamped_row two_phases _ _ _ _ 0 0 false false 0 two_phases_placed) in D; [|cbn; lia|reflexivity].
  pose proof (true_derivative two_phases (fun i j => (one_way i j, 0)) (fun _ _ => 0) 0 (fun m => if Nat.eqb m 10 then 1 else 0) 0 false false 0 two_phases_placed ltac:(cbn; lia) eq_refl) as T.
  pose proof (uniqueness_limite _ _ _ _ D T) as E.
  unfold I_end, I_from, I_series, I_shunt, part, Csum, herm, skew, one_way, series_scale, mult, end_of in E. cbn in E. lra.
Qed.
(** the inverse of [[2]] *)
Definition half_inv : matrix -> option matrix := fun _ => Some [[Some (1 / 2, 0)]].
Lemma one_phase_accepted : exists y, new_unbalanced half_inv [[Some (1, 0)]] 2 1 = Some ([[Some (2 * 1, 2 * 0)]], y).
Proof.
  assert (N : cis0 (2 * 1, 2 * 0) = false).
  { unfold cis0. cbn [fst snd]. destruct (both0 (2 * 1) (2 * 0)) eqn:E; auto. apply both0_true in E. exfalso. lra. }
  unfold new_unbalanced. cbn [length square Nat.leb forallb Nat.eqb andb scale map fst snd]. unfold calc_inverse, count_nonzero. cbn [concat app filter xis0].
  rewrite N. cbn [negb length Nat.eqb]. unfold put_inf. cbn [map xis0]. rewrite N. cbn [xinv]. rewrite N. cbn [fst snd square length Nat.eqb forallb andb].
  unfold near_identity, mdot, entry. cbn [seq forallb fold_right nth xmul xadd close_to Nat.eqb fst snd]. destruct (Rle_dec _ _) as [L|L].
  - eexists. reflexivity. - exfalso. apply L. clear.
    match goal with |- ?a <= _ => replace a with 0 end; [lra|]. field.
Qed.
(** a two-phase matrix with a phase of zero impedance *)
Lemma zero_phase_rejected : forall inv len a, new_unbalanced inv [[Some a; Some (0, 0)]; [Some (0, 0); Some (0, 0)]] len 2 = None.
Proof.
  intros inv len a. destruct (new_unbalanced inv _ len 2) as [[z y]|] eqn:E; auto. exfalso.
  destruct (accepted_line inv _ _ _ _ _ E) as (_ & _ & Hz & _ & H). destruct (H 1%nat) as (j & Hj & X); [cbn; lia|]. subst z.
  assert (Z : xis0 (Some (len * 0, len * 0)) = true) by (apply both0_true; cbn; split; ring).
  destruct j as [|[|j]]; [unfold entry in X; cbn -[xis0] in X; congruence|unfold entry in X; cbn -[xis0] in X; congruence|cbn in Hj; lia].
Qed.
(** two coupled phases of length 2 *)
Definition coupled : matrix := [[Some (2, 0); Some (1, 0)]; [Some (1, 0); Some (1, 0)]].
Definition coupled_inv : matrix := [[Some (1 / 2, 0); Some (- (1 / 2), 0)]; [Some (- (1 / 2), 0); Some (1, 0)]].
Lemma coupled_accepted : exists z, new_unbalanced (fun _ => Some coupled_inv) coupled 2 2 = Some (z, coupled_inv) /\ entry z 0 1 = Some (2, 0).
Proof.
  pose (f := fun (m : matrix) i j => match entry m i j with Some c => c | None => C0 end).
  destruct (true_inverse_accepted (fun _ => Some coupled_inv) coupled 2 coupled_inv (f coupled) (f coupled_inv)) as (z & H & E).
  - cbn; lia.
  - cbn. intros r [<-|[<-|[]]]; reflexivity.
  - reflexivity.
  - cbn. intros r [<-|[<-|[]]]; reflexivity.
  - intros i j Hi Hj. cbn in Hi, Hj. destruct i as [|[|]], j as [|[|]]; try lia; split; reflexivity.
  - intros i j Hi Hj. cbn in Hi, Hj. destruct i as [|[|]], j as [|[|]]; try lia; unfold Csum, f, coupled, coupled_inv, entry, Cmul, Cscale, Cadd, C0, C1; cbn [length seq fold_right nth fst snd Nat.eqb]; split; f_equal; field.
  - reflexivity.
  - exists z. split; [exact H|]. rewrite (E 0%nat 1%nat) by (cbn; lia). unfold f, coupled, entry, Cscale; cbn [nth fst snd]. f_equal. f_equal; ring.
Qed.
