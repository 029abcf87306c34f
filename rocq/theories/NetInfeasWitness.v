(** Concrete networks for C147: a bus with a constant current load and no supply, and the feeder of C142. *)
From Coq Require Import String List Bool Arith ZArith Reals Lra Lia.
From Verif Require Import Expr Segment Collect SpecSystem Components SpecComponents ComponentsProofs ElementProofs Network SpecNetwork SpecKirchhoff
  SpecInfeasibility InfeasibilityProofs InfeasibilityWitness SpecNetInfeas NetInfeasFinal KirchhoffWitness.
Import ListNotations.
Local Open Scope R_scope.

Definition bus9 : bus := {| bus_id := 9; bus_Vm := 1; bus_Va := 0 |}.
Definition unit_load := {| ld_P := 0; ld_Q := 0; ld_Zr := 0; ld_Zi := 0; ld_IP := 1; ld_IQ := 0 |}.
Definition stranded (l1 : bool) : network :=
  {| nw_three_phase := false; nw_buses := [bus9]; nw_lines := []; nw_transformers := []; nw_slack := []; nw_switches := [];
     nw_generators := []; nw_loads := [ELoad unit_load (Some 9%nat) None]; nw_misc := []; nw_sources := []; nw_shunts := [];
     nw_regulators := []; nw_fuses := []; nw_capacitors := []; nw_optimization := Some l1 |}.
Lemma stranded_ok l1 : network_ok (stranded l1).
Proof.
  split; [cbn; repeat constructor; cbn; auto|]. cbn. intros e [<-|[]] k Hk. cbn in Hk.
  repeat match type of Hk with _ \/ _ => destruct Hk as [Hk|Hk] | False => destruct Hk end; try discriminate; injection Hk; auto.
Qed.
Lemma stranded_energised l1 V : energised (stranded l1) V.
Proof.
  split; cbn; intros.
  - destruct H as [H|[]]. injection H as <- <- <-. destruct H0. reflexivity.
  - destruct H as [H|[]]. discriminate.
Qed.
Definition stranded_matrix (l1 : bool) (old : table) : assigned :=
  {| as_table := set_nodes old 9 bus4; as_stampers := [[(None, [0; 0]); (Some (fst (two_terminal_details lh_Ic bus4 GROUND 4 true)), [1; 0]); (None, [ld_G unit_load; ld_B unit_load; 0])]];
     as_infeasibility := [fst ((if l1 then l1_stampers else l2_stampers) bus4 4%nat)]; as_size := if l1 then 8 else 6 |}.
Lemma stranded_assigned l1 old : assign_matrix old (stranded l1) = stranded_matrix l1 old.
Proof.
  assert (Z : both0 0 0 = true) by (apply both0_true; auto).
  assert (O : both0 1 0 = false) by (destruct (both0 1 0) eqn:E; [apply both0_true in E as [E _]; lra|reflexivity]).
  unfold assign_matrix. change (elements (stranded l1)) with [ELoad unit_load (Some 9%nat) None].
  cbn [assign_elems assign_elem]. unfold load_stampers. change (ld_P unit_load) with 0. change (ld_Q unit_load) with 0. change (ld_Zr unit_load) with 0. change (ld_Zi unit_load) with 0.
  change (ld_IP unit_load) with 1. change (ld_IQ unit_load) with 0. rewrite Z, O. destruct l1; reflexivity.
Qed.
Definition stranded_point (l1 : bool) : nat -> R := if l1 then l1_point else l2_point.
Lemma stranded_solved l1 old : let a := assign_matrix old (stranded l1) in
  (forall r, (r < as_size a)%nat -> F (equations a) (stranded_point l1) 0 r = 0) /\
  extra l1 a (stranded_point l1) 0 = (-1, 0) /\ multiplier a (stranded_point l1) bus9 = (if l1 then 1 else 2, 0).
Proof.
  cbv zeta. rewrite stranded_assigned. split; [|split].
  - intros r Hr. destruct l1.
    + apply (proj1 l1_solved r). exact Hr.
    + apply (proj1 l2_solved r). cbn in Hr. lia.
  - unfold extra, infeasibility. destruct l1; cbn; unfold l1_point, l2_point, Csub; cbn; [f_equal; lra|reflexivity].
  - destruct l1; reflexivity.
Qed.
(** no voltages are possible without infeasibility currents *)
Lemma stranded_infeasible l1 V : ~ physical (stranded l1) V.
Proof.
  intros [_ [ac [[E A] [_ K]]]]. destruct ac as [|[[e1 i1] m1] [|? ?]]; try discriminate. cbn in E. injection E as ->.
  inversion A as [|? ? B _]; subst. cbn [fst snd] in B. specialize (K bus9 (or_introl eq_refl)). inversion B; subst.
  match goal with X : _ \/ _ /\ power _ _ = _ |- _ => destruct X as [[_ H]|[NZ H]] end;
  match goal with X : _ \/ _ /\ Cmul _ _ = _ |- _ => destruct X as [[_ H']|[H' _]]; [|apply H'; reflexivity] end.
  - subst. unfold net_current, Cadd, C0 in K. cbn in K. injection K. intros. lra.
  - subst. cbn [ld_P ld_Q unit_load] in H. destruct Ip as [p q]. unfold net_current, Cadd, C0 in K. cbn in K. injection K as K1 K2.
    unfold power, Cmul, Cconj in H. cbn in H. injection H as H1 H2.
    destruct (across V (Some 9%nat) None) as [c d] eqn:EA. cbn in H1, H2.
    assert (p = -1) by lra. assert (q = 0) by lra. subst p q.
    apply NZ; unfold C0; unfold across, Csub in EA; injection EA as EA1 EA2; f_equal; lra.
Qed.
(** the feeder with infeasibility currents *)
Definition feeder_with (l1 : bool) : network :=
  {| nw_three_phase := nw_three_phase feeder; nw_buses := nw_buses feeder; nw_lines := nw_lines feeder; nw_transformers := nw_transformers feeder; nw_slack := nw_slack feeder;
     nw_switches := nw_switches feeder; nw_generators := nw_generators feeder; nw_loads := nw_loads feeder; nw_misc := nw_misc feeder; nw_sources := nw_sources feeder;
     nw_shunts := nw_shunts feeder; nw_regulators := nw_regulators feeder; nw_fuses := nw_fuses feeder; nw_capacitors := nw_capacitors feeder; nw_optimization := Some l1 |}.
Lemma feeder_with_ok l1 : network_ok (feeder_with l1). Proof. exact feeder_ok. Qed.
Lemma feeder_with_solved l1 old : exists v, let a := assign_matrix old (feeder_with l1) in
  voltages a v (Some 4%nat) = (1, 0) /\ voltages a v (Some 8%nat) = (2 / 3, 0) /\ forall r, (r < as_size a)%nat -> F (equations a) v 0 r = 0.
Proof.
  destruct (infeasible_complete old (feeder_with l1) l1 (feeder_with_ok l1) eq_refl (far (2 / 3)) (proj2 far_both)) as [v [HV [_ HF]]].
  exists v. split; [|split].
  - exact (proj1 (HV {| bus_id := 4; bus_Vm := 1; bus_Va := 0 |} (or_introl eq_refl))).
  - exact (proj1 (HV {| bus_id := 8; bus_Vm := 1; bus_Va := 0 |} (or_intror (or_introl eq_refl)))).
  - exact HF.
Qed.
