(** A bus with voltage 1 and a constant current load without supply, for C162. *)
From Coq Require Import Reals ZArith String List Bool Lia Lra Arith.
From Verif Require Import PyExc PowerFlow ThreePhase Loader LoaderWitness SolverNet SolverNetWitness Command Report.
From Verif Require TimeSeries Results Output.
From Verif Require Import Expr Collect SpecSystem Components SpecComponents ComponentsProofs ElementProofs Network SpecNetwork SpecKirchhoff SpecInfeasibility InfeasibilityProofs InfeasibilityWitness SpecNetInfeas NetInfeasFinal NetInfeasWitness SpecRows RowsProofs.
Import ListNotations.
Local Open Scope R_scope.

Definition short_point (l1 : bool) (i : nat) : R := nth i (if l1 then [1; 0; 1; 0; 0; -1/2; -1; -1/2] else [1; 0; 2; 0; -1; 0; 0; 0]) 0.
Lemma short_l2 r : (r < 8)%nat -> F (lone_load ++ l2_elements [(bus4, 4%nat)]) (short_point false) 0 r = 0.
Proof.
  intros Hr. rewrite F_app, lone_F. unfold l2_elements. cbn [flat_map fst snd app]. rewrite app_nil_r, l2_rows. cbv zeta. unfold at_lambda, mult, short_point. cbn.
  do 8 (destruct r as [|r]; [cbn; lra|]). lia.
Qed.
Lemma short_l1 r : (r < 8)%nat -> F (lone_load ++ l1_elements [(bus4, 4%nat)]) (short_point true) 0 r = 0.
Proof.
  intros Hr. rewrite F_app, lone_F. unfold l1_elements. cbn [flat_map fst snd app]. rewrite app_nil_r, l1_rows. cbv zeta. unfold at_lambda, mult, short_point. cbn.
  do 8 (destruct r as [|r]; [cbn; lra|]). lia.
Qed.
Lemma short_shown l1 old r : let a := assign_matrix old (stranded l1) in let v := short_point l1 in
  (forall q, (q < as_size a)%nat -> F (equations a) v 0 q = 0) /\ voltages a v (Some 9%nat) = (1, 0) /\ extra l1 a v 0 = (-1, 0) /\
  exists row, infeasible_of a r (stranded l1) = Some [row] /\ Results.gr_P (Results.inf_res v (snd row)) = (if l1 then 1 else 0) /\ Results.gr_Q (Results.inf_res v (snd row)) = 0.
Proof.
  cbv zeta. assert (V : voltages (assign_matrix old (stranded l1)) (short_point l1) (Some 9%nat) = (1, 0)).
  { rewrite stranded_assigned. destruct l1; unfold voltages, volt; cbn; unfold set_nodes; cbn; reflexivity. }
  assert (E : extra l1 (assign_matrix old (stranded l1)) (short_point l1) 0 = (-1, 0)).
  { rewrite stranded_assigned. unfold extra, infeasibility. destruct l1; cbn; unfold short_point, Csub; cbn; [f_equal; lra|reflexivity]. }
  split.
  - rewrite stranded_assigned. intros q Hq. destruct l1; [apply short_l1; exact Hq|apply short_l2; cbn in Hq; lia].
  - split; [exact V|]. split; [exact E|].
    destruct (infeasible_shown old r (stranded l1) l1 (short_point l1) (stranded_ok l1) eq_refl) as (rows & I & L & H).
    destruct rows as [|row [|row2 rows]]; try discriminate. exists row. split; [exact I|]. specialize (H 0%nat bus9 row eq_refl eq_refl).
    change (bus_id bus9) with 9%nat in H. rewrite V, E in H. destruct H as [[P1 P2] [Q1 Q2]]. cbn [fst snd] in *. split; [destruct l1; [rewrite P2; lra|apply P1; lra]|apply Q1; destruct l1; lra].
Qed.
Definition no_names (k : Z) : string * string := (""%string, ""%string).
Lemma lone_rows old v rd : exists rs, results no_names old (Three lone_net) lone_nw false [] (PFDone true v 1 0 rd [] 0%nat) = Some rs /\ map fst (Output.or_slacks rs) = [0%Z].
Proof. eexists. split; reflexivity. Qed.
