(** C155: sums over the rows of the power file. *)
From Coq Require Import Reals ZArith String List Bool Arith Lra Lia.
From Verif Require Import PyExc Results SpecResults ResultsProofs ThreePhase RawParser Loader PowerFlow Report.
From Verif Require Import Expr Collect SpecSystem Components SpecComponents ComponentsProofs ElementProofs SpecUnbalanced Network SpecNetwork NetworkAssign NetworkInit SpecKirchhoff KirchhoffProofs KirchhoffNet
  SpecNetLeast SpecBalance BalanceProofs BalanceFinal SpecColumn ColumnProofs.
Import ListNotations.
Local Open Scope R_scope.

Lemma slack_sum V aS rows : Forall2 (slack_row V) aS rows -> fst (total V aS) = sum (map (fun g => gr_P g + gr_Q g) rows).
Proof.
  induction 1 as [|[[e I0] m] g aS rows (s & I & E & P & Q) H IH]; [reflexivity|]. cbn [fst] in E. injection E as -> ->. rewrite total_cons. cbn [map sum fold_right fst snd]. fold (sum (map (fun g => gr_P g + gr_Q g) rows)). rewrite <- IH, P, Q.
  unfold absorbed, power, Cadd, Cmul, Cconj, C0. cbn. ring.
Qed.
Lemma gen_sum V aG rows : Forall2 (gen_row V) aG rows -> fst (total V aG) = sum (map gr_P rows).
Proof.
  induction 1 as [|[[e I0] m] g aG rows (s & I & E & P) H IH]; [reflexivity|]. cbn [fst] in E. injection E as -> ->. rewrite total_cons. cbn [map sum fold_right fst snd]. fold (sum (map gr_P rows)). rewrite <- IH.
  change (gr_P g) with (fst (gr_P g, gr_Q g)). rewrite P. unfold absorbed, Cadd, C0. cbn. ring.
Qed.
Lemma sum_app l m : sum (l ++ m) = sum l + sum m.
Proof. unfold sum. induction l as [|x l IH]; cbn; [ring|]. rewrite IH. ring. Qed.
(** loads have no laws of their own *)
Lemma loads_take V nw ac : accounts_for V nw ac -> constant_power nw -> delivered V ac = described nw.
Proof.
  intros [A B] CP. unfold delivered, described. unfold constant_power in CP. rewrite <- A in *. clear A nw. induction B as [|x ac Bx B IH]; [reflexivity|].
  assert (CP' : forall l f t, In (ELoad l f t) (map (fun x => fst (fst x)) ac) -> (ld_IP l, ld_IQ l) = C0 /\ (ld_Zr l, ld_Zi l) = C0) by (intros l f t H; apply (CP l f t); now right).
  specialize (IH CP'). unfold only in *. cbn [filter map fold_right]. rewrite <- IH. destruct x as [[e I] m]. cbn [fst snd] in *.
  destruct e; cbn [is_demand demand]; rewrite ?total_cons; try (now rewrite Cadd_0l). cbn [fst snd]. f_equal.
  assert (Tx : takes V (ELoad l f t) (absorbed V I)) by (apply (behaves_takes V _ _ m Bx); inversion Bx; constructor). inversion Tx. subst.
  destruct (CP l f t (or_introl eq_refl)) as [E1 E2]. match goal with H : _ \/ _ |- _ => destruct H as [[_ ->]|[X _]] end; [|now elim X].
  rewrite E1. cring.
Qed.

Section Net.
Variables (old : Network.table) (r : Loader.network) (nw : Network.network) (v : nat -> R).
Hypothesis OK : network_ok nw.
Hypothesis NO : nw_optimization nw = None.
Let a := assign_matrix old nw.
Let V := voltages a v.
Hypothesis EN : energised nw V.
Hypothesis SL : sources_listed nw.
Let gens := map (fun g => gen_res v (snd g)) (gens_of a r nw).
Let slacks := map (fun s => slack_res v (snd s)) (slacks_of a r nw).
Lemma column_rows : exists ac aS aG, accounts_for V nw ac /\ gives_rows nw a ac v /\ only is_source ac = aS ++ aG /\ Forall2 (slack_row V) aS slacks /\ Forall2 (gen_row V) aG gens /\
  active gens slacks = - fst (supplied V ac).
Proof.
  destruct (rows_match old r nw v OK NO SL EN) as (aS & aG & O & F1 & F2). fold a V in O, F1, F2. fold slacks in F1. fold gens in F2. eexists; exists aS, aG. split; [split|].
  - apply account_elems.
  - apply account_behaves. intros. now apply (energised_elems nw V).
  - split; [exact (rows_of_vector old nw OK NO v)|]. split; [exact O|]. split; [exact F1|]. split; [exact F2|]. unfold supplied, active. fold a V. rewrite O, total_app. unfold Copp, Cadd. cbn [fst]. rewrite (slack_sum _ _ _ F1), (gen_sum _ _ _ F2). ring.
Qed.
Lemma column_near eps : (forall q, (q < as_size a)%nat -> Rabs (F (equations a) v 0 q) < eps) -> exists ac, accounts_for V nw ac /\ gives_rows nw a ac v /\
  Rabs (active gens slacks + fst (delivered V ac) + fst (lost V ac)) <= all_voltages nw V * eps /\ (constant_power nw -> delivered V ac = described nw).
Proof.
  intros HF. destruct column_rows as (ac & aS & aG & A & G & _ & _ & _ & E). exists ac. split; [exact A|]. split; [exact G|]. split; [|exact (loads_take V nw ac A)].
  rewrite E, (balance nw V ac OK eq_refl A). destruct G as [R1 _].
  replace (- fst (Csub (Cadd (delivered V ac) (lost V ac)) (at_buses nw V (fun _ b => net_current (bus_id b) ac))) + fst (delivered V ac) + fst (lost V ac))
    with (fst (at_buses nw V (fun _ b => net_current (bus_id b) ac))) by (unfold Csub, Cadd; cbn [fst snd]; ring).
  assert (K : forall b, In b (nw_buses nw) -> Rabs (fst (net_current (bus_id b) ac)) < eps /\ Rabs (snd (net_current (bus_id b) ac)) < eps).
  { intros b Hb. apply In_nth_error in Hb as [k Hk]. rewrite <- (R1 k b Hk). cbn [fst snd]. assert (k < length (nw_buses nw))%nat by (apply nth_error_Some; congruence). pose proof (size_is old nw OK NO) as Sz. fold a in Sz. split; apply HF; rewrite Sz; lia. }
  unfold at_buses, all_voltages. rewrite (at_buses_from V (fun b => net_current (bus_id b) ac) 0 (nw_buses nw)).
  clear R1. revert K. induction (nw_buses nw) as [|b bs IH]; intros K; cbn [fold_right]; [unfold C0; cbn; rewrite Rabs_R0; lra|].
  specialize (IH (fun b' Hb => K b' (or_intror Hb))). destruct (K b (or_introl eq_refl)) as [K1 K2].
  destruct (power_bound (V (Some (bus_id b))) (net_current (bus_id b) ac) eps) as [P1 P2]; [lra|lra|]. unfold Cadd. cbn [fst snd].
  eapply Rle_trans; [apply Rabs_triang|]. rewrite Rmult_plus_distr_r. apply Rplus_le_compat; assumption.
Qed.
Lemma column_exact : (forall q, (q < as_size a)%nat -> F (equations a) v 0 q = 0) -> exists ac, accounts_for V nw ac /\
  Forall (fun x => takes V (fst (fst x)) (absorbed V (snd (fst x)))) ac /\ active gens slacks + fst (delivered V ac) = - fst (lost V ac) /\
  (constant_power nw -> active gens slacks + fst (described nw) = - fst (lost V ac)) /\ ((forall e, In e (elements nw) -> passive e) -> 0 <= fst (lost V ac)) /\
  (slacks_at_zero nw -> column_P gens slacks = active gens slacks /\ Forall (fun g => gr_Q g = 0) slacks).
Proof.
  intros HF. destruct column_rows as (ac & aS & aG & A & (R1 & R2 & R3) & O & F1 & F2 & E). exists ac. split; [exact A|].
  assert (M : Forall (fun x => x = 0) (misses ac)).
  { apply Forall_forall. intros x Hx. apply In_nth_error in Hx as [j Hj]. rewrite <- (R2 j x Hj). apply HF. rewrite R3. assert (j < length (misses ac))%nat by (apply nth_error_Some; congruence). lia. }
  pose proof (account_takes V nw ac A M) as T. split; [exact T|].
  assert (B : supplied V ac = Cadd (delivered V ac) (lost V ac)).
  { rewrite (balance nw V ac OK eq_refl A), at_buses_zero; [cring|]. intros k b Hk. rewrite <- (R1 k b Hk). assert (k < length (nw_buses nw))%nat by (apply nth_error_Some; congruence). rewrite !HF by (rewrite R3; lia). reflexivity. }
  assert (X : active gens slacks + fst (delivered V ac) = - fst (lost V ac)) by (rewrite E, B; unfold Cadd; cbn [fst]; ring). split; [exact X|].
  split; [intros CP; rewrite <- (loads_take V nw ac A CP); exact X|]. split; [exact (losses V nw ac A T)|]. intros Z.
  assert (Q : Forall (fun g => gr_Q g = 0) slacks).
  { assert (S0 : forall x, In x aS -> In x ac /\ In (fst (fst x)) (elements nw)).
    { intros x Hx. assert (Hx' : In x (only is_source ac)) by (rewrite O; apply in_or_app; now left). apply filter_In in Hx' as [Hx' _]. split; [exact Hx'|]. rewrite <- (proj1 A). now apply (in_map (fun x => fst (fst x))). }
    assert (SI : forall s, In (ESlack s) (filter is_source (elements nw)) -> In s (nw_slack nw)).
    { intros s Hs. rewrite (proj1 SL) in Hs. apply in_app_or in Hs as [Hs|Hs]; apply in_map_iff in Hs as (s' & Es & Hs); [injection Es as <-; exact Hs|discriminate]. }
    clear O E F2 X. induction F1 as [|[[e I0] m] g aS' rows (s & I & Ex & P & Q) H IH]; constructor.
    - cbn [fst] in Ex. injection Ex as -> ->. rewrite Q. destruct (S0 _ (or_introl eq_refl)) as [Hx He]. cbn [fst] in He.
      destruct A as [_ BH]. rewrite Forall_forall in BH. pose proof (BH _ Hx) as Bx. cbn [fst snd] in Bx.
      assert (ME : m = re_im (Csub (V (Network.sl_bus s)) (Cpolar (Network.sl_V s) (Network.sl_ang s)))) by (inversion Bx; reflexivity).
      rewrite Forall_forall in M. assert (M2 : snd (Csub (V (Network.sl_bus s)) (Cpolar (Network.sl_V s) (Network.sl_ang s))) = 0).
      { apply M. apply in_flat_map. exists (ESlack s, [(Network.sl_bus s, I)], m). split; [exact Hx|]. cbn [snd]. rewrite ME. unfold re_im. right. now left. }
      assert (Z0 : Network.sl_ang s = 0) by (apply Z, SI; apply filter_In; auto). rewrite Z0 in M2. unfold Cpolar, Csub in M2. cbn [fst snd] in M2. rewrite sin_0 in M2. replace (snd (V (Network.sl_bus s))) with 0 by lra. ring.
    - apply IH. intros x Hx. apply S0. now right. }
  split; [|exact Q]. unfold column_P, active. rewrite map_app, sum_app. f_equal. clear -Q. induction Q as [|g l Hg H IH]; [reflexivity|]. cbn [map sum fold_right] in *. unfold sum in IH. rewrite IH, Hg. ring.
Qed.
End Net.
