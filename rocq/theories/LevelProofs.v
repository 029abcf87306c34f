(** Lemmas for C159. *)
From Coq Require Import String List Bool Arith ZArith Reals Permutation Lia Lra.
From Verif Require Import Expr Residual SpecSystem Components SpecComponents Network SpecNetwork Solver Homotopy Devices Graph SpecGraph GraphProofs
  NetStamper PowerFlow SpecPowerFlow PowerFlowProofs PowerFlowGraph PowerFlowRun SpecLevel.
Import ListNotations.
Local Open Scope R_scope.

Section Graph.
Variables (x : details_of) (nw : network).
Hypothesis SO : sorted nw.
Hypothesis PR : proper x nw.

Lemma held_linked (P : elem -> Prop) (Q : gkind -> Prop) u v : (forall e f t, joins e f t -> P e -> Q (kind_of e)) ->
  held_by P x nw u v -> linked_by Q (graph_of x nw) u v.
Proof.
  intros PQ [e [i [j [HP [HE [J N]]]]]].
  assert (exists bl, shown x nw e bl /\ intact_elem e bl) as [bl [Sh I]].
  { exists false. split; [|destruct e; constructor]. destruct HE as [H|[T [k [H G]]]]; [left; auto|]. right. split; [exact T|]. exists k. rewrite G. auto. }
  exists (gelem_of x bl e), (of_bus x i), (of_bus x j). split; [apply graph_elements_in; eauto|]. split; [exact (PQ _ _ _ J HP)|]. split.
  { cbn [gelem_of ge_conns]. apply in_map_iff. exists (Some i, Some j). split; [reflexivity|]. apply connections_joins; [eapply joins_not_load; eauto|]. left; auto. }
  destruct PR as [P1 _]. auto.
Qed.
Lemma linked_held (P : elem -> Prop) (Q : gkind -> Prop) u v : (forall k, Q k -> k <> KLoad) -> (forall e, Q (kind_of e) -> P e) ->
  linked_by Q (graph_of x nw) u v -> held_by P x nw u v.
Proof.
  intros QL QP [g [f [t [H1 [H2 [H3 [H4 [H5 H6]]]]]]]]. apply graph_elements_in in H1 as [e [bl [-> Sh]]]. cbn [gelem_of ge_kind ge_conns] in *.
  apply in_map_iff in H3 as [[f0 t0] [E Hc]]. injection E as <- <-. cbn [fst snd] in *. apply (connections_joins e bl f0 t0 (QL _ H2)) in Hc.
  destruct f0 as [i|]; [|discriminate H4]. destruct t0 as [j|]; [|discriminate H5]. cbn [place_of] in *.
  destruct Hc as [[J I]|[s [_ [_ E]]]]; [|discriminate]. exists e, i, j. split; [auto|]. split; [|auto].
  destruct Sh as [[H _]|[T [k [H ->]]]]; [now left|]. right. split; [exact T|]. exists k. split; [exact H|].
  destruct (proj1 SO e (nth_error_In _ _ H)) as [f [t [m ->]]]. cbn in I. destruct (snd (of_fuse x k)); [reflexivity|discriminate].
Qed.
Lemma kind_steps e : kind_of e = KTransformer -> steps e.
Proof. unfold steps. destruct e; cbn; intros H; try discriminate; eauto 12. Qed.
Lemma other_steps e : kind_of e = KOther -> ~ steps e.
Proof. intros H [[y [fp [fn [tp [tn ->]]]]]|[[c [f [p [s1 [t1 [s2 [t2 ->]]]]]]]|[r [f [t [c ->]]]]]]; discriminate. Qed.
Lemma level_plain u v : level x nw u v -> plain (graph_of x nw) u v.
Proof.
  intros [H N]. split.
  - revert H. apply held_linked. intros e f t J _. eapply joins_not_load; eauto.
  - intros K. apply N. apply (linked_held _ (eq KTransformer)); [intros k <-; discriminate|intros e E; apply kind_steps; auto|exact K].
Qed.
Lemma other_held u v : linked_by (eq KOther) (graph_of x nw) u v -> held_by (fun e => ~ steps e) x nw u v.
Proof. apply linked_held; [intros k <-; discriminate|intros e E; apply other_steps; auto]. Qed.
Lemma path_weaken {A} (P Q : A -> A -> Prop) : (forall u v, P u v -> Q u v) -> forall u v, path P u v -> path Q u v.
Proof. intros H u v K. induction K; [constructor|econstructor; eauto]. Qed.
Lemma filter_map_eq {A B} (f : A -> B) (p : B -> bool) l : filter p (map f l) = map f (filter (fun y => p (f y)) l).
Proof. induction l as [|y l IH]; [reflexivity|]. cbn. destruct (p (f y)); cbn; now rewrite IH. Qed.
Lemma first_at_bus u b : first_at x nw u b -> first_bus (graph_of x nw) u (of_bus x (bus_id b)).
Proof.
  intros [l [r [E [N F]]]]. exists (map (fun b => of_bus x (bus_id b)) l), (map (fun b => of_bus x (bus_id b)) r). cbn [graph_of gn_buses].
  rewrite filter_map_eq, E, map_app. split; [reflexivity|]. split; [exact N|]. intros c H. apply in_map_iff in H as [d [<- H]]. exact (F d H).
Qed.
Lemma bus_first_at u g : first_bus (graph_of x nw) u g -> exists b, first_at x nw u b /\ g = of_bus x (bus_id b).
Proof.
  intros [l [r [E [N F]]]]. cbn [graph_of gn_buses] in E. rewrite filter_map_eq in E.
  apply map_eq_app in E as [l0 [r1 [E [<- E1]]]]. apply map_eq_cons in E1 as [b [r0 [-> [<- <-]]]]. exists b. split; [|reflexivity].
  exists l0, r0. split; [exact E|]. split; [exact N|]. intros c H. apply (F (of_bus x (bus_id c))). now apply in_map with (f := fun b => of_bus x (bus_id b)).
Qed.
End Graph.

Section Run.
Variable x : details_of.
Context {So : Type}.
Variable spsolve : So -> list (nat * nat * R) -> list R -> So * option (list R).
Variable nan : R.
Variable old : table.
Variable visit : list nat -> list nat.
Variable nw : network.

Lemma started cfg so : (forall n, execute x spsolve nan cfg old visit nw so <> PFIslands n) -> execute x spsolve nan cfg old visit nw so <> PFVoltages ->
  accepted visit (graph_of x nw) = true.
Proof.
  intros N1 N2. unfold execute in N1, N2. unfold accepted. destruct (Nat.eqb (length (islands (build (graph_of x nw)))) 1); cbn [negb] in *; [|exfalso; eapply N1; reflexivity].
  destruct (validate visit (build (graph_of x nw))); cbn [negb] in *; [reflexivity|]. exfalso. now apply N2.
Qed.
Lemma levels cfg so : network_ok nw -> sorted nw -> proper x nw -> (forall l, Permutation (visit l) l) ->
  (forall n, execute x spsolve nan cfg old visit nw so <> PFIslands n) -> execute x spsolve nan cfg old visit nw so <> PFVoltages ->
  forall u v b c, path (level x nw) u v -> first_at x nw u b -> first_at x nw v c -> Rabs (nominal x b - nominal x c) <= 20.
Proof.
  intros OK SO PR PE N1 N2 u v b c P Hb Hc. apply (accepted_voltages visit _ (graph_ends x nw OK PR) PE (started cfg so N1 N2) u v);
    [|now apply first_at_bus|now apply first_at_bus].
  revert P. apply path_weaken. exact (level_plain x nw SO PR).
Qed.
Lemma close_levels cfg so : network_ok nw -> sorted nw -> proper x nw -> (forall l, Permutation (visit l) l) ->
  (forall u v b c, path (held_by (fun e => ~ steps e) x nw) u v -> first_at x nw u b -> first_at x nw v c -> Rabs (nominal x b - nominal x c) <= 19 / 2) ->
  execute x spsolve nan cfg old visit nw so <> PFVoltages.
Proof.
  intros OK SO PR PE H. assert (validate visit (build (graph_of x nw)) = true) as V.
  { apply close_validate; [exact (graph_ends x nw OK PR)|exact PE|]. intros u v bu bv P Hu Hv.
    apply bus_first_at in Hu as [b [Hb ->]]. apply bus_first_at in Hv as [c [Hc ->]]. apply (H u v b c); auto.
    revert P. apply path_weaken. exact (other_held x nw SO). }
  unfold execute. destruct (negb (Nat.eqb (length (islands (build (graph_of x nw)))) 1)); [discriminate|]. rewrite V. cbn [negb].
  destruct (device_run _ _ _ _ _ _ _) as [ok v [[it tx] res] ds so'|]; discriminate.
Qed.
Lemma three_settings c d so : nw_three_phase nw = true -> same_for_three c d ->
  execute x spsolve nan c old visit nw so = execute x spsolve nan d old visit nw so.
Proof.
  intros T [E1 [E2 E3]]. destruct c, d, nw. cbn in T, E1, E2, E3. subst. reflexivity.
Qed.
Lemma one_loop {H V E Res} (hom : H -> list device -> V -> H * ((bool * V * Res) + E)) read n c d h ds v :
  device_loop hom read n c false h ds v = device_loop hom read n d false h ds v.
Proof.
  destruct n; [reflexivity|]. cbn [device_loop]. destruct (solve hom h ds v) as [h' [[[ok w] res]|e]]; [|reflexivity]. destruct ok; [|reflexivity]. destruct c, d; reflexivity.
Qed.
Lemma one_run {H V E Res} (hom : H -> list device -> V -> H * ((bool * V * Res) + E)) read c d h ds v :
  device_run hom read c false h ds v = device_run hom read d false h ds v.
Proof. unfold device_run. cbn [try_adjust_devices]. destruct c, d; try reflexivity; apply one_loop. Qed.
Lemma one_settings c d so : nw_three_phase nw = false -> same_for_one c d ->
  execute x spsolve nan c old visit nw so = execute x spsolve nan d old visit nw so.
Proof.
  intros T [E1 [E2 [E3 E4]]]. destruct c as [c1 c2 c3 c4 c5], d as [d1 d2 d3 d4 d5]. cbn in E1, E2, E3, E4. subst.
  unfold execute. rewrite T. cbn [pf_device_control]. rewrite (one_run _ _ c5 d5). reflexivity.
Qed.
End Run.
