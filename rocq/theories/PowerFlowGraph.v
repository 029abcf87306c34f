(** Lemmas for C144: the graph of a network is in one piece exactly when the network is. *)
From Coq Require Import String List Bool Arith ZArith Reals Permutation Lia Lra.
From Verif Require Import SpecSystem Components SpecComponents Network SpecNetwork Devices Graph SpecGraph GraphProofs PowerFlow SpecPowerFlow.
Import ListNotations.

Lemma number_in {A} (l : list A) : forall n k y, In (k, y) (number n l) <-> (n <= k)%nat /\ nth_error l (k - n) = Some y.
Proof.
  induction l as [|z l IH]; intros n k y; cbn [number In].
  - split; [intros []|]. intros [_ H]. destruct (k - n)%nat; discriminate.
  - rewrite IH. split.
    + intros [E|[H1 H2]]; [injection E as <- <-; rewrite Nat.sub_diag; auto|]. replace (k - n)%nat with (S (k - S n)) by lia. split; [lia|exact H2].
    + intros [H1 H2]. destruct (Nat.eq_dec k n) as [-> | N]; [rewrite Nat.sub_diag in H2; injection H2 as ->; auto|].
      right. replace (k - n)%nat with (S (k - S n)) in H2 by lia. split; [lia|exact H2].
Qed.
Lemma number_length {A} (l : list A) : forall n, length (number n l) = length l.
Proof. induction l; intros; cbn; auto. Qed.

Section Graph.
Variables (x : details_of) (nw : network).
(** elements as the analyser sees them *)
Definition shown (e : elem) (blown : bool) : Prop :=
  In e (not_fuses nw) /\ blown = false \/ nw_three_phase nw = true /\ exists k, nth_error (nw_fuses nw) k = Some e /\ blown = is_blown (snd (of_fuse x k)).
Lemma graph_elements_in g : In g (graph_elements x nw) <-> exists e blown, g = gelem_of x blown e /\ shown e blown.
Proof.
  assert (not_fuses nw = (nw_lines nw ++ nw_transformers nw ++ map ESlack (nw_slack nw) ++ nw_switches nw ++ map EGen (nw_generators nw) ++ nw_loads nw ++ nw_misc nw) ++
    (if nw_three_phase nw then nw_regulators nw ++ nw_capacitors nw else nw_sources nw ++ nw_shunts nw)) as EN by (unfold not_fuses; repeat rewrite <- app_assoc; reflexivity).
  unfold graph_elements, shown. rewrite EN. clear EN. set (A := nw_lines nw ++ _). clearbody A. destruct (nw_three_phase nw).
  - rewrite !in_app_iff. split.
    + intros [H|[H|[H|H]]].
      * apply in_map_iff in H as [e [<- H]]. exists e, false. split; [reflexivity|]. left. rewrite !in_app_iff. auto.
      * apply in_map_iff in H as [e [<- H]]. exists e, false. split; [reflexivity|]. left. rewrite !in_app_iff. auto.
      * apply in_map_iff in H as [[k e] [<- H]]. apply number_in in H as [_ H]. rewrite Nat.sub_0_r in H. exists e, (is_blown (snd (of_fuse x k))). split; [reflexivity|]. right. eauto.
      * apply in_map_iff in H as [e [<- H]]. exists e, false. split; [reflexivity|]. left. rewrite !in_app_iff. auto.
    + intros [e [b [-> [[H ->]|[_ [k [H ->]]]]]]].
      * rewrite !in_app_iff in H. destruct H as [H|[H|H]]; [left|right; left|right; right; right]; now apply in_map.
      * right; right; left. apply in_map_iff. exists (k, e). split; [reflexivity|]. apply number_in. rewrite Nat.sub_0_r. split; [lia|exact H].
  - rewrite in_app_iff. split.
    + intros [H|H]; apply in_map_iff in H as [e [<- H]]; exists e, false; (split; [reflexivity|]); left; rewrite in_app_iff; auto.
    + intros [e [b [-> [[H ->]|[E _]]]]]; [|discriminate]. rewrite in_app_iff in H. destruct H; [left|right]; now apply in_map.
Qed.
Definition intact_elem (e : elem) (blown : bool) : Prop := match e with EFuse _ _ _ => blown = false | _ => True end.
Lemma connections_joins e blown f t : kind_of e <> KLoad ->
  (In (f, t) (connections blown e) <-> (joins e f t /\ intact_elem e blown) \/ exists s, e = ESlack s /\ f = sl_bus s /\ t = None).
Proof.
  intros K. destruct e; cbn [connections intact_elem]; try (exfalso; apply K; reflexivity).
  - split; [intros [E|[]]; injection E as <- <-; left; split; constructor|]. intros [[J _]|[s [E _]]]; [inversion J; subst; now left|discriminate].
  - split; [intros H; left; split; [apply (j_phase phases g b B (f, t) H)|constructor]|]. intros [[J _]|[s [E _]]]; [|discriminate].
    inversion J; subst. match goal with H : In ?p _ |- _ => destruct p; exact H end.
  - split.
    + intros [E|[E|[E|[]]]]; injection E as <- <-; left; split; constructor.
    + intros [[J _]|[s [E _]]]; [inversion J; subst; cbn; auto|discriminate].
  - split.
    + intros [E|[E|[]]]; injection E as <- <-; left; split; constructor.
    + intros [[J _]|[y [E _]]]; [inversion J; subst; cbn; auto|discriminate].
  - split; [intros [E|[]]; injection E as <- <-; right; eauto|]. intros [[J _]|[y [E [-> ->]]]]; [inversion J|injection E as ->; now left].
  - destruct closed; cbn [In].
    + split; [intros [E|[]]; injection E as <- <-; left; split; constructor|]. intros [[J _]|[s [E _]]]; [inversion J; subst; now left|discriminate].
    + split; [intros []|]. intros [[J _]|[s [E _]]]; [inversion J|discriminate].
  - split; [intros []|]. intros [[J _]|[s [E _]]]; [inversion J|discriminate].
  - split; [intros [E|[]]; injection E as <- <-; left; split; constructor|]. intros [[J _]|[s [E _]]]; [inversion J; subst; now left|discriminate].
  - split; [intros []|]. intros [[J _]|[s [E _]]]; [inversion J|discriminate].
  - split; [intros [E|[]]; injection E as <- <-; left; split; constructor|]. intros [[J _]|[s [E _]]]; [inversion J; subst; now left|discriminate].
  - destruct blown; cbn [In].
    + split; [intros []|]. intros [[_ J]|[s [E _]]]; discriminate.
    + split; [intros [E|[]]; injection E as <- <-; left; split; constructor|]. intros [[J _]|[s [E _]]]; [inversion J; subst; now left|discriminate].
  - split; [intros [E|[]]; injection E as <- <-; left; split; constructor|]. intros [[J _]|[s [E _]]]; [inversion J; subst; now left|discriminate].
Qed.
Lemma joins_not_load e f t : joins e f t -> kind_of e <> KLoad.
Proof. intros H; destruct H; discriminate. Qed.

Hypothesis OK : network_ok nw.
Hypothesis SO : sorted nw.
Hypothesis PR : proper x nw.
Lemma fuse_elements e k : nw_three_phase nw = true -> nth_error (nw_fuses nw) k = Some e -> In e (elements nw).
Proof. intros T H. unfold elements. rewrite T. rewrite !in_app_iff. apply nth_error_In in H. tauto. Qed.
Lemma shown_in e blown : shown e blown -> In e (elements nw).
Proof.
  intros [[H _]|[T [k [H _]]]]; [|eapply fuse_elements; eauto]. unfold not_fuses in H. unfold elements. destruct (nw_three_phase nw); rewrite ?in_app_iff in *; tauto.
Qed.
Lemma shown_adjacent e blown i j : shown e blown -> joins e (Some i) (Some j) -> intact_elem e blown -> adjacent x nw i j.
Proof.
  intros H J I. exists e. split; [exact J|]. destruct H as [[H _]|[T [k [H ->]]]]; [now left|]. right. split; [exact T|]. exists k. split; [exact H|].
  destruct (proj1 SO e (nth_error_In _ _ H)) as [f [t [m ->]]]. cbn in I. destruct (snd (of_fuse x k)); [reflexivity|discriminate].
Qed.
Lemma adjacent_shown i j : adjacent x nw i j -> exists e blown, shown e blown /\ joins e (Some i) (Some j) /\ intact_elem e blown.
Proof.
  intros [e [J [H|[T [k [H G]]]]]].
  - exists e, false. split; [left; auto|]. split; [exact J|]. destruct e; constructor.
  - exists e, false. split; [right; split; [exact T|]; exists k; rewrite G; auto|]. split; [exact J|]. destruct e; constructor.
Qed.
Lemma joins_refs e f t : joins e f t -> In f (refs e) /\ In t (refs e).
Proof. intros H; destruct H; cbn; auto 10. split; apply in_flat_map; exists p; (split; [assumption|cbn; auto]). Qed.
Lemma place_real n : place (graph_of x nw) n <-> exists b, real_bus x nw b /\ name_of_bus x b = n.
Proof.
  unfold place, real_bus, name_of_bus, graph_of; cbn [gn_buses]. split.
  - intros [g [H [V N]]]. apply in_map_iff in H as [b [<- H]]. eauto.
  - intros [b [[H V] N]]. exists (of_bus x (bus_id b)). split; [apply in_map_iff; eauto|auto].
Qed.
Lemma end_place e f t k : In e (elements nw) -> joins e f t -> f = Some k \/ t = Some k -> place (graph_of x nw) (gb_name (of_bus x k)).
Proof.
  intros He J E. apply place_real. destruct (joins_refs _ _ _ J) as [R1 R2].
  assert (In k (map bus_id (nw_buses nw))) as B by (apply (proj2 OK e He); destruct E as [<-|<-]; assumption).
  apply in_map_iff in B as [b [<- Hb]]. exists b. split; [|reflexivity]. split; [exact Hb|]. exact (proj1 (proj2 PR) e f t (bus_id b) He J E).
Qed.
Lemma graph_ends : ends_ok (graph_of x nw).
Proof.
  intros g f t Hg K Hc. cbn [graph_of gn_elements] in Hg. apply graph_elements_in in Hg as [e [bl [-> Sh]]]. cbn [gelem_of ge_kind ge_conns] in *.
  apply in_map_iff in Hc as [[f0 t0] [E Hc]]. injection E as <- <-. cbn [fst snd].
  apply (connections_joins e bl f0 t0 K) in Hc. pose proof (shown_in _ _ Sh) as He. destruct Hc as [[J _]|[s [-> [-> ->]]]].
  - split; [destruct f0 as [k|]|destruct t0 as [k|]]; cbn [place_of]; auto; right; eapply end_place; eauto.
  - split; [|left; reflexivity]. destruct (sl_bus s) as [k|] eqn:Es; cbn [place_of]; [|left; reflexivity]. right.
    assert (In k (map bus_id (nw_buses nw))) as B by (apply (proj2 OK _ He); left; exact Es).
    apply in_map_iff in B as [b [<- Hb]]. apply place_real. exists b. split; [|reflexivity]. split; [exact Hb|]. exact (proj2 (proj2 PR) s (bus_id b) He Es).
Qed.
Lemma beside_linked u v : beside x nw u v <-> linked (graph_of x nw) u v.
Proof.
  split.
  - intros [i [j [A [<- <-]]]].
    assert (forall i j, adjacent x nw i j -> exists g f t, In g (gn_elements (graph_of x nw)) /\ ge_kind g <> KLoad /\ In (f, t) (ge_conns g) /\ gb_ground f = false /\ gb_ground t = false /\ f = of_bus x i /\ t = of_bus x j) as G.
    { clear i j A. intros i j A. destruct (adjacent_shown i j A) as [e [bl [Sh [J I]]]]. exists (gelem_of x bl e), (of_bus x i), (of_bus x j).
      split; [apply graph_elements_in; eauto|]. split; [cbn; eapply joins_not_load; eauto|]. split.
      { cbn [gelem_of ge_conns]. apply in_map_iff. exists (Some i, Some j). split; [reflexivity|]. apply connections_joins; [eapply joins_not_load; eauto|]. left; auto. }
      destruct PR as [P1 _]. auto. }
    destruct A as [A|A]; destruct (G _ _ A) as [g [f [t [H1 [H2 [H3 [H4 [H5 [-> ->]]]]]]]]]; [exists g, (of_bus x i), (of_bus x j)|exists g, (of_bus x j), (of_bus x i)]; split; auto; split; auto; split; auto; split; auto.
  - intros [g [f [t [H1 [H2 [H3 [H4 [H5 H6]]]]]]]]. apply graph_elements_in in H1 as [e [bl [-> Sh]]]. cbn [gelem_of ge_kind ge_conns] in *.
    apply in_map_iff in H3 as [[f0 t0] [E Hc]]. injection E as <- <-. cbn [fst snd] in *. apply (connections_joins e bl f0 t0 H2) in Hc.
    destruct f0 as [i|]; [|discriminate H4]. destruct t0 as [j|]; [|discriminate H5]. cbn [place_of] in *.
    destruct Hc as [[J I]|[s [_ [_ E]]]]; [|discriminate]. pose proof (shown_adjacent _ _ _ _ Sh J I) as A.
    destruct H6 as [[<- <-]|[<- <-]]; [exists i, j|exists j, i]; auto.
Qed.
Lemma path_iff {A} (P Q : A -> A -> Prop) : (forall u v, P u v <-> Q u v) -> forall u v, path P u v <-> path Q u v.
Proof. intros H u v. split; intros K; induction K; try constructor; econstructor; eauto; apply H; auto. Qed.
Lemma piece_connected : one_piece x nw <-> connected (graph_of x nw).
Proof.
  unfold one_piece, connected. split; intros [[y H] K].
  - split; [exists (name_of_bus x y); apply place_real; eauto|]. intros u v Hu Hv. apply place_real in Hu as [b [Hb <-]]. apply place_real in Hv as [c [Hc <-]].
    apply (path_iff _ _ beside_linked). auto.
  - apply place_real in H as [b [Hb _]]. split; [eauto|]. intros b' c' Hb' Hc'. apply (path_iff _ _ beside_linked). apply K; apply place_real; eauto.
Qed.
End Graph.
