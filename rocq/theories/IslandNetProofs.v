(** Lemmas for C161. *)
From Coq Require Import Reals ZArith String Ascii List Bool Lia Lra Arith.
From Verif Require Import PyExc Components Devices UnbalancedLine Network SpecNetwork SpecNetStamper Graph SpecGraph PowerFlow SpecPowerFlow PowerFlowGraph ThreePhase SpecThreePhase SpecThreeElems
  ThreePhaseBase ThreePhaseBusProofs ThreePhaseElemProofs ThreePhaseXfmrProofs ThreePhaseFinal SolverNet SpecSolverNet SolverNetProofs IslandNet SpecIslandNet.
From Verif Require Island SpecIsland IslandProofs.
Import ListNotations.

Section Net.
Variables (inv : matrix -> option matrix) (cap : bool) (ms : list dmodel) (n : net).
Hypothesis K : known_elements ms.
Hypothesis E : parse_three inv cap ms = Ok n.
Hypothesis P : Forall plain_ends ms.
Hypothesis PL : Forall plain_loads ms.
Variables (opt : option bool) (nw : network).
Hypothesis EN : dx_network opt n = Ok nw.
Let x := dx_details n.
Let inet := island_net x nw.

Lemma the_ok : network_ok nw.
Proof. destruct (parse_ok _ _ _ _ K E) as (n0 & _ & _ & G & _). exact (dx_ok opt n nw G EN). Qed.
Lemma the_proper : proper x nw.
Proof. exact (dx_proper inv cap ms n K E P opt nw EN). Qed.
Lemma bus_in k : In k (map bus_id (nw_buses nw)) <-> (k < length (nt_buses n))%nat.
Proof.
  pose proof (dx_fields _ _ _ EN) as (_ & _ & BU & _). rewrite BU, map_map. change (map (fun b => bus_id (dx_bus b)) (nt_buses n)) with (map tb_id (nt_buses n)). rewrite (p_numbers _ _ _ _ K E). rewrite in_seq. lia.
Qed.
Lemma ibus_in k : In (ibus_of x (Some k)) (Island.in_buses inet) <-> (k < length (nt_buses n))%nat.
Proof.
  rewrite <- bus_in. unfold inet, island_net; cbn [Island.in_buses]. rewrite !in_map_iff. split.
  - intros [b [Q H]]. injection Q as Q _ _. eauto.
  - intros [b [<- H]]. eauto.
Qed.
Lemma real_outer k : (k < length (nt_buses n))%nat -> (real n k <-> outer n k).
Proof.
  intros L. unfold real, outer, dx_place. apply nth_error_Some in L. destruct (nth_error (nt_buses n) k) as [b|]; [|congruence]. cbn. split; [eauto|]. intros [b' [Q V]]. injection Q as ->. exact V.
Qed.
Lemma outer_lt k : outer n k -> (k < length (nt_buses n))%nat.
Proof. intros [b [H _]]. apply nth_error_Some. congruence. Qed.
Lemma proper_of k : (k < length (nt_buses n))%nat -> real n k -> SpecIsland.proper inet (ibus_of x (Some k)).
Proof. intros L R. split; [apply ibus_in; exact L|exact R]. Qed.
Lemma ref_lt e k : In e (Network.elements nw) -> In (Some k) (refs e) -> (k < length (nt_buses n))%nat.
Proof. intros He Hk. apply bus_in. exact (proj2 the_ok e He k Hk). Qed.
Lemma joins_end e f t : In e (Network.elements nw) -> joins e f t -> SpecIsland.end_ok inet (ibus_of x f) /\ SpecIsland.end_ok inet (ibus_of x t).
Proof.
  intros He J. destruct (joins_refs _ _ _ J) as [R1 R2].
  split; [destruct f as [k|]|destruct t as [k|]]; try (left; reflexivity); right; apply proper_of; try (eapply ref_lt; eauto; fail);
    apply (proj1 (proj2 the_proper) e _ _ k He J); auto.
Qed.
Lemma load_real l k : In l (nt_loads n) -> tl_from l = Some k \/ tl_to l = Some k -> real n k.
Proof.
  intros Hl Hk. rewrite Forall_forall in PL. destruct (Forall2_in_l _ _ _ _ _ _ (p_loads _ _ _ _ K E) Hl) as ([dl pl] & Hd & M). cbn [fst snd] in M.
  apply in_flat_map in Hd as (m & Hm & Hd). destruct m as [| | | | |l0| |]; try destruct Hd. cbn in Hd. apply in_map_iff in Hd as (pl' & Q & Hp). injection Q as -> ->.
  pose proof (PL _ Hm) as U. cbn in U. destruct M as (_ & _ & _ & _ & _ & _ & _ & M). destruct (tl_phase l) as [|a rest]; [destruct M|].
  destruct M as [(f & F1 & F2) M]. destruct Hk as [Hk|Hk].
  - rewrite F1 in Hk. injection Hk as <-. eapply leads_real; eauto. eexists; reflexivity.
  - destruct rest as [|b rest]; [congruence|]. destruct M as (g & G1 & G2). rewrite G1 in Hk. injection Hk as <-. eapply leads_real; eauto. eexists; reflexivity.
Qed.
Lemma inner_bus k name p : interior_bus n k name p -> In (ibus_of x (Some k)) (Island.in_buses inet) /\ Island.ib_virtual (ibus_of x (Some k)) = true.
Proof.
  intros (b & H & V & _). split; [apply ibus_in; apply nth_error_Some; congruence|]. cbn. unfold dx_place. rewrite H. exact V.
Qed.
Lemma number_mem {A} (l : list A) y : In y (number 0 l) -> nth_error l (fst y) = Some (snd y).
Proof. destruct y as [k e]. intros H. apply number_in in H as [_ H]. rewrite Nat.sub_0_r in H. exact H. Qed.
Lemma mem_number {A} (l : list A) k e : nth_error l k = Some e -> In (k, e) (number 0 l).
Proof. intros H. apply number_in. rewrite Nat.sub_0_r. split; [lia|exact H]. Qed.
Lemma listed e : In e (nw_lines nw) \/ In e (nw_transformers nw) \/ In e (nw_switches nw) \/ In e (nw_loads nw) \/ In e (nw_regulators nw) \/ In e (nw_fuses nw) \/ In e (nw_capacitors nw) ->
  In e (Network.elements nw).
Proof. pose proof (dx_fields _ _ _ EN) as (_ & T & _). unfold Network.elements. rewrite T. rewrite !in_app_iff. tauto. Qed.

(** *** the shape of the lists *)
Lemma a_line e : In e (nw_lines nw) -> exists ph g b B, e = EUnb ph g b B.
Proof. pose proof (dx_fields _ _ _ EN) as (L & _). intros H. destruct (forall2_left _ _ _ _ _ L e H) as (l & _ & El). apply line_ok in El as (ph & _ & g & b & B & ->). eauto 6. Qed.
Lemma conns_joins e f t : In e (nw_lines nw ++ nw_transformers nw ++ nw_switches nw) -> In (f, t) (PowerFlow.connections false e) <-> joins e f t.
Proof.
  intros H. pose proof (dx_fields _ _ _ EN) as (_ & _ & _ & X & _ & SW & _).
  assert (kind_of e <> KLoad /\ intact_elem e false /\ forall s, e <> ESlack s) as [KL [IN NS]].
  { rewrite !in_app_iff in H. destruct H as [H|[H|H]].
    - destruct (a_line e H) as (ph & g & b & B & ->). repeat split; discriminate.
    - rewrite X in H. apply in_map_iff in H as (y & <- & _). destruct y; repeat split; discriminate.
    - rewrite SW in H. apply in_map_iff in H as (y & <- & _). repeat split; discriminate. }
  rewrite (connections_joins e false f t KL). split; [intros [[J _]|[s [Q _]]]; [exact J|destruct (NS s Q)]|auto].
Qed.
Lemma a_device d : In d (Island.in_regs inet ++ Island.in_fuses inet ++ Island.in_caps inet) ->
  exists e f t, In e (Network.elements nw) /\ joins e f t /\ Island.iv_from d = ibus_of x f /\ Island.iv_to d = ibus_of x t /\
    (Island.iv_live d = true -> In e (not_fuses nw) \/ nw_three_phase nw = true /\ exists k, nth_error (nw_fuses nw) k = Some e /\ snd (of_fuse x k) = GOOD).
Proof.
  pose proof (dx_fields _ _ _ EN) as (_ & T & _ & _ & _ & _ & _ & _ & _ & _ & _ & RE & FU & CA & _).
  unfold inet, island_net; cbn [Island.in_regs Island.in_fuses Island.in_caps]. rewrite !in_app_iff. intros [H|[H|H]]; apply in_map_iff in H as ([k e] & <- & H); apply number_mem in H; cbn [fst snd] in H;
    pose proof (nth_error_In _ _ H) as HI.
  - assert (In e (not_fuses nw)) as N by (unfold not_fuses; rewrite T, !in_app_iff; tauto).
    pose proof HI as HI'. rewrite RE in HI'. apply in_map_iff in HI' as (r & <- & _). exists (dx_reg r), (Some (tr_from r)), (Some (tr_to r)).
    split; [apply listed; tauto|]. split; [constructor|]. split; [reflexivity|]. split; [reflexivity|]. auto.
  - pose proof HI as HI'. rewrite FU in HI'. apply in_map_iff in HI' as (r & <- & _). exists (dx_fuse r), (Some (tf_from r)), (Some (tf_to r)).
    split; [apply listed; tauto|]. split; [constructor|]. split; [reflexivity|]. split; [reflexivity|]. intros L. right. split; [exact T|]. exists k. split; [exact H|].
    cbn [idev_of snd fst dx_fuse Island.iv_live] in L. destruct (snd (of_fuse x k)); [reflexivity|discriminate].
  - assert (In e (not_fuses nw)) as N by (unfold not_fuses; rewrite T, !in_app_iff; tauto).
    pose proof HI as HI'. rewrite CA in HI'. apply in_map_iff in HI' as (r & <- & _). exists (dx_cap r), (Some (tc_bus r)), None.
    split; [apply listed; tauto|]. split; [constructor|]. split; [reflexivity|]. split; [reflexivity|]. auto.
Qed.
Lemma an_elem e : In e (Island.in_lines inet ++ Island.in_xfs inet ++ Island.in_switches inet) ->
  exists e0, In e0 (nw_lines nw ++ nw_transformers nw ++ nw_switches nw) /\ Island.ie_conns e = ends_of x (PowerFlow.connections false e0).
Proof.
  unfold inet, island_net; cbn [Island.in_lines Island.in_xfs Island.in_switches]. rewrite !in_app_iff. intros [H|[H|H]]; apply in_map_iff in H as ([k e0] & <- & H); apply number_mem in H; cbn [fst snd] in H;
    apply nth_error_In in H; exists e0; rewrite !in_app_iff; auto.
Qed.
Lemma elem_listed e : In e (nw_lines nw ++ nw_transformers nw ++ nw_switches nw) -> In e (Network.elements nw) /\ In e (not_fuses nw).
Proof. intros H. pose proof (dx_fields _ _ _ EN) as (_ & T & _). rewrite !in_app_iff in H. split; [apply listed; tauto|]. unfold not_fuses. rewrite !in_app_iff. tauto. Qed.
Lemma net_wf : SpecIsland.wf inet.
Proof.
  pose proof (dx_fields _ _ _ EN) as (_ & T & _ & X & SL & _ & _ & LO & _ & _ & _ & RE & FU & CA & _).
  constructor.
  - unfold inet, island_net; cbn [Island.in_buses]. rewrite map_map. exact (proj1 the_ok).
  - intros b H. apply in_map_iff in H as (c & <- & _). reflexivity.
  - intros f t H. unfold SpecIsland.all_conns in H. rewrite in_app_iff in H. destruct H as [H|H].
    + apply in_flat_map in H as (e & He & Hc). destruct (an_elem e He) as (e0 & H0 & Q). rewrite Q in Hc. apply in_map_iff in Hc as ([f0 t0] & Q' & Hc). injection Q' as <- <-.
      apply (conns_joins e0 f0 t0 H0) in Hc. exact (joins_end e0 f0 t0 (proj1 (elem_listed _ H0)) Hc).
    + apply in_map_iff in H as (d & Q & H). injection Q as <- <-. apply filter_In in H as [H _]. destruct (a_device d H) as (e & f & t & He & J & -> & -> & _). exact (joins_end _ _ _ He J).
  - intros d H. rewrite in_app_iff in H. destruct H as [H|H].
    + unfold inet, island_net in H; cbn [Island.in_loads] in H. apply in_map_iff in H as ([k e] & <- & H). apply number_mem in H; cbn [fst snd] in H. apply nth_error_In in H.
      pose proof H as H'. rewrite LO in H'. apply in_map_iff in H' as (l & <- & Hl). cbn [idev_of snd dx_load Island.iv_from Island.iv_to].
      assert (forall k, tl_from l = Some k \/ tl_to l = Some k -> SpecIsland.proper inet (ibus_of x (Some k))) as Q.
      { intros j Hj. apply proper_of; [|exact (load_real l j Hl Hj)]. apply (ref_lt (dx_load l)); [apply listed; tauto|]. cbn. destruct Hj; auto. }
      split; [destruct (tl_from l) as [j|]|destruct (tl_to l) as [j|]]; try (left; reflexivity); right; apply Q; auto.
    + destruct (a_device d H) as (e & f & t & He & J & -> & -> & _). exact (joins_end _ _ _ He J).
  - intros s H. unfold inet, island_net in H; cbn [Island.in_slack Island.in_gens] in H. rewrite app_nil_r in H. apply in_map_iff in H as ([k sl] & <- & H). apply number_mem in H; cbn [fst snd] in *. apply nth_error_In in H.
    assert (In (ESlack sl) (Network.elements nw)) as HS by (unfold Network.elements; rewrite !in_app_iff; right; right; left; now apply in_map).
    pose proof H as H'. rewrite SL in H'. apply in_map_iff in H' as (s & <- & Hs). cbn [dx_slack Network.sl_bus Island.is_bus].
    apply proper_of; [apply (ref_lt _ _ HS); cbn; auto|]. exact (slack_real inv cap ms n K E s Hs).
  - intros e b H Hb. unfold inet, island_net in H; cbn [Island.in_xfs] in H. apply in_map_iff in H as ([k e0] & <- & H). apply number_mem in H; cbn [fst snd] in H. apply nth_error_In in H.
    rewrite X in H. apply in_map_iff in H as (y & <- & Hy). destruct y as [fp fn tp tn d g b' rt|ph from pri s1 t1 s2 t2 c g b']; cbn in Hb; [destruct Hb|].
    destruct (p_xfmrs _ _ _ _ K E) as (gs & EG & FG). rewrite EG in Hy. apply in_concat in Hy as (us & Hu & Hy).
    destruct (Forall2_in_l _ _ _ _ _ _ FG Hu) as (dx & _ & M). unfold xfmr_made in M. destruct (dx_tap dx).
    + destruct M as (u & -> & M). destruct Hy as [->|[]]. destruct M as (ph' & from' & pri' & s1' & t1' & s2' & t2' & c' & g' & b'' & Q & M). injection Q as <- <- <- <- <- <- <- <- <- <-.
      decompose [and ex] M. 
      repeat match goal with H : interior_bus n _ _ _ |- _ => apply inner_bus in H end.
      destruct Hb as [<-|[<-|[<-|[]]]]; assumption.
    + exfalso. destruct M as (w1 & w2 & _ & LW & M). apply In_nth_error in Hy as [i Hi].
      assert (exists p, nth_error (dw_phases w1) i = Some p) as [p Hp].
      { destruct (nth_error (dw_phases w1) i) as [p|] eqn:Q; [eauto|]. apply nth_error_None in Q. assert (i < length us)%nat by (apply nth_error_Some; congruence). lia. }
      destruct (M i p Hp) as (u & Hu' & fp & fn & tp & tn & d & g0 & b0 & -> & _). congruence.
  - intros d b H Hb. rewrite in_app_iff in H. unfold inet, island_net in H; cbn [Island.in_regs Island.in_fuses] in H.
    destruct H as [H|H]; apply in_map_iff in H as ([k e] & <- & H); apply number_mem in H; cbn [fst snd] in H; apply nth_error_In in H.
    + rewrite RE in H. apply in_map_iff in H as (r & <- & Hr). cbn in Hb. destruct Hb as [<-|[]].
      destruct (Forall2_in_l _ _ _ _ _ _ (p_regs _ _ _ _ K E) Hr) as (i & _ & (_ & _ & (name & I) & _)). exact (inner_bus _ _ _ I).
    + rewrite FU in H. apply in_map_iff in H as (r & <- & Hr). cbn in Hb. destruct Hb as [<-|[]].
      destruct (Forall2_in_l _ _ _ _ _ _ (p_fuses _ _ _ _ K E) Hr) as (i & _ & (_ & _ & _ & (name & I) & _)). exact (inner_bus _ _ _ I).
Qed.
(** *** neighbours *)
Lemma live_conn d f t : In d (Island.in_regs inet ++ Island.in_fuses inet ++ Island.in_caps inet) -> Island.iv_live d = true -> Island.iv_from d = ibus_of x f -> Island.iv_to d = ibus_of x t ->
  In (ibus_of x f, ibus_of x t) (SpecIsland.all_conns inet).
Proof. intros H L F T. unfold SpecIsland.all_conns. apply in_or_app. right. apply in_map_iff. exists d. rewrite F, T. split; [reflexivity|]. apply filter_In. auto. Qed.
Lemma adjacent_conn i j : adjacent x nw i j -> In (ibus_of x (Some i), ibus_of x (Some j)) (SpecIsland.all_conns inet).
Proof.
  pose proof (dx_fields _ _ _ EN) as (_ & T & _ & X & SL & SW & GE & LO & MI & _ & _ & RE & FU & CA & _).
  intros (e & J & H).
  assert (forall l e0, In e0 l -> In e0 (nw_lines nw ++ nw_transformers nw ++ nw_switches nw) -> joins e0 (Some i) (Some j) ->
            (forall y, In y (map (ielem_of x) (number 0 l)) -> In y (Island.in_lines inet ++ Island.in_xfs inet ++ Island.in_switches inet)) ->
            In (ibus_of x (Some i), ibus_of x (Some j)) (SpecIsland.all_conns inet)) as Q.
  { intros l e0 H0 H1 J0 I. apply In_nth_error in H0 as [k H0]. apply mem_number in H0. unfold SpecIsland.all_conns. apply in_or_app. left. apply in_flat_map.
    exists (ielem_of x (k, e0)). split; [apply I; now apply in_map|]. cbn [ielem_of Island.ie_conns snd]. apply in_map_iff. exists (Some i, Some j). split; [reflexivity|]. now apply conns_joins. }
  destruct H as [H|(_ & k & H & G)].
  - unfold not_fuses in H. rewrite T, GE, MI in H. cbn [map app] in H. rewrite !in_app_iff in H. destruct H as [H|[H|[H|[H|[H|[H|H]]]]]].
    + apply (Q (nw_lines nw) e H); [rewrite in_app_iff; auto|exact J|]. intros y Hy. apply in_or_app. left. exact Hy.
    + apply (Q (nw_transformers nw) e H); [rewrite !in_app_iff; auto|exact J|]. intros y Hy. apply in_or_app. right. apply in_or_app. left. exact Hy.
    + apply in_map_iff in H as (sl & <- & _). inversion J.
    + apply (Q (nw_switches nw) e H); [rewrite !in_app_iff; auto|exact J|]. intros y Hy. apply in_or_app. right. apply in_or_app. right. exact Hy.
    + rewrite LO in H. apply in_map_iff in H as (l & <- & _). inversion J.
    + apply In_nth_error in H as [k H]. pose proof (nth_error_In _ _ H) as H'. rewrite RE in H'. apply in_map_iff in H' as (r & <- & _). inversion J; subst. apply mem_number in H.
      apply (live_conn (idev_of x (k, dx_reg r))); try reflexivity. apply in_or_app. left. now apply in_map.
    + rewrite CA in H. apply in_map_iff in H as (r & <- & _). inversion J.
  - pose proof (nth_error_In _ _ H) as H'. rewrite FU in H'. apply in_map_iff in H' as (r & <- & _). inversion J; subst. apply mem_number in H.
    apply (live_conn (idev_of x (k, dx_fuse r))); try reflexivity.
    + apply in_or_app. right. apply in_or_app. left. now apply in_map.
    + cbn [idev_of snd fst dx_fuse Island.iv_live]. rewrite G. reflexivity.
Qed.
Lemma conn_adjacent f t : In (f, t) (SpecIsland.all_conns inet) -> Island.ib_ground f = false -> Island.ib_ground t = false ->
  exists i j, f = ibus_of x (Some i) /\ t = ibus_of x (Some j) /\ adjacent x nw i j.
Proof.
  intros H G1 G2. unfold SpecIsland.all_conns in H. rewrite in_app_iff in H. destruct H as [H|H].
  - apply in_flat_map in H as (e & He & Hc). destruct (an_elem e He) as (e0 & H0 & Q). rewrite Q in Hc. apply in_map_iff in Hc as ([f0 t0] & Q' & Hc). injection Q' as <- <-.
    apply (conns_joins e0 f0 t0 H0) in Hc. destruct f0 as [i|]; [|discriminate]. destruct t0 as [j|]; [|discriminate]. exists i, j. repeat split. exists e0. split; [exact Hc|]. left. exact (proj2 (elem_listed _ H0)).
  - apply in_map_iff in H as (d & Q & H). injection Q as <- <-. apply filter_In in H as [H L]. destruct (a_device d H) as (e & f & t & He & J & F & T & A). rewrite F in G1 |- *. rewrite T in G2 |- *.
    destruct f as [i|]; [|discriminate]. destruct t as [j|]; [|discriminate]. exists i, j. repeat split. exists e. auto.
Qed.
Lemma joined_beside u v : SpecIsland.joined inet u v <-> beside x nw u v.
Proof.
  split.
  - intros (f & t & H & G1 & G2 & Q). destruct (conn_adjacent f t H G1 G2) as (i & j & -> & -> & A). cbn in Q. destruct Q as [[<- <-]|[<- <-]]; [exists i, j|exists j, i]; auto.
  - intros (i & j & [A|A] & <- & <-); apply adjacent_conn in A; [exists (ibus_of x (Some i)), (ibus_of x (Some j))|exists (ibus_of x (Some j)), (ibus_of x (Some i))]; repeat split; auto.
Qed.
Lemma path_map (R S : nat -> nat -> Prop) u v : (forall a b, R a b -> S a b) -> path R u v -> path S u v.
Proof. intros I. induction 1; [constructor|econstructor; eauto]. Qed.
Lemma path_reached s k : path (SpecIsland.joined inet) (gb_name (dx_place n s)) (gb_name (dx_place n k)) <-> reached n nw s k.
Proof. split; apply path_map; intros a b; apply joined_beside. Qed.
Lemma inside_reached s r : SpecIsland.inside inet (gb_name (dx_place n s)) (ibus_of x r) <-> exists k, r = Some k /\ reached n nw s k.
Proof.
  unfold SpecIsland.inside. destruct r as [k|]; cbn.
  - change (gb_name (of_bus x k)) with (gb_name (dx_place n k)). rewrite path_reached. split; [intros [_ H]; eauto|]. intros (k' & Q & H). injection Q as ->. auto.
  - split; [intros [Q _]; discriminate|]. intros (k & Q & _). discriminate.
Qed.

(** *** what is left *)
Lemma left_id {A} (mk : nat * A -> Island.idev) (l : list A) e k after (Q : Island.idev -> Prop) : (forall y, Island.iv_id (mk y) = fst y) -> nth_error l k = Some e ->
  SpecIsland.leaves Q (map mk (number 0 l)) after -> (In k (map Island.iv_id after) <-> Q (mk (k, e))).
Proof.
  intros I H L. split.
  - intros Hk. apply in_map_iff in Hk as (d & Hd & Hi). apply L in Hi as [Hi HQ]. apply in_map_iff in Hi as ([k' e'] & <- & Hi). rewrite I in Hd. cbn in Hd. subst k'. apply number_mem in Hi. cbn in Hi. congruence.
  - intros HQ. apply in_map_iff. exists (mk (k, e)). split; [apply I|]. apply L. split; [|exact HQ]. apply in_map. now apply mem_number.
Qed.
Lemma idev_id y : Island.iv_id (idev_of x y) = fst y.
Proof. destruct y as [k e]. destruct e; reflexivity. Qed.
Theorem selected s : outer n s -> exists r, Island.select_island (gb_name (dx_place n s)) inet = Some r /\
  (forall k, outer n k -> (bus_left r k <-> reached n nw s k)) /\
  (forall k sl, nth_error (nt_slack n) k = Some sl -> (source_left r k <-> reached n nw s (sk_bus sl))) /\
  (forall k l, nth_error (nt_loads n) k = Some l -> (load_left r k <-> exists i j, tl_from l = Some i /\ tl_to l = Some j /\ reached n nw s i /\ reached n nw s j)) /\
  (forall k f, nth_error (nt_fuses n) k = Some f -> (fuse_left r k <-> reached n nw s (tf_from f) /\ reached n nw s (tf_to f))) /\
  (forall k e, nth_error (nw_lines nw) k = Some e -> (line_left r k <->
     forall i j, joins e (Some i) (Some j) -> gb_name (dx_place n i) <> gb_name (dx_place n j) -> reached n nw s i /\ reached n nw s j)) /\
  Island.in_caps r = [].
Proof.
  pose proof (dx_fields _ _ _ EN) as (_ & T & _ & X & SL & SW & GE & LO & MI & _ & _ & RE & FU & CA & _).
  intros O. assert (SpecIsland.proper inet (ibus_of x (Some s))) as PS by (apply proper_of; [exact (outer_lt _ O)|apply real_outer; [exact (outer_lt _ O)|exact O]]).
  destruct (IslandProofs.select_spec inet net_wf (gb_name (dx_place n s))) as (r & ES & I); [exists (ibus_of x (Some s)); auto|]. exists r. split; [exact ES|].
  destruct I as [I1 I2 _ I3 _ _ I4 _ I5 I6 _ I7]. split; [|split; [|split; [|split; [|split]]]].
  - intros k Ok. pose proof (outer_lt _ Ok) as Lk. assert (SpecIsland.proper inet (ibus_of x (Some k))) as PK by (apply proper_of; [exact Lk|apply real_outer; auto]).
    rewrite <- path_reached. change (gb_name (dx_place n k)) with (Island.ib_name (ibus_of x (Some k))). rewrite <- (I2 _ PK). unfold bus_left. split; intros H.
    + apply in_map_iff in H as (b & Hb & Hi). pose proof (I1 _ Hi) as H1. apply in_map_iff in H1 as (c & <- & _). cbn in Hb. rewrite <- Hb. exact Hi.
    + apply in_map_iff. exists (ibus_of x (Some k)). split; [reflexivity|exact H].
  - intros k sl H. assert (nth_error (nw_slack nw) k = Some (dx_slack sl)) as H' by (rewrite SL; now apply map_nth_error). unfold source_left. split.
    + intros Hk. apply in_map_iff in Hk as (d & Hd & Hi). apply I4 in Hi as [Hi HQ]. apply in_map_iff in Hi as ([k' e'] & <- & Hi). cbn in Hd. subst k'. apply number_mem in Hi. cbn in Hi. rewrite H' in Hi. injection Hi as <-.
      cbn [Island.is_bus snd] in HQ. apply inside_reached in HQ as (k0 & Q & HQ). injection Q as <-. exact HQ.
    + intros HQ. apply in_map_iff. exists {| Island.is_id := k; Island.is_bus := ibus_of x (Some (sk_bus sl)) |}. split; [reflexivity|]. apply I4. split; [|apply inside_reached; eauto].
      apply in_map_iff. exists (k, dx_slack sl). split; [reflexivity|]. now apply mem_number.
  - intros k l H. assert (nth_error (nw_loads nw) k = Some (dx_load l)) as H' by (rewrite LO; now apply map_nth_error).
    unfold load_left. rewrite (left_id _ _ _ _ _ _ idev_id H' I5). unfold SpecIsland.dev_inside. cbn [idev_of snd dx_load Island.iv_from Island.iv_to]. rewrite !inside_reached.
    split; [intros [(i & Hi & Ri) (j & Hj & Rj)]; exists i, j; auto|]. intros (i & j & Hi & Hj & Ri & Rj). split; [exists i|exists j]; auto.
  - intros k f H. assert (nth_error (nw_fuses nw) k = Some (dx_fuse f)) as H' by (rewrite FU; now apply map_nth_error).
    unfold fuse_left. rewrite (left_id _ _ _ _ _ _ idev_id H' I6). unfold SpecIsland.dev_inside. cbn [idev_of snd dx_fuse Island.iv_from Island.iv_to]. rewrite !inside_reached.
    split; [intros [(i & Hi & Ri) (j & Hj & Rj)]; injection Hi as <-; injection Hj as <-; auto|]. intros [Ri Rj]. split; [exists (tf_from f)|exists (tf_to f)]; auto.
  - intros k e H. assert (In e (nw_lines nw ++ nw_transformers nw ++ nw_switches nw)) as HE by (apply in_or_app; left; exact (nth_error_In _ _ H)).
    assert (SpecIsland.elem_inside inet (gb_name (dx_place n s)) (ielem_of x (k, e)) <->
      forall i j, joins e (Some i) (Some j) -> gb_name (dx_place n i) <> gb_name (dx_place n j) -> reached n nw s i /\ reached n nw s j) as W.
    { unfold SpecIsland.elem_inside. cbn [ielem_of Island.ie_conns snd]. split.
      - intros Q i j J N. destruct (Q (ibus_of x (Some i)) (ibus_of x (Some j))) as [Qi Qj]; try reflexivity; [|exact N|].
        + apply in_map_iff. exists (Some i, Some j). split; [reflexivity|]. now apply conns_joins.
        + apply inside_reached in Qi as (i' & Q1 & Qi). apply inside_reached in Qj as (j' & Q2 & Qj). injection Q1 as <-. injection Q2 as <-. auto.
      - intros Q f t Hc G1 G2 N. apply in_map_iff in Hc as ([f0 t0] & Q' & Hc). injection Q' as <- <-. apply (conns_joins _ _ _ HE) in Hc. cbn [fst snd] in *.
        destruct f0 as [i|]; [|discriminate]. destruct t0 as [j|]; [|discriminate]. destruct (Q i j Hc N). split; apply inside_reached; eauto. }
    rewrite <- W. unfold line_left. split.
    + intros Hk. apply in_map_iff in Hk as (d & Hd & Hi). apply I3 in Hi as [Hi HQ]. apply in_map_iff in Hi as ([k' e'] & <- & Hi). cbn in Hd. subst k'. apply number_mem in Hi. cbn in Hi. rewrite H in Hi. injection Hi as <-. exact HQ.
    + intros HQ. apply in_map_iff. exists (ielem_of x (k, e)). split; [reflexivity|]. apply I3. split; [|exact HQ]. apply in_map. now apply mem_number.
  - destruct (Island.in_caps r) as [|d ds] eqn:Q; [reflexivity|exfalso]. assert (In d (d :: ds)) as H by now left. apply I7 in H as [H [_ [H2 _]]].
    unfold inet, island_net in H; cbn [Island.in_caps] in H. apply in_map_iff in H as ([k e] & <- & H). apply number_mem in H; cbn [fst snd] in H. apply nth_error_In in H. rewrite CA in H. apply in_map_iff in H as (c & <- & _). discriminate.
Qed.
Theorem unknown_place u : (forall k, outer n k -> gb_name (dx_place n k) <> u) -> Island.select_island u inet = None.
Proof.
  intros H. apply (IslandProofs.select_unknown _ _ net_wf). intros b [Hb V]. apply in_map_iff in Hb as (c & <- & Hc). cbn.
  assert (bus_id c < length (nt_buses n))%nat as L by (apply bus_in; now apply in_map). apply H. now apply real_outer.
Qed.
Theorem no_loads s r : outer n s -> (forall l pl, In (MLoad l) ms -> In pl (do_loads l) -> exists a, dp_phase pl = Some (String a EmptyString)) ->
  Island.select_island (gb_name (dx_place n s)) inet = Some r -> Island.in_loads r = [].
Proof.
  pose proof (dx_fields _ _ _ EN) as (_ & _ & _ & _ & _ & _ & _ & LO & _).
  intros O H ES. destruct (Island.in_loads r) as [|d ds] eqn:Q; [reflexivity|exfalso].
  destruct (IslandProofs.select_spec inet net_wf (gb_name (dx_place n s))) as (r' & ES' & I).
  { exists (ibus_of x (Some s)). split; [|reflexivity]. apply proper_of; [exact (outer_lt _ O)|apply real_outer; [exact (outer_lt _ O)|exact O]]. }
  rewrite ES in ES'. injection ES' as <-.
  assert (In d (Island.in_loads r)) as Hd by (rewrite Q; now left). apply (SpecIsland.isl_loads _ _ _ I) in Hd as [Hd [_ [G _]]].
  unfold inet, island_net in Hd; cbn [Island.in_loads] in Hd. apply in_map_iff in Hd as ([k e] & <- & Hd). apply number_mem in Hd; cbn [fst snd] in Hd. apply nth_error_In in Hd. rewrite LO in Hd. apply in_map_iff in Hd as (l & <- & Hl).
  destruct (Forall2_in_l _ _ _ _ _ _ (p_loads _ _ _ _ K E) Hl) as ([dl pl] & Hi & M). cbn [fst snd] in M.
  apply in_flat_map in Hi as (m & Hm & Hi). destruct m as [| | | | |l0| |]; try destruct Hi. cbn in Hi. apply in_map_iff in Hi as (pl' & Q' & Hp). injection Q' as -> ->.
  destruct (H _ _ Hm Hp) as [a Ha]. destruct M as (_ & _ & _ & _ & _ & M1 & _ & M). rewrite Ha in M1. injection M1 as M1. rewrite <- M1 in M. destruct M as [_ M]. cbn in G. rewrite M in G. discriminate.
Qed.
End Net.
