(** Lemmas for C48. *)
From Coq Require Import List Bool Arith ZArith Reals Lia.
From Verif Require Import Graph SpecGraph GraphProofs Island SpecIsland.
Import ListNotations.

(** *** components do not overlap *)
Lemma nodup_app {A} (a b : list A) : NoDup a -> NoDup b -> (forall x, In x a -> ~ In x b) -> NoDup (a ++ b).
Proof.
  intros H1 H2 D. induction H1 as [|x s Hx Hs IH]; cbn; auto. constructor.
  - rewrite in_app_iff; intros [H|H]; [auto|apply (D x); [left|]; auto].
  - apply IH. intros y Hy; apply D; right; auto.
Qed.
Lemma nodup_split {A} (a b : list A) : NoDup (a ++ b) -> NoDup a /\ NoDup b /\ forall x, In x a -> ~ In x b.
Proof.
  induction a as [|x a IH]; cbn; intros H; [split; [constructor|split; auto; intros y []]|]. inversion H; subst. destruct (IH H3) as [I1 [I2 I3]].
  split; [constructor; auto; intros X; apply H2, in_app_iff; auto|]. split; auto. intros y [<-|Hy] X; [apply H2, in_app_iff; auto|apply (I3 y); auto].
Qed.
Section Comp.
Variable nodes : list nat.
Variable es : list (nat * nat).
Hypothesis ends : forall u v, adj es u v -> In u nodes /\ In v nodes.
Lemma components_nodup todo : forall seen, incl todo nodes -> (forall u v, In u seen -> path (adj es) u v -> In v seen) ->
  NoDup (concat (components_from nodes es todo seen)) /\ forall x, In x (concat (components_from nodes es todo seen)) -> ~ In x seen.
Proof.
  induction todo as [|n todo IH]; intros seen Hin Hcl; cbn [components_from].
  - split; [constructor|intros x []].
  - destruct (mem n seen) eqn:E; [apply IH; auto; intros x Hx; apply Hin; right; auto|].
    assert (In n nodes) as Hn by (apply Hin; left; auto).
    destruct (component_spec nodes es ends n Hn) as [ND HC]. set (c := component nodes es n) in *.
    destruct (IH (seen ++ c)) as [I1 I2].
    + intros x Hx; apply Hin; right; auto.
    + intros u v Hu P. apply in_app_iff in Hu as [Hu|Hu]; apply in_app_iff; [left; eapply Hcl; eauto|right].
      apply HC. apply HC in Hu. eapply path_trans; eauto.
    + cbn [concat]. split.
      * apply nodup_app; auto. intros x Hx Hx'. apply (I2 x Hx'). apply in_app_iff; auto.
      * intros x Hx Hs. apply in_app_iff in Hx as [Hx|Hx]; [|apply (I2 x Hx), in_app_iff; auto].
        apply mem_out in E. apply E. apply HC in Hx. apply (Hcl x n Hs). apply path_sym; auto. intros u v; apply adj_sym.
Qed.
End Comp.

(** *** removing buses *)
Definition grounded_free (bs : list ibus) : Prop := forall b, In b bs -> ib_ground b = false.
Lemma remove_bus_some num bs : grounded_free bs -> NoDup (map ib_num bs) -> In num (map ib_num bs) ->
  remove_bus num bs = Some (filter (fun b => negb (Nat.eqb (ib_num b) num)) bs).
Proof.
  induction bs as [|b bs IH]; intros G ND H; [destruct H|]. cbn [remove_bus filter map] in *. rewrite (G b) by (left; auto). cbn [negb andb].
  inversion ND as [|x y N1 N2]; subst. destruct (Nat.eqb_spec (ib_num b) num) as [E|E]; cbn [negb].
  - f_equal. subst num. clear - N1. induction bs as [|c bs IH]; auto. cbn [filter map In] in *. destruct (Nat.eqb_spec (ib_num c) (ib_num b)); [tauto|].
    cbn [negb]. rewrite <- IH; tauto.
  - rewrite IH; auto; [intros c Hc; apply G; right; auto|]. destruct H; [contradiction|auto].
Qed.
Lemma remove_bus_none num bs : grounded_free bs -> ~ In num (map ib_num bs) -> remove_bus num bs = None.
Proof.
  induction bs as [|b bs IH]; intros G H; auto. cbn [remove_bus map In] in *. rewrite (G b) by (left; auto). cbn [negb andb].
  destruct (Nat.eqb_spec (ib_num b) num); [tauto|]. rewrite IH; auto. intros c Hc; apply G; right; auto.
Qed.
Lemma filter_all {A} (p : A -> bool) l : (forall x, In x l -> p x = true) -> filter p l = l.
Proof. induction l as [|x l IH]; intros H; auto. cbn. rewrite (H x) by (left; auto). f_equal; apply IH; intros; apply H; right; auto. Qed.
Lemma try_remove_filter bs b : grounded_free bs -> NoDup (map ib_num bs) -> try_remove bs b = filter (fun c => negb (Nat.eqb (ib_num c) (ib_num b))) bs.
Proof.
  intros G ND; unfold try_remove. destruct (in_dec Nat.eq_dec (ib_num b) (map ib_num bs)) as [H|H].
  - rewrite remove_bus_some; auto.
  - rewrite remove_bus_none; auto. symmetry; apply filter_all. intros c Hc. destruct (Nat.eqb_spec (ib_num c) (ib_num b)) as [E|E]; auto.
    exfalso; apply H; rewrite <- E; apply in_map; auto.
Qed.
Lemma filter_free p bs : grounded_free bs -> grounded_free (filter p bs).
Proof. intros G b H; apply filter_In in H as [H _]; auto. Qed.
Lemma filter_nums (p : ibus -> bool) bs : NoDup (map ib_num bs) -> NoDup (map ib_num (filter p bs)).
Proof.
  induction bs as [|b bs IH]; intros H; auto. cbn [map filter] in *. inversion H; subst. destruct (p b); auto. cbn [map]. constructor; auto.
  intros X; apply in_map_iff in X as [c [E Hc]]. apply filter_In in Hc as [Hc _]. apply H2. rewrite <- E. apply in_map; auto.
Qed.
Definition neither (l : list ibus) (b : ibus) : bool := negb (existsb (fun c => Nat.eqb (ib_num b) (ib_num c)) l).
Lemma fold_try l : forall bs, grounded_free bs -> NoDup (map ib_num bs) -> fold_left try_remove l bs = filter (neither l) bs.
Proof.
  induction l as [|c l IH]; intros bs G ND; cbn [fold_left].
  - symmetry; apply filter_all; auto.
  - rewrite try_remove_filter, IH; auto using filter_free, filter_nums. clear. induction bs as [|b bs IH]; auto. cbn [filter].
    unfold neither at 2; cbn [existsb]. destruct (Nat.eqb (ib_num b) (ib_num c)); cbn [negb orb]; auto. cbn [filter]. rewrite IH. reflexivity.
Qed.
Definition not_phase (gs : list gbus) (b : ibus) : bool := negb (existsb (fun g => Nat.eqb (ib_num b) (gb_phase g)) gs).
Lemma remove_all_some gs : forall bs, grounded_free bs -> NoDup (map ib_num bs) -> NoDup (map gb_phase gs) -> incl (map gb_phase gs) (map ib_num bs) ->
  remove_all gs bs = Some (filter (not_phase gs) bs).
Proof.
  induction gs as [|g gs IH]; intros bs G ND NG H; cbn [remove_all].
  - f_equal; symmetry; apply filter_all; auto.
  - cbn [map] in *. inversion NG; subst. rewrite remove_bus_some; auto; [|apply H; left; auto].
    rewrite IH; auto using filter_free, filter_nums.
    + f_equal. clear. induction bs as [|b bs IH]; auto. cbn [filter]. unfold not_phase at 2; cbn [existsb].
      destruct (Nat.eqb (ib_num b) (gb_phase g)); cbn [negb orb]; auto. cbn [filter]. rewrite IH. reflexivity.
    + intros x Hx. assert (In x (map ib_num bs)) as Hb by (apply H; right; auto). apply in_map_iff in Hb as [b [E Hb]]. apply in_map_iff. exists b; split; auto.
      apply filter_In; split; auto. destruct (Nat.eqb_spec (ib_num b) (gb_phase g)) as [E'|]; auto. congruence.
Qed.

(** *** the graph of a well formed network *)
Section Net.
Variable nw : inet.
Hypothesis WF : wf nw.
Let g := build (graph_of nw).

Lemma num_inj b c : In b (in_buses nw) -> In c (in_buses nw) -> ib_num b = ib_num c -> b = c.
Proof.
  pose proof (wf_nums nw WF) as ND. revert ND. induction (in_buses nw) as [|a l IH]; [intros _ []|]. cbn [map]. intros ND. inversion ND; subst.
  intros [<-|Hb] [<-|Hc] E; auto; exfalso; apply H1; [rewrite E|rewrite <- E]; apply in_map; auto.
Qed.
Lemma conns_in k f t e : In e (gn_elements (graph_of nw)) -> ge_kind e = k -> k <> KLoad -> In (f, t) (ge_conns e) ->
  exists a b, In (a, b) (all_conns nw) /\ f = gbus_of a /\ t = gbus_of b.
Proof.
  intros He <- Hk Hc. cbn [graph_of gn_elements] in He. rewrite !in_app_iff, !in_map_iff in He.
  assert (forall l, In (f, t) (gconns l) -> exists a b, In (a, b) l /\ f = gbus_of a /\ t = gbus_of b) as HG.
  { intros l H. apply in_map_iff in H as [[a b] [E H]]; cbn [fst snd] in E; injection E as <- <-. eauto. }
  unfold all_conns.
  assert (forall k x, In x (in_lines nw ++ in_xfs nw ++ in_switches nw) -> gelem_of k x = e -> exists a b, In (a, b) (all_conns nw) /\ f = gbus_of a /\ t = gbus_of b) as H1.
  { intros k x Hx <-. cbn [gelem_of ge_conns] in Hc. destruct (HG _ Hc) as [a [b [Hab HH]]]. exists a, b; split; auto.
    apply in_app_iff; left; apply in_flat_map; eauto. }
  assert (forall k x, In x (in_regs nw ++ in_fuses nw ++ in_caps nw) -> gdev_of k x = e -> exists a b, In (a, b) (all_conns nw) /\ f = gbus_of a /\ t = gbus_of b) as H2.
  { intros k x Hx <-. cbn [gdev_of ge_conns] in Hc. destruct (HG _ Hc) as [a [b [Hab HH]]]. unfold dev_conns in Hab. destruct (iv_live x) eqn:L; [|destruct Hab].
    destruct Hab as [E|[]]. injection E as <- <-. exists (iv_from x), (iv_to x); split; auto.
    apply in_app_iff; right. apply in_map_iff; exists x; split; auto. apply filter_In; auto. }
  destruct He as [[x [E H]]|[[x [E H]]|[[x [E H]]|[[x [E H]]|[[x [E H]]|[[x [E H]]|[x [E H]]]]]]]];
    try (eapply H1; [|exact E]; rewrite !in_app_iff; tauto); try (eapply H2; [|exact E]; rewrite !in_app_iff; tauto).
  subst e. exfalso; apply Hk; reflexivity.
Qed.
Lemma conns_out a b : In (a, b) (all_conns nw) -> exists e, In e (gn_elements (graph_of nw)) /\ ge_kind e <> KLoad /\ In (gbus_of a, gbus_of b) (ge_conns e).
Proof.
  intros H. apply in_app_iff in H as [H|H].
  - apply in_flat_map in H as [x [Hx H]]. assert (In (gbus_of a, gbus_of b) (gconns (ie_conns x))) as HC by (apply in_map_iff; exists (a, b); auto).
    rewrite !in_app_iff in Hx. cbn [graph_of gn_elements].
    destruct Hx as [Hx|[Hx|Hx]]; [exists (gelem_of KOther x)|exists (gelem_of KTransformer x)|exists (gelem_of KOther x)];
      (split; [rewrite !in_app_iff|split; [discriminate|exact HC]]); pose proof (in_map (gelem_of KOther) _ _ Hx); pose proof (in_map (gelem_of KTransformer) _ _ Hx); tauto.
  - apply in_map_iff in H as [x [E H]]. injection E as <- <-. apply filter_In in H as [Hx L].
    assert (In (gbus_of (iv_from x), gbus_of (iv_to x)) (gconns (dev_conns x))) as HC by (unfold dev_conns; rewrite L; left; auto).
    rewrite !in_app_iff in Hx. cbn [graph_of gn_elements].
    destruct Hx as [Hx|[Hx|Hx]]; [exists (gdev_of KTransformer x)|exists (gdev_of KOther x)|exists (gdev_of KOther x)];
      (split; [rewrite !in_app_iff|split; [discriminate|exact HC]]); pose proof (in_map (gdev_of KOther) _ _ Hx); pose proof (in_map (gdev_of KTransformer) _ _ Hx); tauto.
Qed.
Lemma place_of n : place (graph_of nw) n <-> exists b, proper nw b /\ ib_name b = n.
Proof.
  unfold place, proper. cbn [graph_of gn_buses]. split.
  - intros [x [H [V E]]]. apply in_map_iff in H as [b [<- Hb]]. exists b; auto.
  - intros [b [[H V] E]]. exists (gbus_of b); repeat split; auto. apply in_map; auto.
Qed.
Lemma graph_ends_ok : ends_ok (graph_of nw).
Proof.
  intros e f t He Hk Hc. destruct (conns_in _ f t e He eq_refl Hk Hc) as [a [b [H [-> ->]]]].
  destruct (wf_conns nw WF a b H) as [Ha Hb]. rewrite !place_of. cbn [gbus_of gb_ground gb_name].
  split; [destruct Ha as [Ha|Ha]|destruct Hb as [Hb|Hb]]; auto; right; eexists; split; eauto.
Qed.
Lemma linked_joined u v : linked (graph_of nw) u v <-> joined nw u v.
Proof.
  split.
  - intros [e [f [t [He [Hk [Hc [Gf [Gt J]]]]]]]]. destruct (conns_in _ f t e He eq_refl Hk Hc) as [a [b [H [-> ->]]]]. exists a, b; auto.
  - intros [a [b [H [Ga [Gb J]]]]]. destruct (conns_out a b H) as [e [He [Hk Hc]]]. exists e, (gbus_of a), (gbus_of b); auto 10.
Qed.
Lemma path_joined u v : path (adj (edge_ends (g_edges g))) u v <-> path (joined nw) u v.
Proof.
  unfold g. rewrite (paths_agree _ graph_ends_ok). split; apply path_mono; intros a b H; apply path_one; apply linked_joined; auto.
Qed.
Lemma node_proper n : In n (node_names g) <-> exists b, proper nw b /\ ib_name b = n.
Proof. unfold g. destruct (build_spec _ graph_ends_ok) as [_ [HP _]]. rewrite HP. apply place_of. Qed.
Definition at_node (n : nat) (b : ibus) : bool := negb (ib_virtual b) && Nat.eqb (ib_name b) n.
Lemma bus_list_at n : bus_list g n = map gbus_of (filter (at_node n) (in_buses nw)).
Proof.
  unfold g. destruct (build_spec _ graph_ends_ok) as [_ [_ [HB _]]]. rewrite HB. cbn [graph_of gn_buses]. clear.
  induction (in_buses nw) as [|b l IH]; auto. cbn [map filter]. unfold wanted at 1, at_node at 1. cbn [gbus_of gb_virtual gb_name].
  destruct (negb (ib_virtual b) && Nat.eqb (ib_name b) n); cbn [map]; rewrite IH; reflexivity.
Qed.

(** *** the loop over the islands *)
(** buses gone once the nodes [L] are cleared *)
Definition gone (L : list nat) (b : ibus) : Prop :=
  (ib_virtual b = false /\ In (ib_name b) L) \/ exists n e, In n L /\ In e (in_xfs nw) /\ touches n e = true /\ In b (ie_inner e).
Definition untouched (L : list nat) (e : ielem) : Prop := forall n, In n L -> touches n e = false.
Record cleared (L : list nat) (st : inet) : Prop := {
  cl_nums : NoDup (map ib_num (in_buses st));
  cl_buses : leaves (fun b => ~ gone L b) (in_buses nw) (in_buses st);
  cl_lines : leaves (untouched L) (in_lines nw) (in_lines st);
  cl_xfs : leaves (untouched L) (in_xfs nw) (in_xfs st);
  cl_switches : leaves (untouched L) (in_switches nw) (in_switches st);
  cl_rest : in_slack st = in_slack nw /\ in_gens st = in_gens nw /\ in_loads st = in_loads nw /\ in_fuses st = in_fuses nw /\ in_regs st = in_regs nw /\ in_caps st = in_caps nw }.
Lemma cleared_nil : cleared [] nw.
Proof.
  constructor; auto; [exact (wf_nums nw WF)| | | | |repeat split]; intros x; (split; [intros H; split; [exact H|]|intros [H _]; exact H]).
  - intros [[_ []]|[n [e [[] _]]]].
  - intros n [].
  - intros n [].
  - intros n [].
Qed.
Lemma untouched_snoc L n before after : leaves (untouched L) before after -> leaves (untouched (L ++ [n])) before (filter (fun e => negb (touches n e)) after).
Proof.
  intros H e. rewrite filter_In, (H e), negb_true_iff. unfold untouched. split.
  - intros [[H1 H2] H3]. split; auto. intros m Hm. apply in_app_iff in Hm as [Hm|[<-|[]]]; auto.
  - intros [H1 H2]. split; [split; auto; intros m Hm|]; apply H2; apply in_app_iff; cbn; auto.
Qed.
Lemma clear_step L st n : cleared L st -> ~ In n L -> exists st', clear_node nw g (Some st) n = Some st' /\ cleared (L ++ [n]) st'.
Proof.
  intros C Hn. unfold clear_node.
  assert (grounded_free (in_buses st)) as G by (intros b Hb; apply (cl_buses L st C) in Hb as [Hb _]; apply (wf_ground nw WF); auto).
  cbn [clear_elements in_buses]. rewrite fold_try; auto using (cl_nums L st C). set (inner := flat_map ie_inner (filter (touches n) (in_xfs nw))).
  assert (forall b, In b inner <-> exists e, In e (in_xfs nw) /\ touches n e = true /\ In b (ie_inner e)) as HI.
  { intros b. unfold inner. rewrite in_flat_map. split; [intros [e [He Hb]]; apply filter_In in He as [He T]; eauto|intros [e [He [T Hb]]]; exists e; split; auto; apply filter_In; auto]. }
  assert (forall b, In b (in_buses nw) -> neither inner b = true <-> ~ In b inner) as HN.
  { intros b Hb. unfold neither. rewrite negb_true_iff. split.
    - intros E H. assert (existsb (fun c => Nat.eqb (ib_num b) (ib_num c)) inner = true) as X by (apply existsb_exists; exists b; split; auto; apply Nat.eqb_refl). congruence.
    - intros H. destruct (existsb _ inner) eqn:E; auto. apply existsb_exists in E as [c [Hc E]]. apply Nat.eqb_eq in E. exfalso; apply H.
      rewrite (num_inj b c); auto. apply HI in Hc as [e [He [_ Hc]]]. apply (wf_xf_inner nw WF e c); auto. }
  set (bs := filter (neither inner) (in_buses st)) in *.
  assert (forall b, In b bs -> In b (in_buses nw)) as Hsub by (intros b Hb; apply filter_In in Hb as [Hb _]; apply (cl_buses L st C) in Hb; tauto).
  assert (forall b, In b (in_buses nw) -> at_node n b = true -> In b bs) as Hat.
  { intros b Hb A. apply andb_true_iff in A as [A1 A2]. apply negb_true_iff in A1. apply Nat.eqb_eq in A2. apply filter_In; split.
    - apply (cl_buses L st C); split; auto. intros [[_ X]|[m [e [_ [He [_ X]]]]]]; [rewrite A2 in X; auto|]. apply (wf_xf_inner nw WF e b He) in X. destruct X; congruence.
    - apply HN; auto. intros X. apply HI in X as [e [He [_ X]]]. apply (wf_xf_inner nw WF e b He) in X. destruct X; congruence. }
  assert (map gb_phase (bus_list g n) = map ib_num (filter (at_node n) (in_buses nw))) as EP by (rewrite bus_list_at, map_map; reflexivity).
  rewrite remove_all_some.
  - eexists; split; [reflexivity|].
    assert (forall b, In b (in_buses nw) -> not_phase (bus_list g n) b = true <-> at_node n b = false) as HQ.
    { intros b Hb. unfold not_phase. rewrite negb_true_iff, bus_list_at. split.
      - intros E. destruct (at_node n b) eqn:A; auto. rewrite <- E. symmetry. apply existsb_exists. exists (gbus_of b). split; [apply in_map, filter_In; auto|apply Nat.eqb_refl].
      - intros E. destruct (existsb _ _) eqn:X; auto. apply existsb_exists in X as [y [Hy X]]. apply in_map_iff in Hy as [c [<- Hc]]. apply filter_In in Hc as [Hc A].
        apply Nat.eqb_eq in X. cbn [gbus_of gb_phase] in X. rewrite (num_inj b c) in E; auto. congruence. }
    constructor; cbn [with_buses clear_elements in_buses in_lines in_xfs in_switches in_slack in_gens in_loads in_fuses in_regs in_caps].
    + repeat apply filter_nums. apply (cl_nums L st C).
    + intros b. rewrite filter_In. unfold bs. rewrite filter_In, (cl_buses L st C b). split.
      * intros [[[H1 H2] H3] H4]. split; auto. apply HN in H3; auto. apply HQ in H4; auto. intros [[V X]|[m [e [Hm [He [T X]]]]]].
        -- apply in_app_iff in X as [X|[X|[]]]; [apply H2; left; auto|]. unfold at_node in H4. rewrite V, <- X, Nat.eqb_refl in H4; discriminate.
        -- apply in_app_iff in Hm as [Hm|[<-|[]]]; [apply H2; right; exists m, e; auto|]. apply H3, HI; eauto.
      * intros [H1 H2]. split; [split; [split; auto|]|].
        -- intros X. apply H2. destruct X as [[V X]|[m [e [Hm X]]]]; [left; split; auto; apply in_app_iff; auto|right; exists m, e; split; auto; apply in_app_iff; auto].
        -- apply HN; auto. intros X. apply H2. apply HI in X as [e [He [T X]]]. right; exists n, e; split; [apply in_app_iff; right; left; auto|auto].
        -- apply HQ; auto. destruct (at_node n b) eqn:A; auto. exfalso; apply H2. apply andb_true_iff in A as [A1 A2]. left. split; [apply negb_true_iff; auto|].
           apply Nat.eqb_eq in A2. apply in_app_iff; right; left; auto.
    + apply untouched_snoc, (cl_lines L st C).
    + apply untouched_snoc, (cl_xfs L st C).
    + apply untouched_snoc, (cl_switches L st C).
    + apply (cl_rest L st C).
  - apply filter_free; auto.
  - apply filter_nums, (cl_nums L st C).
  - rewrite EP. apply filter_nums, (wf_nums nw WF).
  - rewrite EP. intros x Hx. apply in_map_iff in Hx as [b [<- Hb]]. apply filter_In in Hb as [Hb A]. apply in_map; auto.
Qed.
Lemma clear_nodes ns : forall L st, cleared L st -> NoDup ns -> (forall n, In n ns -> ~ In n L) ->
  exists st', fold_left (clear_node nw g) ns (Some st) = Some st' /\ cleared (L ++ ns) st'.
Proof.
  induction ns as [|n ns IH]; intros L st C ND D; cbn [fold_left].
  - exists st; split; auto. now rewrite app_nil_r.
  - inversion ND; subst. destruct (clear_step L st n C) as [st' [E C']]; [apply D; left; auto|]. rewrite E.
    destruct (IH (L ++ [n]) st' C') as [st'' [E' C'']]; auto.
    + intros m Hm X. apply in_app_iff in X as [X|[<-|[]]]; auto. apply (D m); [right|]; auto.
    + exists st''; split; auto. rewrite <- app_assoc in C''; exact C''.
Qed.
Lemma clear_islands W cs : forall L st, cleared L st -> NoDup (concat cs) -> (forall n, In n (concat cs) -> ~ In n L) ->
  exists st', fold_left (clear_island nw g W) cs (Some st) = Some st' /\ cleared (L ++ concat (filter (fun c => negb (same_set c W)) cs)) st'.
Proof.
  induction cs as [|c cs IH]; intros L st C ND D; cbn [fold_left].
  - exists st; split; auto. cbn. now rewrite app_nil_r.
  - cbn [concat] in *. destruct (nodup_split _ _ ND) as [N1 [N2 N3]]. unfold clear_island at 2. cbn [filter].
    destruct (same_set c W); cbn [negb].
    + apply IH; auto. intros n Hn; apply D; apply in_app_iff; auto.
    + destruct (clear_nodes c L st C N1) as [st' [E C']]; [intros n Hn; apply D; apply in_app_iff; auto|]. rewrite E.
      destruct (IH (L ++ c) st' C' N2) as [st'' [E' C'']].
      * intros n Hn X. apply in_app_iff in X as [X|X]; [apply (D n); auto; apply in_app_iff; auto|].
        apply (N3 n X Hn).
      * exists st''; split; auto. cbn [concat]. rewrite app_assoc; exact C''.
Qed.
Lemma same_set_iff a b : same_set a b = true <-> forall x, In x a <-> In x b.
Proof.
  unfold same_set. rewrite andb_true_iff, !forallb_forall. split.
  - intros [H1 H2] x; split; intros H; apply mem_in; auto.
  - intros H; split; intros x Hx; apply mem_in; apply H; auto.
Qed.
Variable sw : nat.
Hypothesis SW : exists b, proper nw b /\ ib_name b = sw.
Lemma after_loop : exists st L, fold_left (clear_island nw g (component (node_names g) (edge_ends (g_edges g)) sw)) (islands g) (Some nw) = Some st /\ cleared L st /\
  (forall b, proper nw b -> In (ib_name b) L <-> ~ path (joined nw) sw (ib_name b)) /\ forall n, In n L -> exists b, proper nw b /\ ib_name b = n.
Proof.
  pose proof (ends_nodes _ graph_ends_ok) as EN. fold g in EN. set (W := component _ _ sw).
  assert (In sw (node_names g)) as Hsw by (apply node_proper; auto).
  destruct (component_spec _ _ EN sw Hsw) as [_ HW].
  destruct (components_nodup _ _ EN (node_names g) [] (incl_refl _)) as [ND _]; [intros u v []|].
  destruct (components_spec _ _ EN (node_names g) [] (incl_refl _)) as [CS1 CS2]; [intros u v []|].
  destruct (clear_islands W (islands g) [] nw cleared_nil ND) as [st [E C]]; [intros n _ []|].
  exists st, (concat (filter (fun c => negb (same_set c W)) (islands g))). split; [exact E|]. split; [exact C|]. split.
  2: { intros n Hn. apply in_concat in Hn as [c [Hc Hn]]. apply filter_In in Hc as [Hc _]. destruct (CS1 c Hc) as [m [Hm [_ ->]]].
       destruct (component_spec _ _ EN m Hm) as [_ HM]. apply HM in Hn. apply node_proper. destruct Hn as [|u v P A]; auto. apply EN in A; tauto. }
  intros b Hb. assert (In (ib_name b) (node_names g)) as Hn by (apply node_proper; eauto). rewrite in_concat. rewrite <- path_joined. split.
  - intros [c [Hc Hbc]] P. apply filter_In in Hc as [Hc S]. apply negb_true_iff in S.
    assert (same_set c W = true) as X; [|congruence]. apply same_set_iff. intros x. destruct (CS1 c Hc) as [m [Hm [_ ->]]].
    destruct (component_spec _ _ EN m Hm) as [_ HM]. apply HM in Hbc. rewrite HM. unfold W. rewrite HW.
    assert (path (adj (edge_ends (g_edges g))) sw m) as Pm by (eapply path_trans; [exact P|apply path_sym; auto; intros u v; apply adj_sym]).
    split; intros Q; [eapply path_trans; eauto|]. eapply path_trans; [apply path_sym; [intros u v; apply adj_sym|exact Pm]|exact Q].
  - intros NP. destruct (CS2 _ Hn) as [[]|[c [Hc Hbc]]]. exists c; split; auto. apply filter_In; split; auto. apply negb_true_iff.
    destruct (same_set c W) eqn:S; auto. exfalso; apply NP. apply HW. apply same_set_iff with (1 := S). auto.
Qed.

(** *** dropping what is detached *)
Lemma inside_dec b : proper nw b -> path (joined nw) sw (ib_name b) \/ ~ path (joined nw) sw (ib_name b).
Proof.
  intros Hb. destruct after_loop as [st [L [_ [_ [HL _]]]]]. destruct (in_dec Nat.eq_dec (ib_name b) L) as [H|H]; [right; apply HL; auto|left].
  (* membership in the component is decidable *)
  rewrite <- path_joined. pose proof (ends_nodes _ graph_ends_ok) as EN. fold g in EN.
  assert (In sw (node_names g)) as Hsw by (apply node_proper; auto). destruct (component_spec _ _ EN sw Hsw) as [_ HW].
  destruct (in_dec Nat.eq_dec (ib_name b) (component (node_names g) (edge_ends (g_edges g)) sw)) as [X|X]; [apply HW; auto|].
  exfalso; apply H; apply HL; auto. rewrite <- path_joined, <- HW; auto.
Qed.
(** buses of which all proper ones are inside *)
Definition island_buses (bs : list ibus) : Prop :=
  incl bs (in_buses nw) /\ NoDup (map ib_num bs) /\ forall b, proper nw b -> In b bs <-> path (joined nw) sw (ib_name b).
Lemma has_bus_in bs b : island_buses bs -> end_ok nw b -> has_bus bs b = true <-> inside nw sw b.
Proof.
  intros [I1 [I2 I3]] Hb. unfold has_bus, inside. rewrite existsb_exists. split.
  - intros [c [Hc S]]. unfold same_bus in S. assert (ib_ground c = false) as Gc by (apply (wf_ground nw WF); auto). rewrite Gc in S. rewrite orb_false_r in S.
    destruct (ib_ground b) eqn:Gb; [discriminate S|]. destruct Hb as [Hb|Hb]; [congruence|]. split; auto. apply Nat.eqb_eq in S.
    apply I3; auto. rewrite (num_inj b c); auto. apply Hb.
  - intros [Gb P]. destruct Hb as [Hb|Hb]; [congruence|]. exists b; split; [apply I3; auto|]. unfold same_bus. rewrite Gb; cbn. apply Nat.eqb_refl.
Qed.
Lemma attached_in bs d : island_buses bs -> end_ok nw (iv_from d) -> end_ok nw (iv_to d) -> attached bs d = true <-> dev_inside nw sw d.
Proof. intros I H1 H2. unfold attached, dev_inside. rewrite andb_true_iff, !has_bus_in; tauto. Qed.
Lemma neither_in l bs b : incl bs (in_buses nw) -> incl l (in_buses nw) -> In b (filter (neither l) bs) <-> In b bs /\ ~ In b l.
Proof.
  intros H1 H2. rewrite filter_In. unfold neither. rewrite negb_true_iff. split; intros [A B]; split; auto.
  - intros X. assert (existsb (fun c => Nat.eqb (ib_num b) (ib_num c)) l = true) by (apply existsb_exists; exists b; split; auto; apply Nat.eqb_refl). congruence.
  - destruct (existsb _ l) eqn:E; auto. apply existsb_exists in E as [c [Hc E]]. apply Nat.eqb_eq in E. exfalso; apply B. rewrite (num_inj b c); auto.
Qed.
Lemma island_free bs : island_buses bs -> grounded_free bs.
Proof. intros [I1 _] b Hb. apply (wf_ground nw WF); auto. Qed.
Lemma prune_spec ds : forall bs, island_buses bs ->
  (forall d, In d ds -> end_ok nw (iv_from d) /\ end_ok nw (iv_to d) /\ forall b, In b (iv_inner d) -> In b (in_buses nw) /\ ib_virtual b = true) ->
  island_buses (fst (prune bs ds)) /\ leaves (dev_inside nw sw) ds (snd (prune bs ds)) /\
  leaves (fun b => forall d, In d ds -> In b (iv_inner d) -> dev_inside nw sw d) bs (fst (prune bs ds)).
Proof.
  induction ds as [|d ds IH]; intros bs I H; cbn [prune].
  - cbn [fst snd]. split; auto. split; [intros x; split; [intros []|intros [[] _]]|]. intros b; split; [intros Hb; split; auto; intros d []|tauto].
  - destruct (H d (or_introl eq_refl)) as [E1 [E2 E3]]. destruct (attached bs d) eqn:A.
    + destruct (IH bs I) as [J1 [J2 J3]]; [intros x Hx; apply H; right; auto|]. destruct (prune bs ds) as [bs' ds'] eqn:E. cbn [fst snd] in *.
      pose proof (proj1 (attached_in bs d I E1 E2) A) as D. split; auto. split.
      * intros x. cbn [In]. rewrite (J2 x). split; [intros [<-|[X Y]]; auto|intros [[<-|X] Y]; auto].
      * intros b. rewrite (J3 b). split; intros [X Y]; split; auto. intros e [<-|He] Hb; [auto|apply Y; auto]. intros e He; apply Y; right; auto.
    + assert (~ dev_inside nw sw d) as D by (intros X; apply (attached_in bs d I E1 E2) in X; congruence).
      assert (incl (iv_inner d) (in_buses nw)) as HI by (intros b Hb; apply E3; auto).
      assert (island_buses (fold_left try_remove (iv_inner d) bs)) as I'.
      { rewrite fold_try; [|apply island_free; auto|apply I]. destruct I as [I1 [I2 I3]]. split; [|split].
        - intros b Hb. apply neither_in in Hb; auto. apply I1; tauto.
        - apply filter_nums; auto.
        - intros b Hb. rewrite neither_in, I3; auto. split; [tauto|]. intros P; split; auto. intros X. apply E3 in X. destruct X, Hb; congruence. }
      destruct (IH _ I') as [J1 [J2 J3]]; [intros x Hx; apply H; right; auto|].
      assert (forall b, In b (fold_left try_remove (iv_inner d) bs) <-> In b bs /\ ~ In b (iv_inner d)) as HF.
      { intros b. rewrite fold_try; [|apply island_free; auto|apply I]. apply neither_in; auto. apply I. }
      split; auto. split.
      * intros x. rewrite (J2 x). cbn [In]. split; [tauto|]. intros [[<-|X] Y]; tauto.
      * intros b. rewrite (J3 b), HF. split.
        -- intros [[X Z] Y]. split; auto. intros e [<-|He] Hb; [contradiction|eauto].
        -- intros [X Y]. split; [split; auto; intros Z; apply D; apply (Y d); [left|]; auto|]. intros e He; apply Y; right; auto.
Qed.
(** touching a node outside is the same as not being inside *)
Lemma untouched_inside L e : (forall b, proper nw b -> In (ib_name b) L <-> ~ path (joined nw) sw (ib_name b)) ->
  (forall n, In n L -> exists b, proper nw b /\ ib_name b = n) -> In e (in_lines nw ++ in_xfs nw ++ in_switches nw) ->
  untouched L e <-> elem_inside nw sw e.
Proof.
  intros HL HP He.
  assert (forall f t, In (f, t) (ie_conns e) -> In (f, t) (all_conns nw)) as HA by (intros f t H; apply in_app_iff; left; apply in_flat_map; eauto).
  split.
  - intros U f t Hc Gf Gt Hne. destruct (wf_conns nw WF f t (HA f t Hc)) as [[F|F] [T|T]]; try congruence.
    assert (forall b, (b = f \/ b = t) -> proper nw b -> inside nw sw b) as X.
    { intros b Hb Pb. split; [destruct Hb; subst; auto|]. destruct (inside_dec b Pb) as [|NP]; auto. apply HL in NP; auto. apply U in NP.
      exfalso. assert (touches (ib_name b) e = true) as X; [|congruence]. apply existsb_exists. exists (f, t). split; auto.
      rewrite Gf, Gt. apply Nat.eqb_neq in Hne. rewrite Hne. cbn. destruct Hb; subst; rewrite Nat.eqb_refl; auto using orb_true_r. }
    split; apply X; auto.
  - intros I n Hn. destruct (touches n e) eqn:T; auto. apply existsb_exists in T as [[f t] [Hc T]]. apply andb_true_iff in T as [T1 T2].
    apply negb_true_iff, orb_false_iff in T1 as [T1 T3]. apply orb_false_iff in T1 as [Gf Gt]. apply Nat.eqb_neq in T3.
    destruct (I f t Hc Gf Gt T3) as [If It]. destruct (HP n Hn) as [b [Pb <-]]. exfalso. apply (HL b Pb) in Hn. apply Hn.
    apply orb_true_iff in T2 as [T2|T2]; apply Nat.eqb_eq in T2; rewrite <- T2; [apply If|apply It].
Qed.
Lemma select_spec : exists r, select_island sw nw = Some r /\ is_island nw sw r.
Proof.
  unfold select_island. fold g. assert (has_node g sw = true) as -> by (apply has_node_in, node_proper; auto).
  destruct after_loop as [st [L [E [C [HL HP]]]]]. rewrite E. eexists; split; [reflexivity|].
  destruct (cl_rest L st C) as [R1 [R2 [R3 [R4 [R5 R6]]]]].
  assert (forall b, proper nw b -> ~ gone L b <-> path (joined nw) sw (ib_name b)) as HG.
  { intros b Hb. unfold gone. split.
    - intros H. destruct (inside_dec b Hb) as [|N]; auto. exfalso; apply H; left. split; [apply Hb|apply HL; auto].
    - intros P [[_ X]|[n [e [_ [He [_ X]]]]]]; [apply HL in X; auto|]. apply (wf_xf_inner nw WF e b He) in X. destruct X, Hb; congruence. }
  assert (island_buses (in_buses st)) as I.
  { split; [|split; [apply (cl_nums L st C)|]].
    - intros b Hb. apply (cl_buses L st C) in Hb. tauto.
    - intros b Hb. rewrite (cl_buses L st C b), HG; auto. split; [tauto|]. intros P; split; [apply Hb|auto]. }
  destruct (prune_spec (in_fuses st) (in_buses st) I) as [F1 [F2 F3]].
  { rewrite R4. intros d Hd. destruct (wf_devs nw WF d) as [X Y]; [rewrite !in_app_iff; tauto|]. split; auto. split; auto. intros b; apply (wf_dev_inner nw WF); rewrite in_app_iff; auto. }
  destruct (prune_spec (in_regs st) (fst (prune (in_buses st) (in_fuses st))) F1) as [G1 [G2 G3]].
  { rewrite R5. intros d Hd. destruct (wf_devs nw WF d) as [X Y]; [rewrite !in_app_iff; tauto|]. split; auto. split; auto. intros b; apply (wf_dev_inner nw WF); rewrite in_app_iff; auto. }
  assert (forall l, incl l (in_lines nw ++ in_xfs nw ++ in_switches nw) -> forall after, leaves (untouched L) l after -> leaves (elem_inside nw sw) l after) as HU.
  { intros l Hl after H e. rewrite (H e). split; intros [X Y]; split; auto; apply (untouched_inside L e HL HP); auto. }
  assert (forall l bs, incl l (in_loads nw ++ in_regs nw ++ in_fuses nw ++ in_caps nw) -> island_buses bs -> leaves (dev_inside nw sw) l (filter (attached bs) l)) as HD.
  { intros l bs Hl Ib d. rewrite filter_In. split; intros [X Y]; split; auto; (destruct (wf_devs nw WF d) as [P Q]; [apply Hl; auto|]); apply (attached_in bs d Ib P Q); auto. }
  assert (forall l, incl l (in_slack nw ++ in_gens nw) -> leaves (fun s => inside nw sw (is_bus s)) l (filter (fun s => has_bus (in_buses st) (is_bus s)) l)) as HS.
  { intros l Hl s. rewrite filter_In. split; intros [X Y]; split; auto; apply (has_bus_in (in_buses st)); auto; right; apply (wf_srcs nw WF); auto. }
  constructor; unfold drop_detached; cbn [in_buses in_lines in_xfs in_switches in_slack in_gens in_loads in_fuses in_regs in_caps].
  - apply G1.
  - apply G1.
  - intros b Hb V. rewrite (G3 b), (F3 b), R4, R5, (cl_buses L st C b). split.
    + intros [[[_ N] X] Y]. split.
      * intros e He Hin. apply (untouched_inside L e HL HP); [rewrite !in_app_iff; auto|]. intros n Hn. destruct (touches n e) eqn:T; auto. exfalso; apply N; right; exists n, e; auto.
      * intros d Hd. apply in_app_iff in Hd as [Hd|Hd]; auto.
    + intros [X Y]. split; [split; [split; auto|]|]; [|intros d Hd; apply Y, in_app_iff; auto..].
      intros [[V' _]|[n [e [Hn [He [T Hin]]]]]]; [congruence|]. specialize (X e He Hin). apply (untouched_inside L e HL HP) in X; [|rewrite !in_app_iff; auto]. rewrite (X n Hn) in T; discriminate.
  - apply HU; [intros x Hx; rewrite !in_app_iff; auto|apply (cl_lines L st C)].
  - apply HU; [intros x Hx; rewrite !in_app_iff; auto|apply (cl_xfs L st C)].
  - apply HU; [intros x Hx; rewrite !in_app_iff; auto|apply (cl_switches L st C)].
  - rewrite R1. apply HS. intros x Hx; rewrite in_app_iff; auto.
  - rewrite R2. apply HS. intros x Hx; rewrite in_app_iff; auto.
  - rewrite R3. apply HD; auto. intros x Hx; rewrite !in_app_iff; auto.
  - rewrite <- R4. apply F2.
  - rewrite <- R5. apply G2.
  - rewrite R6. apply HD; auto. intros x Hx; rewrite !in_app_iff; auto.
Qed.
End Net.
(** a name that is no place: an exception *)
Lemma select_unknown nw sw : wf nw -> (forall b, proper nw b -> ib_name b <> sw) -> select_island sw nw = None.
Proof.
  intros WF H. unfold select_island. destruct (has_node (build (graph_of nw)) sw) eqn:E; auto.
  apply has_node_in, node_proper in E as [b [Hb E]]; auto. exfalso; apply (H b); auto.
Qed.

(** ** Ground is never a bus of the network, whatever the network looks like *)
Lemma remove_bus_incl num bs : forall r, remove_bus num bs = Some r -> incl r bs.
Proof.
  induction bs as [|b bs IH]; intros r E; [discriminate|]. cbn [remove_bus] in E. destruct (negb (ib_ground b) && Nat.eqb (ib_num b) num).
  - injection E as <-. intros x Hx; right; auto.
  - destruct (remove_bus num bs) as [r'|]; [|discriminate]. injection E as <-. intros x [<-|Hx]; [left; auto|right; apply (IH r'); auto].
Qed.
Lemma fold_try_incl l : forall bs, incl (fold_left try_remove l bs) bs.
Proof.
  induction l as [|c l IH]; intros bs; cbn [fold_left]; [apply incl_refl|]. eapply incl_tran; [apply IH|]. unfold try_remove.
  destruct (remove_bus (ib_num c) bs) eqn:E; [eapply remove_bus_incl; eauto|apply incl_refl].
Qed.
Lemma remove_all_incl gs : forall bs r, remove_all gs bs = Some r -> incl r bs.
Proof.
  induction gs as [|x gs IH]; intros bs r E; cbn [remove_all] in E; [injection E as <-; apply incl_refl|].
  destruct (remove_bus (gb_phase x) bs) eqn:E'; [|discriminate]. eapply incl_tran; [eapply IH; eauto|eapply remove_bus_incl; eauto].
Qed.
Lemma prune_incl ds : forall bs, incl (fst (prune bs ds)) bs.
Proof.
  induction ds as [|d ds IH]; intros bs; cbn [prune]; [apply incl_refl|]. destruct (attached bs d).
  - specialize (IH bs). destruct (prune bs ds); exact IH.
  - eapply incl_tran; [apply IH|apply fold_try_incl].
Qed.
Definition shrunk (nw : inet) (o : option inet) : Prop := match o with None => True | Some st => incl (in_buses st) (in_buses nw) end.
Lemma clear_node_shrunk nw g st n : shrunk nw st -> shrunk nw (clear_node nw g st n).
Proof.
  destruct st as [st|]; auto. cbn [clear_node]. intros H. destruct (remove_all _ _) as [bs|] eqn:E; cbn; auto.
  eapply incl_tran; [eapply remove_all_incl; eauto|]. cbn [clear_elements in_buses]. eapply incl_tran; [apply fold_try_incl|exact H].
Qed.
Lemma clear_islands_shrunk nw g W cs : forall st, shrunk nw st -> shrunk nw (fold_left (clear_island nw g W) cs st).
Proof.
  induction cs as [|c cs IH]; intros st H; auto. cbn [fold_left]. apply IH. unfold clear_island. destruct (same_set c W); auto.
  clear IH. revert st H. induction c as [|n c IH]; intros st H; auto. cbn [fold_left]. apply IH, clear_node_shrunk; auto.
Qed.
Lemma ground_not_in bs b : (forall c, In c bs -> ib_ground c = false) -> ib_ground b = true -> has_bus bs b = false.
Proof.
  intros H G. unfold has_bus. destruct (existsb _ bs) eqn:E; auto. apply existsb_exists in E as [c [Hc E]]. unfold same_bus in E. rewrite G, (H c Hc) in E. discriminate.
Qed.
Lemma grounded_dropped nw sw r : (forall b, In b (in_buses nw) -> ib_ground b = false) -> select_island sw nw = Some r ->
  forall d, In d (in_loads r ++ in_caps r) -> ib_ground (iv_from d) = false /\ ib_ground (iv_to d) = false.
Proof.
  intros G E d Hd. unfold select_island in E. destruct (has_node _ sw); [|discriminate].
  pose proof (clear_islands_shrunk nw (build (graph_of nw)) (component (node_names (build (graph_of nw))) (edge_ends (g_edges (build (graph_of nw)))) sw) (islands (build (graph_of nw))) (Some nw) (incl_refl _)) as S.
  destruct (fold_left _ _ _) as [st|]; [|discriminate]. injection E as <-. cbn [shrunk] in S.
  assert (forall bs, incl bs (in_buses st) -> attached bs d = true -> ib_ground (iv_from d) = false /\ ib_ground (iv_to d) = false) as HA.
  { intros bs Hbs A. apply andb_true_iff in A as [A1 A2].
    assert (forall b, has_bus bs b = true -> ib_ground b = false) as X by (intros b Hb; destruct (ib_ground b) eqn:Y; auto; rewrite (ground_not_in bs) in Hb; auto). auto. }
  apply in_app_iff in Hd as [Hd|Hd]; unfold drop_detached in Hd; cbn [in_loads in_caps] in Hd; apply filter_In in Hd as [_ Hd]; eapply HA; eauto.
  - apply incl_refl.
  - eapply incl_tran; apply prune_incl.
Qed.
