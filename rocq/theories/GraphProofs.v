(** Lemmas for C45-C47. *)
From Coq Require Import List Bool Arith ZArith Reals Permutation Lia Lra.
From Verif Require Import Graph SpecGraph.
Import ListNotations.

Lemma mem_in n l : mem n l = true <-> In n l.
Proof. unfold mem; rewrite existsb_exists; split; [intros [x [H E]]; apply Nat.eqb_eq in E; now subst|exists n; rewrite Nat.eqb_refl; auto]. Qed.
Lemma mem_out n l : mem n l = false <-> ~ In n l.
Proof. rewrite <- mem_in. destruct (mem n l); split; intros; congruence. Qed.

(** *** paths *)
Section Paths.
Context {A : Type} (R : A -> A -> Prop).
Lemma path_trans u v w : path R u v -> path R v w -> path R u w.
Proof. intros H1 H2; induction H2; auto; econstructor; eauto. Qed.
Lemma path_one u v : R u v -> path R u v.
Proof. intros; econstructor; [constructor|auto]. Qed.
Lemma path_sym : (forall u v, R u v -> R v u) -> forall u v, path R u v -> path R v u.
Proof. intros S u v H; induction H; [constructor|]. apply path_trans with v; auto. apply path_one; auto. Qed.
End Paths.
Lemma path_mono {A} (R S : A -> A -> Prop) : (forall u v, R u v -> path S u v) -> forall u v, path R u v -> path S u v.
Proof. intros H u v P; induction P; [constructor|]. eapply path_trans; eauto. Qed.

(** *** search *)
Definition adj (es : list (nat * nat)) (u v : nat) : Prop := In (u, v) es \/ In (v, u) es.
Lemma adj_sym es u v : adj es u v -> adj es v u. Proof. unfold adj; tauto. Qed.
Lemma neighbours_in es u v : In v (neighbours es u) <-> adj es u v.
Proof.
  unfold neighbours, adj; rewrite in_flat_map; split.
  - intros [[a b] [H H']]; cbn [fst snd] in H'. apply in_app_iff in H'.
    destruct (Nat.eqb_spec a u), (Nat.eqb_spec b u); subst; cbn in H'; intuition; subst; auto.
  - intros [H|H]; [exists (u, v)|exists (v, u)]; split; auto; cbn [fst snd]; rewrite Nat.eqb_refl; apply in_app_iff; cbn; auto.
Qed.
Lemma fresh_in seen l v : In v (fresh seen l) <-> In v l /\ ~ In v seen.
Proof. unfold fresh; rewrite nodup_In, filter_In, negb_true_iff, mem_out; tauto. Qed.
Lemma fresh_nodup seen l : NoDup (fresh seen l). Proof. apply NoDup_nodup. Qed.
Lemma NoDup_app_fresh seen l : NoDup seen -> NoDup (seen ++ fresh seen l).
Proof.
  intros H. assert (forall x, In x seen -> ~ In x (fresh seen l)) as D by (intros x Hx Hf; apply fresh_in in Hf; tauto).
  pose proof (fresh_nodup seen l) as F. revert D F; generalize (fresh seen l) as m. induction H as [|x s Hx Hs IH]; intros m D F; cbn; auto.
  constructor; [|apply IH; auto; intros; apply D; right; auto]. rewrite in_app_iff; intros [H|H]; [auto|]. apply (D x); [left; auto|auto].
Qed.
Section Search.
Variables (nodes : list nat) (es : list (nat * nat)).
Hypothesis ends : forall u v, adj es u v -> In u nodes /\ In v nodes.
Lemma bfs_spec root fuel : forall seen level,
  NoDup seen -> incl seen nodes -> length nodes <= fuel + length seen -> incl level seen -> In root seen ->
  (forall v, In v seen -> path (adj es) root v) ->
  (forall u v, In u seen -> ~ In u level -> adj es u v -> In v seen) ->
  let r := bfs es fuel seen level in
  NoDup r /\ incl r nodes /\ In root r /\ (forall v, In v r -> path (adj es) root v) /\ (forall u v, In u r -> adj es u v -> In v r).
Proof.
  induction fuel as [|fuel IH]; intros seen level ND Hin Hl Hlev Hroot Hp Hc; cbn [bfs].
  - repeat split; auto. intros u v Hu Ha. apply (@NoDup_length_incl nat seen nodes ND); [cbn in Hl; lia|auto|apply (ends u v Ha)].
  - destruct (fresh seen (flat_map (neighbours es) level)) as [|x next] eqn:E.
    + repeat split; auto. intros u v Hu Ha. destruct (in_dec Nat.eq_dec u level) as [Hl'|Hl']; [|eapply Hc; eauto].
      destruct (in_dec Nat.eq_dec v seen) as [|Hn]; auto. exfalso.
      assert (In v (fresh seen (flat_map (neighbours es) level))) as HF by (apply fresh_in; split; auto; apply in_flat_map; exists u; split; auto; apply neighbours_in; auto).
      rewrite E in HF; destruct HF.
    + rewrite <- E. assert (forall v, In v (fresh seen (flat_map (neighbours es) level)) -> exists u, In u level /\ adj es u v) as HN.
      { intros v Hv; apply fresh_in in Hv as [Hv _]. apply in_flat_map in Hv as [u [Hu Hv]]. exists u; split; auto. apply neighbours_in; auto. }
      apply IH.
      * apply NoDup_app_fresh; auto.
      * intros v Hv; apply in_app_iff in Hv as [Hv|Hv]; auto. destruct (HN v Hv) as [u [_ Ha]]. apply (ends u v Ha).
      * rewrite E, app_length; cbn [length]; lia.
      * intros v Hv; apply in_app_iff; auto.
      * apply in_app_iff; auto.
      * intros v Hv; apply in_app_iff in Hv as [Hv|Hv]; auto. destruct (HN v Hv) as [u [Hu Ha]]. econstructor; [apply Hp; apply Hlev; exact Hu|auto].
      * intros u v Hu Hnl Ha. apply in_app_iff in Hu as [Hu|Hu]; [|contradiction].
        destruct (in_dec Nat.eq_dec u level) as [Hl'|Hl']; [|apply in_app_iff; left; eapply Hc; eauto].
        apply in_app_iff. destruct (in_dec Nat.eq_dec v seen) as [|Hn]; auto. right. apply fresh_in; split; auto.
        apply in_flat_map; exists u; split; auto. apply neighbours_in; auto.
Qed.
Lemma component_spec n : In n nodes -> NoDup (component nodes es n) /\ forall v, In v (component nodes es n) <-> path (adj es) n v.
Proof.
  intros Hn. destruct (bfs_spec n (length nodes) [n] [n]) as [H1 [H2 [H3 [H4 H5]]]]; auto.
  - constructor; [intros []|constructor].
  - intros x [<-|[]]; auto.
  - cbn; lia.
  - apply incl_refl.
  - left; auto.
  - intros v [<-|[]]; constructor.
  - intros u v Hu Hn' _; contradiction.
  - split; [exact H1|]. intros v; split; [apply H4|]. intros P; induction P; [exact H3|eapply H5; eauto].
Qed.
Lemma components_spec todo : forall seen, incl todo nodes -> (forall u v, In u seen -> path (adj es) u v -> In v seen) ->
  (forall c, In c (components_from nodes es todo seen) -> exists n, In n todo /\ ~ In n seen /\ c = component nodes es n) /\
  (forall n, In n todo -> In n seen \/ exists c, In c (components_from nodes es todo seen) /\ In n c).
Proof.
  induction todo as [|n todo IH]; intros seen Hin Hcl; cbn [components_from].
  - split; [intros c []|intros n []].
  - destruct (mem n seen) eqn:E.
    + destruct (IH seen) as [H1 H2]; [intros x Hx; apply Hin; right; auto|auto|]. split.
      * intros c Hc. destruct (H1 c Hc) as [m [Hm Hs]]. exists m; split; [right; auto|auto].
      * intros m [<-|Hm]; [left; apply mem_in; auto|auto].
    + assert (In n nodes) as Hn by (apply Hin; left; auto). destruct (component_spec n Hn) as [_ HC].
      destruct (IH (seen ++ component nodes es n)) as [H1 H2].
      * intros x Hx; apply Hin; right; auto.
      * intros u v Hu P. apply in_app_iff in Hu as [Hu|Hu]; apply in_app_iff; [left; eapply Hcl; eauto|right]. apply HC. apply HC in Hu. eapply path_trans; eauto.
      * split.
        -- intros c [<-|Hc]; [exists n; split; [left; auto|split; [apply mem_out; auto|auto]]|].
           destruct (H1 c Hc) as [m [Hm [Hs Hc']]]. exists m; split; [right; auto|split; auto]. intros Hs'; apply Hs; apply in_app_iff; auto.
        -- intros m [<-|Hm]; [right; exists (component nodes es n); split; [left; auto|apply HC; constructor]|].
           destruct (H2 m Hm) as [Hs|[c [Hc Hm']]]; [apply in_app_iff in Hs as [Hs|Hs]; auto; right; exists (component nodes es n); split; [left; auto|auto]|].
           right; exists c; split; [right; auto|auto].
Qed.
Lemma components_covered todo seen : incl todo seen -> components_from nodes es todo seen = [].
Proof.
  induction todo as [|n todo IH]; intros H; cbn [components_from]; auto.
  rewrite (proj2 (mem_in n seen)) by (apply H; left; auto). apply IH; intros x Hx; apply H; right; auto.
Qed.
(** nodes are in one component exactly when a path joins them *)
Lemma same_component u v : In u nodes -> (exists c, In c (components nodes es) /\ In u c /\ In v c) <-> path (adj es) u v.
Proof.
  intros Hu. destruct (components_spec nodes [] (incl_refl _)) as [H1 H2]; [intros a b []|]. split.
  - intros [c [Hc [Huc Hvc]]]. destruct (H1 c Hc) as [n [Hn [_ ->]]]. destruct (component_spec n Hn) as [_ HC].
    apply HC in Huc, Hvc. eapply path_trans; [apply path_sym; [apply adj_sym|exact Huc]|exact Hvc].
  - intros P. destruct (H2 u Hu) as [[]|[c [Hc Huc]]]. exists c; repeat split; auto.
    destruct (H1 c Hc) as [n [Hn [_ ->]]]. destruct (component_spec n Hn) as [_ HC]. apply HC. apply HC in Huc. eapply path_trans; eauto.
Qed.
Lemma one_component : length (components nodes es) = 1 <-> nodes <> [] /\ forall u v, In u nodes -> In v nodes -> path (adj es) u v.
Proof.
  split.
  - intros L. destruct (components nodes es) as [|c [|]] eqn:E; try discriminate. split.
    + intros ->; discriminate E.
    + intros u v Hu Hv. destruct (components_spec nodes [] (incl_refl _)) as [H1 H2]; [intros a b []|].
      unfold components in E; rewrite E in *.
      destruct (H2 u Hu) as [[]|[cu [[<-|[]] Hcu]]], (H2 v Hv) as [[]|[cv [[<-|[]] Hcv]]].
      destruct (H1 c (or_introl eq_refl)) as [n [Hn [_ ->]]]. destruct (component_spec n Hn) as [_ HC]. apply HC in Hcu, Hcv.
      eapply path_trans; [apply path_sym; [apply adj_sym|exact Hcu]|exact Hcv].
  - intros [Hne H]. destruct nodes as [|n rest] eqn:E; [contradiction|]. rewrite <- E in *. unfold components. rewrite E at 2. cbn [components_from mem existsb].
    rewrite components_covered; [reflexivity|]. intros v Hv. cbn [app]. assert (In n nodes) as Hn by (rewrite E; left; auto).
    destruct (component_spec n Hn) as [_ HC]. apply HC. apply H; auto. rewrite E; right; auto.
Qed.
End Search.

(** *** construction *)
Lemma has_node_in g n : has_node g n = true <-> In n (node_names g).
Proof.
  unfold has_node, node_names. rewrite existsb_exists, in_map_iff. split; intros [x [H E]]; exists x; split; auto; apply Nat.eqb_eq; auto.
Qed.
Lemma names_map_buses (f : nat * list gbus -> nat * list gbus) l : (forall x, fst (f x) = fst x) -> map fst (map f l) = map fst l.
Proof. intros H; rewrite map_map; apply map_ext; auto. Qed.
Definition find_list (l : list (nat * list gbus)) (n : nat) : list gbus := match find (fun x => Nat.eqb (fst x) n) l with Some x => snd x | None => [] end.
Lemma bus_list_find g n : bus_list g n = find_list (g_nodes g) n. Proof. reflexivity. Qed.
Lemma find_app l m n : In n (map fst l) -> find_list (l ++ m) n = find_list l n.
Proof.
  induction l as [|[k x] l IH]; [intros []|]; cbn [map fst app]; unfold find_list; cbn [find fst]. destruct (Nat.eqb_spec k n); auto. intros [->|H]; [contradiction|]. apply IH; auto.
Qed.
Lemma find_out l m n : ~ In n (map fst l) -> find_list (l ++ m) n = find_list m n.
Proof.
  induction l as [|[k x] l IH]; [auto|]; cbn [map fst app In]; unfold find_list; cbn [find fst]. destruct (Nat.eqb_spec k n); [tauto|]. intros H; apply IH; auto.
Qed.
Lemma find_none l n : ~ In n (map fst l) -> find_list l n = [].
Proof. intros H. rewrite <- (app_nil_r l). rewrite find_out; auto. Qed.
Lemma find_add l b n k : find_list (map (fun x => if Nat.eqb (fst x) k then (fst x, snd x ++ [b]) else x) l) n =
  if Nat.eqb n k then (if existsb (fun x => Nat.eqb (fst x) k) l then find_list l n ++ [b] else find_list l n) else find_list l n.
Proof.
  unfold find_list. induction l as [|[j x] l IH]; cbn [map find existsb fst snd]; [destruct (Nat.eqb n k); auto|].
  destruct (Nat.eqb_spec j k) as [->|Hjk]; cbn [fst snd].
  - destruct (Nat.eqb_spec k n) as [->|Hkn].
    + rewrite Nat.eqb_refl. reflexivity.
    + rewrite IH. destruct (Nat.eqb_spec n k); [congruence|reflexivity].
  - destruct (Nat.eqb_spec j n) as [->|Hjn].
    + destruct (Nat.eqb_spec n k); [contradiction|reflexivity].
    + rewrite IH. reflexivity.
Qed.
Definition wanted (n : nat) (b : gbus) : bool := negb (gb_virtual b) && Nat.eqb (gb_name b) n.
Lemma add_bus_nodup g b : NoDup (node_names g) -> NoDup (node_names (add_bus g b)).
Proof.
  intros H; unfold add_bus. destruct (gb_virtual b); auto. destruct (has_node g (gb_name b)) eqn:E.
  - unfold node_names in *; cbn [g_nodes]. rewrite names_map_buses; auto. intros x; destruct (Nat.eqb (fst x) (gb_name b)); auto.
  - unfold node_names in *; cbn [g_nodes]. rewrite map_app; cbn [map fst]. apply NoDup_Add with (gb_name b) (map fst (g_nodes g)).
    + rewrite <- (app_nil_r (map fst (g_nodes g))) at 1. apply Add_app.
    + split; auto. intros Hin. apply has_node_in in Hin. congruence.
Qed.
Lemma add_bus_lists g b n : bus_list (add_bus g b) n = bus_list g n ++ (if wanted n b then [b] else []).
Proof.
  unfold add_bus, wanted. destruct (gb_virtual b); cbn [negb andb]; [now rewrite app_nil_r|].
  destruct (has_node g (gb_name b)) eqn:E; rewrite !bus_list_find; cbn [g_nodes].
  - rewrite find_add. unfold has_node in E; rewrite E. rewrite (Nat.eqb_sym n). destruct (Nat.eqb (gb_name b) n); [reflexivity|now rewrite app_nil_r].
  - destruct (Nat.eqb_spec (gb_name b) n) as [<-|H].
    + assert (~ In (gb_name b) (map fst (g_nodes g))) as Hn by (intros Hin; apply has_node_in in Hin; congruence).
      rewrite find_out, (find_none _ _ Hn) by assumption. unfold find_list; cbn [find fst]. now rewrite Nat.eqb_refl.
    + rewrite app_nil_r. destruct (in_dec Nat.eq_dec n (map fst (g_nodes g))) as [Hin|Hn]; [apply find_app; auto|].
      rewrite find_out, (find_none _ _ Hn) by assumption. unfold find_list; cbn [find fst]. destruct (Nat.eqb_spec (gb_name b) n); [contradiction|auto].
Qed.
Lemma add_bus_names g b n : In n (node_names (add_bus g b)) <-> In n (node_names g) \/ (gb_virtual b = false /\ gb_name b = n).
Proof.
  unfold add_bus. destruct (gb_virtual b); [intuition congruence|]. destruct (has_node g (gb_name b)) eqn:E; unfold node_names; cbn [g_nodes].
  - rewrite (names_map_buses _ (g_nodes g)) by (intros x; destruct (Nat.eqb (fst x) (gb_name b)); auto). split; [auto|]. intros [H|[_ <-]]; auto. apply has_node_in in E; auto.
  - rewrite map_app, in_app_iff; cbn. intuition.
Qed.
Lemma add_bus_edges g b : g_edges (add_bus g b) = g_edges g.
Proof. unfold add_bus. destruct (gb_virtual b); auto. destruct (has_node g (gb_name b)); auto. Qed.
Lemma fold_buses bs : forall g, NoDup (node_names g) ->
  let r := fold_left add_bus bs g in
  NoDup (node_names r) /\ g_edges r = g_edges g /\ (forall n, bus_list r n = bus_list g n ++ filter (wanted n) bs) /\
  (forall n, In n (node_names r) <-> In n (node_names g) \/ exists b, In b bs /\ gb_virtual b = false /\ gb_name b = n).
Proof.
  induction bs as [|b bs IH]; intros g ND; cbn [fold_left].
  - split; [auto|]. split; [auto|]. split; [intros; cbn; now rewrite app_nil_r|]. intros n; split; auto. intros [H|[b [[] _]]]; auto.
  - destruct (IH (add_bus g b) (add_bus_nodup g b ND)) as [H1 [H2 [H3 H4]]]. split; [auto|]. split; [rewrite H2; apply add_bus_edges|]. split.
    + intros n. rewrite H3, add_bus_lists, <- app_assoc. f_equal. cbn [filter]. destruct (wanted n b); reflexivity.
    + intros n. rewrite H4, add_bus_names. split.
      * intros [[H|H]|[c [Hc H]]]; auto; right; [exists b|exists c]; split; auto; [left; auto|right; auto].
      * intros [H|[c [[<-|Hc] H]]]; auto. right; exists c; auto.
Qed.

(** elements, when their connections end at existing nodes *)
Definition ends_in (g : graph) (k : gkind) (c : gbus * gbus) : Prop :=
  k <> KLoad -> (gb_ground (fst c) = true \/ In (gb_name (fst c)) (node_names g)) /\ (gb_ground (snd c) = true \/ In (gb_name (snd c)) (node_names g)).
Definition joins (c : gbus * gbus) (u v : nat) : Prop :=
  gb_ground (fst c) = false /\ gb_ground (snd c) = false /\ (gb_name (fst c) = u /\ gb_name (snd c) = v \/ gb_name (fst c) = v /\ gb_name (snd c) = u).
Lemma has_edge_in g u v : has_edge g u v = true <-> adj (edge_ends (g_edges g)) u v.
Proof.
  unfold has_edge, adj, edge_ends. rewrite existsb_exists, !in_map_iff. split.
  - intros [[[a b] k] [H E]]. apply orb_true_iff in E as [E|E]; apply andb_true_iff in E as [E1 E2]; apply Nat.eqb_eq in E1, E2; subst; [left; exists (u, v, k)|right; exists (v, u, k)]; auto.
  - intros [[[[a b] k] [E H]]|[[[a b] k] [E H]]]; cbn [fst] in E; injection E as -> ->; eexists; (split; [exact H|]); cbn; rewrite !Nat.eqb_refl; cbn; auto using orb_true_r.
Qed.
Lemma need_node_id g n : In n (node_names g) -> need_node g n = g.
Proof. intros H; unfold need_node. apply has_node_in in H. now rewrite H. Qed.
Lemma add_conn_spec k g c : ends_in g k c ->
  g_nodes (add_conn k g c) = g_nodes g /\
  (forall u v j, In (u, v, j) (g_edges (add_conn k g c)) -> In (u, v, j) (g_edges g) \/ (j = k /\ k <> KLoad /\ joins c u v)) /\
  (forall e, In e (g_edges g) -> In e (g_edges (add_conn k g c))) /\
  (forall u v, k <> KLoad -> joins c u v -> u <> v -> adj (edge_ends (g_edges (add_conn k g c))) u v).
Proof.
  destruct c as [f t]; intros HE; unfold ends_in in HE; cbn [fst snd] in *. unfold add_conn.
  assert (k = KLoad \/ k <> KLoad) as [->|Hk] by (destruct k; auto; right; discriminate).
  - split; [|split; [|split]]; auto. intros u v H; contradiction.
  - specialize (HE Hk). set (A := if gb_ground f || gb_ground t || Nat.eqb (gb_name f) (gb_name t) then g
      else if negb (has_node g (gb_name f) || has_node g (gb_name t)) then g
      else if has_edge g (gb_name f) (gb_name t) then g else add_edge g (gb_name f) (gb_name t) k).
    replace (match k with KLoad => g | _ => A end) with A by (destruct k; auto; contradiction). unfold A; clear A.
    unfold joins; cbn [fst snd].
    destruct (gb_ground f) eqn:Gf; cbn [orb]; [split; [|split; [|split]]; auto; intros u v _ [H _]; discriminate|].
    destruct (gb_ground t) eqn:Gt; cbn [orb]; [split; [|split; [|split]]; auto; intros u v _ [_ [H _]]; discriminate|].
    destruct HE as [[HE1|HE1] [HE2|HE2]]; try discriminate.
    destruct (Nat.eqb_spec (gb_name f) (gb_name t)) as [E|E].
    { split; [|split; [|split]]; auto. intros u v _ [_ [_ [[H1 H2]|[H1 H2]]]] Hne; exfalso; apply Hne; congruence. }
    rewrite (proj2 (has_node_in g (gb_name f)) HE1); cbn [orb negb].
    destruct (has_edge g (gb_name f) (gb_name t)) eqn:EE.
    { apply has_edge_in in EE. split; [|split; [|split]]; auto. intros u v _ [_ [_ [[<- <-]|[<- <-]]]] Hne; auto. apply adj_sym; auto. }
    unfold add_edge. rewrite !need_node_id by (try rewrite need_node_id; auto). cbn [g_nodes g_edges]. split; [auto|split; [|split]].
    + intros u v j H. apply in_app_iff in H as [H|[[= <- <- <-]|[]]]; auto. right; repeat split; auto.
    + intros e H; apply in_app_iff; auto.
    + intros u v _ [_ [_ [[<- <-]|[<- <-]]]] _; unfold adj, edge_ends; rewrite map_app, !in_app_iff; cbn; auto.
Qed.
Lemma add_conns_spec k cs : forall g, (forall c, In c cs -> ends_in g k c) ->
  let r := fold_left (add_conn k) cs g in
  g_nodes r = g_nodes g /\
  (forall u v j, In (u, v, j) (g_edges r) -> In (u, v, j) (g_edges g) \/ (j = k /\ k <> KLoad /\ exists c, In c cs /\ joins c u v)) /\
  (forall e, In e (g_edges g) -> In e (g_edges r)) /\
  (forall u v c, In c cs -> k <> KLoad -> joins c u v -> u <> v -> adj (edge_ends (g_edges r)) u v).
Proof.
  induction cs as [|c cs IH]; intros g HE; cbn [fold_left].
  - split; [|split; [|split]]; auto. intros u v c [].
  - destruct (add_conn_spec k g c (HE c (or_introl eq_refl))) as [A1 [A2 [A3 A4]]].
    destruct (IH (add_conn k g c)) as [B1 [B2 [B3 B4]]].
    { intros d Hd. unfold ends_in, node_names in *. rewrite A1. apply HE; right; auto. }
    split; [rewrite B1; auto|]. split; [|split].
    + intros u v j H. destruct (B2 u v j H) as [H'|[E [Hk [d [Hd J]]]]].
      * destruct (A2 u v j H') as [|[E [Hk J]]]; auto. right; repeat split; auto. exists c; split; [left; auto|auto].
      * right; repeat split; auto. exists d; split; [right; auto|auto].
    + auto.
    + intros u v d [<-|Hd] Hk J Hne; [|eapply B4; eauto]. destruct (A4 u v Hk J Hne) as [H|H]; unfold adj, edge_ends in *; apply in_map_iff in H as [e [Ee He]];
        [left|right]; apply in_map_iff; exists e; auto.
Qed.
Lemma add_elements_spec es : forall g, (forall e c, In e es -> In c (ge_conns e) -> ends_in g (ge_kind e) c) ->
  let r := fold_left add_element es g in
  g_nodes r = g_nodes g /\
  (forall u v j, In (u, v, j) (g_edges r) -> In (u, v, j) (g_edges g) \/ (j <> KLoad /\ exists e c, In e es /\ ge_kind e = j /\ In c (ge_conns e) /\ joins c u v)) /\
  (forall e, In e (g_edges g) -> In e (g_edges r)) /\
  (forall u v e c, In e es -> ge_kind e <> KLoad -> In c (ge_conns e) -> joins c u v -> u <> v -> adj (edge_ends (g_edges r)) u v).
Proof.
  induction es as [|e es IH]; intros g HE; cbn [fold_left].
  - split; [|split; [|split]]; auto. intros u v e c [].
  - destruct (add_conns_spec (ge_kind e) (ge_conns e) g (fun c Hc => HE e c (or_introl eq_refl) Hc)) as [A1 [A2 [A3 A4]]].
    fold (add_element g e) in A1, A2, A3, A4.
    destruct (IH (add_element g e)) as [B1 [B2 [B3 B4]]].
    { intros d c Hd Hc. unfold ends_in, node_names in *. rewrite A1. apply HE; auto; right; auto. }
    split; [rewrite B1; auto|]. split; [|split].
    + intros u v j H. destruct (B2 u v j H) as [H'|[Hk [d [c [Hd [Ek [Hc J]]]]]]].
      * destruct (A2 u v j H') as [|[-> [Hk [c [Hc J]]]]]; auto. right; split; auto. exists e, c; repeat split; auto; [left; auto|apply J..].
      * right; split; auto. exists d, c; repeat split; auto; [right; auto|apply J..].
    + auto.
    + intros u v d c [<-|Hd] Hk Hc J Hne; [|eapply B4; eauto]. destruct (A4 u v c Hc Hk J Hne) as [H|H]; unfold adj, edge_ends in *; apply in_map_iff in H as [x [Ex Hx]];
        [left|right]; apply in_map_iff; exists x; auto.
Qed.

Section Network.
Variable nw : gnetwork.
Hypothesis OK : ends_ok nw.
Lemma build_spec :
  NoDup (node_names (build nw)) /\ (forall n, In n (node_names (build nw)) <-> place nw n) /\
  (forall n, bus_list (build nw) n = filter (wanted n) (gn_buses nw)) /\
  (forall u v j, In (u, v, j) (g_edges (build nw)) -> j <> KLoad /\ linked_by (eq j) nw u v) /\
  (forall u v, linked nw u v -> u <> v -> adj (edge_ends (g_edges (build nw))) u v).
Proof.
  unfold build.
  destruct (fold_buses (gn_buses nw) {| g_nodes := []; g_edges := [] |} (NoDup_nil _)) as [A1 [A2 [A3 A4]]].
  set (g := fold_left add_bus (gn_buses nw) {| g_nodes := []; g_edges := [] |}) in *. cbn [g_edges] in A2.
  assert (forall n, In n (node_names g) <-> place nw n) as HP by (intros n; rewrite A4; unfold place; split; [intros [[]|H]; exact H|auto]).
  destruct (add_elements_spec (gn_elements nw) g) as [B1 [B2 [B3 B4]]].
  { intros e [f t] He Hc Hk. cbn [fst snd]. rewrite !HP. exact (OK e f t He Hk Hc). }
  unfold node_names in *. rewrite B1. split; [exact A1|]. split; [exact HP|]. split; [|split].
  - intros n. unfold bus_list in *. rewrite B1. exact (A3 n).
  - intros u v j H. destruct (B2 u v j H) as [H'|[Hk [e [[f t] [He [Ek [Hc J]]]]]]]; [rewrite A2 in H'; destruct H'|].
    split; auto. unfold joins in J; cbn [fst snd] in J. exists e, f, t. destruct J as [J1 [J2 J3]]. repeat split; auto.
  - intros u v [e [f [t [He [Hk [Hc [Gf [Gt J]]]]]]]] Hne. apply (B4 u v e (f, t)); auto. unfold joins; cbn [fst snd]; auto.
Qed.
Lemma linked_sym P u v : linked_by P nw u v -> linked_by P nw v u.
Proof. intros [e [f [t H]]]; exists e, f, t; tauto. Qed.
Lemma ends_nodes u v : adj (edge_ends (g_edges (build nw))) u v -> In u (node_names (build nw)) /\ In v (node_names (build nw)).
Proof.
  destruct build_spec as [_ [HP [_ [HE _]]]]. rewrite !HP.
  assert (forall u v, In (u, v) (edge_ends (g_edges (build nw))) -> place nw u /\ place nw v) as H0.
  { intros a b H. apply in_map_iff in H as [[[a' b'] j] [E H]]; cbn [fst] in E; injection E as -> ->.
    destruct (HE _ _ _ H) as [Hj [e [f [t [He [Ek [Hc [Gf [Gt J]]]]]]]]]. subst j. destruct (OK e f t He Hj Hc) as [[X|X] [Y|Y]]; try congruence.
    destruct J as [[<- <-]|[<- <-]]; auto. }
  intros [H|H]; apply H0 in H; tauto.
Qed.
Lemma adj_linked u v : adj (edge_ends (g_edges (build nw))) u v -> linked nw u v.
Proof.
  destruct build_spec as [_ [_ [_ [HE _]]]].
  assert (forall u v, In (u, v) (edge_ends (g_edges (build nw))) -> linked nw u v) as H0.
  { intros a b H. apply in_map_iff in H as [[[a' b'] j] [E H]]; cbn [fst] in E; injection E as -> ->. destruct (HE _ _ _ H) as [Hj [e [f [t [He [Ek HH]]]]]]. subst j.
    exists e, f, t; auto. }
  intros [H|H]; apply H0 in H; auto. apply linked_sym; auto.
Qed.
Lemma paths_agree u v : path (adj (edge_ends (g_edges (build nw)))) u v <-> path (linked nw) u v.
Proof.
  destruct build_spec as [_ [_ [_ [_ HL]]]]. split; apply path_mono; intros a b H.
  - apply path_one. apply adj_linked; auto.
  - destruct (Nat.eq_dec a b) as [->|Hne]; [constructor|apply path_one; auto].
Qed.
Lemma islands_connected : length (islands (build nw)) = 1 <-> connected nw.
Proof.
  unfold islands. rewrite (one_component _ _ ends_nodes). unfold connected. destruct build_spec as [_ [HP _]]. split.
  - intros [Hne H]. split.
    + destruct (node_names (build nw)) as [|n l]; [contradiction|]. exists n. apply HP; left; auto.
    + intros u v Hu Hv. apply paths_agree. apply H; apply HP; auto.
  - intros [[n Hn] H]. split; [apply HP in Hn; intros E; rewrite E in Hn; destruct Hn|]. intros u v Hu Hv. apply HP in Hu, Hv. apply paths_agree; auto.
Qed.
Lemma island_members u v : place nw u -> (exists c, In c (islands (build nw)) /\ In u c /\ In v c) <-> path (linked nw) u v.
Proof.
  intros Hu. rewrite <- paths_agree. unfold islands. apply same_component; [apply ends_nodes|]. apply build_spec; auto.
Qed.
Lemma refused visit : ~ connected nw -> accepted visit nw = false.
Proof. intros H. unfold accepted. destruct (Nat.eqb_spec (length (islands (build nw))) 1) as [E|E]; auto. apply islands_connected in E; contradiction. Qed.

(** *** voltage regions *)
Lemma region_ends u v : adj (region_edges (build nw)) u v -> In u (region_nodes (build nw)) /\ In v (region_nodes (build nw)).
Proof.
  intros H. assert (adj (edge_ends (g_edges (build nw))) u v) as H'.
  { unfold adj, region_edges, edge_ends in *. rewrite !in_map_iff in *. destruct H as [[e [E H]]|[e [E H]]]; apply filter_In in H as [H _]; [left|right]; exists e; auto. }
  apply ends_nodes in H' as [H1 H2]. unfold region_nodes. rewrite !filter_In. split; split; auto; apply existsb_exists;
    (destruct H as [H|H]; [exists (u, v)|exists (v, u)]); (split; [exact H|]); cbn [fst snd]; rewrite !Nat.eqb_refl; auto using orb_true_r.
Qed.
Lemma plain_region u v : plain nw u v -> u <> v -> adj (region_edges (build nw)) u v.
Proof.
  intros [HL HT] Hne. destruct build_spec as [_ [_ [_ [HE HA]]]]. specialize (HA u v HL Hne).
  unfold adj, region_edges, edge_ends in *. rewrite !in_map_iff in *.
  destruct HA as [[[[a b] k] [E H]]|[[[a b] k] [E H]]]; cbn [fst] in E; injection E as -> ->; [left; exists (u, v, k)|right; exists (v, u, k)]; (split; [reflexivity|]);
    apply filter_In; (split; [exact H|]); cbn [snd]; destruct k; auto; exfalso; apply HT; apply HE in H as [_ H]; auto. apply linked_sym; auto.
Qed.
End Network.

Lemma py_round_near x : (Rabs (x - IZR (py_round x)) <= 1 / 2)%R.
Proof.
  unfold py_round. destruct (base_Int_part x) as [H1 H2]. set (z := Int_part x) in *.
  assert (0 <= x - IZR z)%R as L by lra. assert (x - IZR z < 1)%R as U by lra.
  destruct (Rlt_dec (x - IZR z) (1 / 2)); [rewrite Rabs_right; lra|]. destruct (Rlt_dec (1 / 2) (x - IZR z)).
  - rewrite plus_IZR, Rabs_left1; lra.
  - destruct (Z.even z); [rewrite Rabs_right; lra|]. rewrite plus_IZR, Rabs_left1; lra.
Qed.
Lemma region_ok_some g z ns : region_ok_from g (Some z) ns = true -> forall n, In n ns -> exists b r, bus_list g n = b :: r /\ (Rabs (gb_vnom b - IZR z) <= 10)%R.
Proof.
  induction ns as [|m ns IH]; intros H n Hn; [destruct Hn|]. cbn [region_ok_from] in H. destruct (bus_list g m) as [|b r] eqn:E; [discriminate|].
  destruct (far (gb_vnom b) z) eqn:F; [discriminate|]. destruct Hn as [<-|Hn]; [|auto]. exists b, r; split; auto. unfold far in F. destruct (Rlt_dec 10 (Rabs (gb_vnom b - IZR z))); [discriminate|lra].
Qed.
Lemma region_ok_none g ns : region_ok_from g None ns = true -> exists z, forall n, In n ns -> exists b r, bus_list g n = b :: r /\ (Rabs (gb_vnom b - IZR z) <= 10)%R.
Proof.
  destruct ns as [|m ns]; intros H; [exists 0%Z; intros n []|]. cbn [region_ok_from] in H. destruct (bus_list g m) as [|b r] eqn:E; [discriminate|].
  exists (py_round (gb_vnom b)). intros n [<-|Hn]; [|eapply region_ok_some; eauto]. exists b, r; split; auto. pose proof (py_round_near (gb_vnom b)); lra.
Qed.
Lemma first_of nw n b : first_bus nw n b -> exists r, filter (wanted n) (gn_buses nw) = b :: r.
Proof.
  intros [l [r [E [Hb Hl]]]]. assert (filter (wanted n) (gn_buses nw) = filter (fun b => Nat.eqb (gb_name b) n) (filter (fun b => negb (gb_virtual b)) (gn_buses nw))) as ->.
  { clear. induction (gn_buses nw) as [|b bs IH]; auto. cbn [filter]. unfold wanted at 1. destruct (gb_virtual b); cbn [negb andb]; auto. cbn [filter]. rewrite IH. reflexivity. }
  rewrite E. assert (forall m, filter (fun b => Nat.eqb (gb_name b) n) (l ++ m) = filter (fun b => Nat.eqb (gb_name b) n) m) as F.
  { clear E. induction l as [|c l IH]; intros m; auto. cbn [app filter]. destruct (Nat.eqb_spec (gb_name c) n) as [H|H]; [exfalso; exact (Hl c (or_introl eq_refl) H)|]. apply IH. intros; apply Hl; right; auto. }
  rewrite F. cbn [filter]. subst n. rewrite Nat.eqb_refl. eauto.
Qed.
Lemma accepted_voltages visit nw : ends_ok nw -> (forall l, Permutation (visit l) l) -> accepted visit nw = true ->
  forall u v bu bv, path (plain nw) u v -> first_bus nw u bu -> first_bus nw v bv -> (Rabs (gb_vnom bu - gb_vnom bv) <= 20)%R.
Proof.
  intros OK HV HA u v bu bv HP Hu Hv.
  destruct (build_spec nw OK) as [_ [HN [HB _]]].
  assert (path (adj (region_edges (build nw))) u v) as P.
  { revert HP; apply path_mono; intros a b H. destruct (Nat.eq_dec a b) as [->|]; [constructor|apply path_one; apply plain_region; auto]. }
  destruct (first_of nw u bu Hu) as [ru Eu], (first_of nw v bv Hv) as [rv Ev].
  assert (u = v \/ In u (region_nodes (build nw))) as [->|Hreg].
  { clear -P OK. assert (u = v \/ exists w, adj (region_edges (build nw)) u w) as [|[w H]]; auto.
    { induction P as [|a b P IH H]; auto. destruct IH as [->|IH]; [right; eauto|auto]. }
    right; exact (proj1 (region_ends nw OK u w H)). }
  - rewrite Eu in Ev; injection Ev as -> _. rewrite Rminus_diag_eq, Rabs_R0 by reflexivity; lra.
  - unfold accepted in HA. apply andb_true_iff in HA as [_ HA]. unfold validate in HA. rewrite forallb_forall in HA.
    destruct (proj2 (same_component _ _ (region_ends nw OK) u v Hreg) P) as [c [Hc [Huc Hvc]]].
    specialize (HA c Hc). apply region_ok_none in HA as [z HA].
    assert (forall n, In n c -> In n (visit c)) as HI by (intros n Hn; apply (Permutation_in _ (Permutation_sym (HV c))); auto).
    destruct (HA u (HI u Huc)) as [b1 [r1 [E1 D1]]], (HA v (HI v Hvc)) as [b2 [r2 [E2 D2]]].
    rewrite HB in E1, E2. rewrite Eu in E1; rewrite Ev in E2; injection E1 as <- _; injection E2 as <- _.
    revert D1 D2; unfold Rabs; repeat destruct (Rcase_abs _); lra.
Qed.

(** close voltages pass in every order *)
Lemma region_ok_close g ns (z : option Z) :
  (forall n, In n ns -> exists b r, bus_list g n = b :: r /\ forall z0, z = Some z0 -> (Rabs (gb_vnom b - IZR z0) <= 10)%R) ->
  (forall n m b c r s, In n ns -> In m ns -> bus_list g n = b :: r -> bus_list g m = c :: s -> (Rabs (gb_vnom b - gb_vnom c) <= 19 / 2)%R) ->
  region_ok_from g z ns = true.
Proof.
  revert z; induction ns as [|n ns IH]; intros z H1 H2; auto. cbn [region_ok_from].
  destruct (H1 n (or_introl eq_refl)) as [b [r [E D]]]. rewrite E. destruct z as [z|].
  - specialize (D z eq_refl). unfold far. destruct (Rlt_dec 10 (Rabs (gb_vnom b - IZR z))); [lra|]. apply IH; [intros; apply H1; right; auto|intros; eapply H2; eauto; right; auto].
  - apply IH; [|intros; eapply H2; eauto; right; auto]. intros m Hm. destruct (H1 m (or_intror Hm)) as [c [s [Ec _]]]. exists c, s; split; auto. intros z0 [= <-].
    pose proof (py_round_near (gb_vnom b)) as P. pose proof (H2 m n c b s r (or_intror Hm) (or_introl eq_refl) Ec E) as Q.
    revert P Q; unfold Rabs; repeat destruct (Rcase_abs _); lra.
Qed.

(** *** what is seen *)
Definition same_graph (g h : graph) : Prop := node_names g = node_names h /\ g_edges g = g_edges h.
Lemma same_has_node g h n : same_graph g h -> has_node g n = has_node h n.
Proof. intros [E _]. destruct (has_node g n) eqn:A, (has_node h n) eqn:B; auto; apply has_node_in in A || apply has_node_in in B; rewrite E in A || rewrite <- E in B; apply has_node_in in A || apply has_node_in in B; congruence. Qed.
Lemma same_add_bus g h b c : same_graph g h -> seen_bus b = seen_bus c -> same_graph (add_bus g b) (add_bus h c).
Proof.
  intros S E. unfold seen_bus in E. injection E as _ E2 E3. unfold add_bus. rewrite E2, E3. destruct (gb_virtual c); auto.
  rewrite (same_has_node g h _ S). destruct S as [S1 S2]. destruct (has_node h (gb_name c)); split; unfold node_names in *; cbn [g_nodes g_edges]; auto.
  - rewrite !names_map_buses; auto; intros x; destruct (Nat.eqb (fst x) (gb_name c)); auto.
  - rewrite !map_app, S1. reflexivity.
Qed.
Lemma same_need g h n : same_graph g h -> same_graph (need_node g n) (need_node h n).
Proof.
  intros S. unfold need_node. rewrite (same_has_node g h n S). destruct (has_node h n); auto. destruct S as [S1 S2]; split; unfold node_names in *; cbn [g_nodes g_edges]; auto.
  rewrite !map_app, S1; reflexivity.
Qed.
Definition seen_conn (c : gbus * gbus) := ((gb_ground (fst c), gb_name (fst c)), (gb_ground (snd c), gb_name (snd c))).
Lemma same_add_conn k g h c d : same_graph g h -> seen_conn c = seen_conn d -> same_graph (add_conn k g c) (add_conn k h d).
Proof.
  destruct c as [f t], d as [f' t']; unfold seen_conn; cbn [fst snd]. intros S [= E1 E2 E3 E4]. unfold add_conn. rewrite E1, E2, E3, E4.
  rewrite !(same_has_node g h _ S). assert (has_edge g (gb_name f') (gb_name t') = has_edge h (gb_name f') (gb_name t')) as -> by (unfold has_edge; now rewrite (proj2 S)).
  destruct k; auto;
    (destruct (gb_ground f' || gb_ground t' || Nat.eqb (gb_name f') (gb_name t')); auto; destruct (negb (has_node h (gb_name f') || has_node h (gb_name t'))); auto;
     destruct (has_edge h (gb_name f') (gb_name t')); auto; unfold add_edge; pose proof (same_need _ _ (gb_name t') (same_need g h (gb_name f') S)) as [A1 A2]; split; unfold node_names in *; cbn [g_nodes g_edges]; [auto|now rewrite A2]).
Qed.
Lemma same_fold {A B} (f : graph -> A -> graph) (s : A -> B) : (forall g h a b, same_graph g h -> s a = s b -> same_graph (f g a) (f h b)) ->
  forall l m, map s l = map s m -> forall g h, same_graph g h -> same_graph (fold_left f l g) (fold_left f m h).
Proof.
  intros H. induction l as [|a l IH]; intros [|b m] E g h S; try discriminate; auto. cbn [map] in E. injection E as E1 E2. cbn [fold_left]. apply IH; auto.
Qed.
Lemma same_islands nw mw : map seen_bus (gn_buses nw) = map seen_bus (gn_buses mw) -> map seen_elem (gn_elements nw) = map seen_elem (gn_elements mw) ->
  islands (build nw) = islands (build mw).
Proof.
  intros E1 E2. assert (same_graph (build nw) (build mw)) as [S1 S2].
  { unfold build. apply (same_fold add_element seen_elem); auto.
    - intros g h a b S E. unfold seen_elem in E. injection E as E3 E4. unfold add_element. rewrite E3. apply (same_fold (add_conn (ge_kind b)) seen_conn); auto. intros; apply same_add_conn; auto.
    - apply (same_fold add_bus seen_bus); auto. intros; apply same_add_bus; auto. split; auto. }
  unfold islands. now rewrite S1, S2.
Qed.

Lemma with_bus_place nw b n : place nw (gb_name b) -> place (with_bus nw b) n <-> place nw n.
Proof.
  intros HP. unfold place, with_bus; cbn [gn_buses]. split; intros [c [Hc H]].
  - apply in_app_iff in Hc as [Hc|[<-|[]]]; [exists c; auto|]. destruct H as [_ <-]. exact HP.
  - exists c; rewrite in_app_iff; auto.
Qed.
Lemma with_bus_connected nw b : ends_ok nw -> place nw (gb_name b) ->
  (length (islands (build (with_bus nw b))) = 1 <-> length (islands (build nw)) = 1).
Proof.
  intros OK HP. assert (ends_ok (with_bus nw b)) as OK'.
  { intros e f t He Hk Hc. rewrite !with_bus_place by assumption. exact (OK e f t He Hk Hc). }
  rewrite !islands_connected by assumption. unfold connected. split; intros [[n Hn] H]; (split; [exists n; apply (with_bus_place nw b n HP); auto|]);
    intros u v Hu Hv; apply (H u v); apply (with_bus_place nw b _ HP); auto.
Qed.
Lemma wanted_filter n bs : filter (wanted n) bs = filter (fun b => Nat.eqb (gb_name b) n) (filter (fun b => negb (gb_virtual b)) bs).
Proof. induction bs as [|b bs IH]; auto. cbn [filter]. unfold wanted at 1. destruct (gb_virtual b); cbn [negb andb]; auto. cbn [filter]. rewrite IH. reflexivity. Qed.
Lemma first_back nw n b r : filter (wanted n) (gn_buses nw) = b :: r -> first_bus nw n b.
Proof.
  rewrite wanted_filter. unfold first_bus. induction (filter (fun b => negb (gb_virtual b)) (gn_buses nw)) as [|c l IH]; cbn [filter]; [discriminate|].
  destruct (Nat.eqb_spec (gb_name c) n) as [E|E].
  - intros [= -> _]. exists [], l. repeat split; auto.
  - intros H. destruct (IH H) as [p [q [E1 [E2 E3]]]]. exists (c :: p), q. rewrite E1. repeat split; auto. intros d [<-|Hd]; auto.
Qed.
Lemma close_validate visit nw : ends_ok nw -> (forall l, Permutation (visit l) l) ->
  (forall u v bu bv, path (linked_by (eq KOther) nw) u v -> first_bus nw u bu -> first_bus nw v bv -> (Rabs (gb_vnom bu - gb_vnom bv) <= 19 / 2)%R) ->
  validate visit (build nw) = true.
Proof.
  intros OK HV H. destruct (build_spec nw OK) as [_ [HN [HB [HE _]]]]. unfold validate. apply forallb_forall; intros c Hc.
  assert (forall n, In n (visit c) -> In n c) as HI by (intros n; apply Permutation_in; auto).
  destruct (components_spec _ _ (region_ends nw OK) (region_nodes (build nw)) [] (incl_refl _)) as [HC _]; [intros a b []|].
  assert (forall n, In n c -> In n (region_nodes (build nw))) as HR.
  { intros n Hn. destruct (HC c Hc) as [m [Hm [_ ->]]]. destruct (component_spec _ _ (region_ends nw OK) m Hm) as [_ HS]. apply HS in Hn. destruct Hn as [|a b P E]; auto. apply (region_ends nw OK a b E). }
  apply region_ok_close.
  - intros n Hn. apply HI, HR in Hn. unfold region_nodes in Hn. apply filter_In in Hn as [Hn _]. apply HN in Hn as [b [Hb [Hv <-]]].
    rewrite HB. destruct (filter (wanted (gb_name b)) (gn_buses nw)) as [|x r] eqn:E; [|exists x, r; split; auto; discriminate].
    exfalso. assert (In b (filter (wanted (gb_name b)) (gn_buses nw))) as X by (apply filter_In; split; auto; unfold wanted; rewrite Hv, Nat.eqb_refl; auto). rewrite E in X; destruct X.
  - intros n m b d r s Hn Hm En Em. rewrite HB in En, Em. apply first_back in En, Em. apply HI in Hn, Hm. apply (H n m); auto.
    assert (path (adj (region_edges (build nw))) n m) as P by (apply (same_component _ _ (region_ends nw OK)); [apply HR; auto|exists c; auto]).
    revert P; apply path_mono; intros x y A. apply path_one. unfold adj, region_edges, edge_ends in A. rewrite !in_map_iff in A.
    assert (forall x y k, In (x, y, k) (filter (fun e => match snd e with KTransformer => false | _ => true end) (g_edges (build nw))) -> linked_by (eq KOther) nw x y) as L.
    { intros p q k Hf. apply filter_In in Hf as [Hf Hk]. destruct (HE _ _ _ Hf) as [Hl HL]. destruct k; cbn in Hk; try congruence. }
    destruct A as [[[[p q] k] [E A]]|[[[p q] k] [E A]]]; cbn [fst] in E; injection E as -> ->; apply L in A; auto. apply linked_sym; auto.
Qed.
Lemma no_buses visit nw : ends_ok nw -> (forall n, ~ place nw n) -> accepted visit nw = false.
Proof. intros OK H. apply refused; auto. intros [[n Hn] _]. exact (H n Hn). Qed.
Lemma py_round_int z : py_round (IZR z) = z.
Proof.
  unfold py_round. assert (Int_part (IZR z) = z) as -> by (unfold Int_part; rewrite <- (tech_up (IZR z) (z + 1)) by (rewrite plus_IZR; lra); lia).
  destruct (Rlt_dec (IZR z - IZR z) (1 / 2)); auto. exfalso; lra.
Qed.
