(** The networks the parsers make fit the solver. *)
From Coq Require Import Reals ZArith String Ascii List Bool Lia Lra Arith.
From Verif Require Import PyExc Components Devices UnbalancedLine Network SpecNetwork SpecNetStamper Graph PowerFlow SpecPowerFlow ThreePhase SpecThreePhase SpecThreeElems
  ThreePhaseBase ThreePhaseBusProofs ThreePhaseElemProofs ThreePhaseXfmrProofs ThreePhaseFinal RawTransformers RawParser Loader SolverNet SpecSolverNet.
Import ListNotations.
Local Open Scope R_scope.

(** *** lists *)
Lemma pmap_ok A B (f : A -> pres B) l r : pmap f l = Ok r -> Forall2 (fun a b => f a = Ok b) l r.
Proof.
  revert r. induction l as [|a l IH]; intros r E; cbn in E; [injection E as <-; constructor|].
  apply bind_ok in E as (b & E1 & E). apply bind_ok in E as (r' & E2 & E). injection E as <-. constructor; auto.
Qed.
Lemma pmap_all A B (f : A -> pres B) l : (exists r, pmap f l = Ok r) <-> (forall a, In a l -> exists b, f a = Ok b).
Proof.
  induction l as [|a l IH]; cbn; split.
  - intros _ a [].
  - eauto.
  - intros [r E] x [<-|Hx]; apply bind_ok in E as (b & E1 & E); [eauto|]. apply bind_ok in E as (r' & E2 & E). apply IH; eauto.
  - intros H. destruct (H a (or_introl eq_refl)) as [b Eb]. destruct (proj2 IH) as [r Er]; [intros x Hx; apply H; auto|]. rewrite Eb, Er. eexists. reflexivity.
Qed.
Lemma Forall2_in_l A B (P : A -> B -> Prop) l m a : Forall2 P l m -> In a l -> exists b, In b m /\ P a b.
Proof. induction 1 as [|x y l m H F IH]; [intros []|]. intros [->|I]; [exists y; split; [left|]; auto|]. destruct (IH I) as (b & Ib & Pb). exists b. split; [now right|exact Pb]. Qed.
Lemma forall2_left A B (P : A -> B -> Prop) l m : Forall2 P l m -> forall b, In b m -> exists a, In a l /\ P a b.
Proof. intros F b Hb. eapply forall2_in; eauto. Qed.
Lemma place_some A (f : A -> bool) l k : place f l = Some k -> exists a, nth_error l k = Some a /\ f a = true.
Proof.
  revert k. induction l as [|a l IH]; intros k E; cbn in E; [discriminate|]. destruct (f a) eqn:Fa.
  - injection E as <-. exists a. auto.
  - destruct (place f l) as [j|]; [|discriminate]. cbn in E. injection E as <-. cbn. auto.
Qed.
Lemma place_lt A (f : A -> bool) l k : place f l = Some k -> (k < length l)%nat.
Proof. intros E. apply place_some in E as (a & E & _). apply nth_error_Some. congruence. Qed.
Lemma place_in A (f : A -> bool) l a : In a l -> f a = true -> exists k, place f l = Some k.
Proof.
  induction l as [|b l IH]; intros Ha Fa; [destruct Ha|]. cbn. destruct (f b) eqn:Fb; [eauto|].
  destruct Ha as [->|Ha]; [congruence|]. destruct (IH Ha Fa) as [k ->]. eexists. reflexivity.
Qed.

(** *** references stay inside whatever is created *)
Lemma good_phload l name n pl n' : good n -> create_phload l name n pl = Ok n' -> good n'.
Proof.
  intros G E. unfold create_phload in E. apply bind_ok in E as (ph & _ & E). apply bind_ok in E as ([f t] & E1 & E). injection E as <-.
  apply good_add; [exact G|]. unfold elem_refs. cbn. destruct ph as [|a rest]; [discriminate|]. apply bind_ok in E1 as (f' & F & E1).
  apply bind_ok in E1 as (t' & T & E1). injection E1 as <- <-. pose proof (wf_lookup_o _ _ _ _ (proj1 G) F) as L1.
  destruct rest as [|b r]; [injection T as <-; cbn; bnd|]. apply bind_ok in T as (t'' & T & E2). injection E2 as <-.
  pose proof (wf_lookup_o _ _ _ _ (proj1 G) T) as L2. cbn. bnd.
Qed.
Lemma good_phcap c n pc n' : good n -> create_phcap c n pc = Ok n' -> good n'.
Proof.
  intros G E. destruct pc as [p var]. unfold create_phcap in E. destruct (negb _); [injection E as <-; exact G|].
  apply bind_ok in E as (s & _ & E). apply bind_ok in E as (m0 & _ & E). cbv zeta in E. apply bind_ok in E as (par & _ & E).
  apply bind_ok in E as (b & L & E). apply bind_ok in E as (v & _ & E). apply bind_ok in E as (ang & _ & E).
  apply bind_ok in E as (B & _ & E). apply bind_ok in E as (sw & _ & E). injection E as <-.
  pose proof (wf_lookup _ _ _ _ (proj1 G) L). apply good_add; [apply good_init; exact G|]. unfold elem_refs. cbn. bnd.
Qed.
Lemma good_phreg r step ty ct vt n p n' : good n -> create_phreg r step ty ct vt n p = Ok n' -> good n'.
Proof.
  intros G E. unfold create_phreg in E. apply bind_ok in E as (f & F & E). apply bind_ok in E as (t & T & E). apply bind_ok in E as (tap & _ & E).
  pose proof (wf_lookup_o _ _ _ _ (proj1 G) F). pose proof (wf_lookup_o _ _ _ _ (proj1 G) T).
  pose proof (good_create n (1 / 10) (1 / 10) (name_of n f ++ "-Reg")%string p true G) as G1. cbn [create_bus fst] in G1. unfold create_bus in E.
  apply bind_ok in E as (dev & _ & E). apply bind_ok in E as (u & _ & E). injection E as <-.
  apply good_add; [exact G1|]. unfold elem_refs. cbn. bnd.
Qed.
Lemma good_fuse l n w n' : good n -> create_fuse l n w = Ok n' -> good n'.
Proof.
  intros G E. unfold create_fuse in E. cbv zeta in E. apply bind_ok in E as (f & F & E). apply bind_ok in E as (t & T & E). apply bind_ok in E as (lim & _ & E). apply bind_ok in E as (st & _ & E).
  pose proof (wf_lookup_o _ _ _ _ (proj1 G) F). pose proof (wf_lookup_o _ _ _ _ (proj1 G) T).
  pose proof (good_create n (1 / 10) (1 / 10) (name_of n f ++ "-Fuse")%string (wi_phase w) true G) as G1. cbn [create_bus fst] in G1. unfold create_bus in E. injection E as <-.
  apply good_add; [exact G1|]. unfold elem_refs. cbn. bnd.
Qed.
Lemma good_switch l n w n' : good n -> create_switch l n w = Ok n' -> good n'.
Proof.
  intros G E. unfold create_switch in E. cbv zeta in E. apply bind_ok in E as (phs & _ & E). destruct (negb _); [injection E as <-; exact G|].
  apply bind_ok in E as (f & F & E). apply bind_ok in E as (t & T & E). injection E as <-.
  pose proof (wf_lookup_o _ _ _ _ (proj1 G) F). pose proof (wf_lookup_o _ _ _ _ (proj1 G) T). apply good_add; [exact G|]. unfold elem_refs. cbn. bnd.
Qed.
Lemma good_line inv cap n l n' : good n -> create_line inv cap n l = Ok n' -> good n'.
Proof.
  intros G E. unfold create_line in E. destruct (dl_fuse l); [|destruct (dl_switch l)].
  - refine (mfold_inv _ _ _ good (dl_wires l) _ n n' G E). intros; eapply good_fuse; eauto.
  - refine (mfold_inv _ _ _ good (dl_wires l) _ n n' G E). intros; eapply good_switch; eauto.
  - destruct (new_unbalanced _ _ _ _) as [[z y]|]; [|discriminate]. injection E as <-. apply good_add; [exact G|]. constructor.
Qed.
Lemma connections_lt n name ps m : wf n -> connections n name ps = Ok m -> Forall (fun e => (snd e < nt_next n)%nat) m.
Proof.
  intros W E. unfold connections in E. refine (mfold_inv _ _ _ (Forall (fun e : string * nat => (snd e < nt_next n)%nat)) ps _ [] m (Forall_nil _) E).
  intros s x s' _ H E'. apply bind_ok in E' as (b & L & E'). injection E' as <-. constructor; [exact (wf_lookup_o _ _ _ _ W L)|exact H].
Qed.
Lemma connect_lt m p b k : Forall (fun e : string * nat => (snd e < k)%nat) m -> connect m p = Ok b -> (b < k)%nat.
Proof.
  intros H E. unfold connect in E. destruct (assoc p m) as [c|] eqn:A; [|discriminate]. injection E as <-. apply assoc_in in A. rewrite Forall_forall in H. exact (H _ A).
Qed.
Lemma good_unit x w1 w2 r2 rea vs ratio g b m1 m2 n0 n entry n' :
  Forall (fun e : string * nat => (snd e < nt_next n0)%nat) m1 -> Forall (fun e : string * nat => (snd e < nt_next n0)%nat) m2 ->
  (good n /\ nt_next n = nt_next n0) -> create_unit x w1 w2 r2 rea vs ratio g b m1 m2 n entry = Ok n' -> good n' /\ nt_next n' = nt_next n0.
Proof.
  intros M1 M2 [G N] E. unfold create_unit in E. apply bind_ok in E as ([[[p1 q1] p2] q2] & _ & E).
  apply bind_ok in E as (fp & C1 & E). apply bind_ok in E as (fn & C2 & E). apply bind_ok in E as (tp & C3 & E). apply bind_ok in E as (tn & C4 & E).
  apply bind_ok in E as (s2 & _ & E). apply bind_ok in E as (r & _ & E). apply bind_ok in E as (xx & _ & E). apply bind_ok in E as (d & _ & E). injection E as <-.
  split; [|exact N]. rewrite <- N in M1, M2. apply good_add; [exact G|]. unfold elem_refs. cbn.
  pose proof (connect_lt _ _ _ _ M1 C1). pose proof (connect_lt _ _ _ _ M2 C3).
  assert (T : forall m p t, Forall (fun e : string * nat => (snd e < nt_next n)%nat) m -> terminal m p = Ok t -> bounded (nt_next n) (opt_list t)).
  { intros m p t M T. unfold terminal in T. destruct (String.eqb p "N"); [injection T as <-; constructor|]. apply bind_ok in T as (k & T & Q). injection Q as <-.
    constructor; [exact (connect_lt _ _ _ _ M T)|constructor]. }
  pose proof (T _ _ _ M1 C2). pose proof (T _ _ _ M2 C4). rewrite ?app_nil_r. constructor; [assumption|]. apply bounded_app. split; [assumption|]. constructor; assumption.
Qed.
Lemma good_xfmr n x n' : good n -> create_xfmr n x = Ok n' -> good n'.
Proof.
  intros G E. unfold create_xfmr in E. destruct (dx_tap x).
  - unfold create_ct in E. destruct (dx_phases x) as [|ph ps]; [discriminate|].
    destruct (dx_windings x) as [|w0 [|w1 [|w2 ws]]]; try discriminate. destruct (dx_reactances x) as [|x0 [|x1 [|x2 xs]]]; try discriminate.
    apply bind_ok in E as (v0 & _ & E). apply bind_ok in E as (v1 & _ & E). apply bind_ok in E as (ratio & _ & E). apply bind_ok in E as (gb & _ & E).
    apply bind_ok in E as (from & F & E).
    pose proof (good_create n (1 / 10) (1 / 10) (dx_name x ++ "_primary")%string ph true G) as G1.
    destruct (create_bus n (1 / 10) (1 / 10) (dx_name x ++ "_primary")%string ph true) as [n1 pri] eqn:C1. cbn [fst] in G1.
    pose proof (good_create n1 (1 / 10) (1 / 10) (dx_name x ++ "_sending_1")%string ph true G1) as G2.
    destruct (create_bus n1 (1 / 10) (1 / 10) (dx_name x ++ "_sending_1")%string ph true) as [n2 s1] eqn:C2. cbn [fst] in G2.
    apply bind_ok in E as (t1 & T1 & E).
    pose proof (good_create n2 (1 / 10) (1 / 10) (dx_name x ++ "_sending_2")%string ph true G2) as G3.
    destruct (create_bus n2 (1 / 10) (1 / 10) (dx_name x ++ "_sending_2")%string ph true) as [n3 s2] eqn:C3. cbn [fst] in G3.
    apply bind_ok in E as (t2 & T2 & E). apply bind_ok in E as (rating & _ & E). apply bind_ok in E as (r0 & _ & E). apply bind_ok in E as (r1 & _ & E). apply bind_ok in E as (r2 & _ & E).
    apply bind_ok in E as (v2 & _ & E). apply bind_ok in E as (c & _ & E). injection E as <-.
    pose proof (wf_lookup_o _ _ _ _ (proj1 G) F) as LF. pose proof (wf_lookup_o _ _ _ _ (proj1 G2) T1) as L1. pose proof (wf_lookup_o _ _ _ _ (proj1 G3) T2) as L2.
    assert (A : nt_next n1 = S (nt_next n) /\ pri = nt_next n) by (unfold create_bus in C1; injection C1 as <- <-; auto).
    assert (B : nt_next n2 = S (nt_next n1) /\ s1 = nt_next n1) by (unfold create_bus in C2; injection C2 as <- <-; auto).
    assert (C : nt_next n3 = S (nt_next n2) /\ s2 = nt_next n2) by (unfold create_bus in C3; injection C3 as <- <-; auto).
    apply good_add; [exact G3|]. unfold elem_refs. cbn. bnd.
  - destruct (dx_windings x) as [|w1 [|w2 [|]]]; try discriminate. unfold create_three in E.
    apply bind_ok in E as (r2 & _ & E). cbv zeta in E. apply bind_ok in E as (vp & _ & E). apply bind_ok in E as (vs & _ & E). apply bind_ok in E as (ratio & _ & E).
    apply bind_ok in E as (m1 & M1 & E). apply bind_ok in E as (m2 & M2 & E). apply bind_ok in E as (gb & _ & E).
    apply (connections_lt _ _ _ _ (proj1 G)) in M1, M2.
    eapply (mfold_inv _ _ _ (fun k => good k /\ nt_next k = nt_next n)) in E; [exact (proj1 E)| |split; [exact G|reflexivity]].
    intros k e k' _ Hk Ek. eapply good_unit; [exact M1|exact M2|exact Hk|exact Ek].
Qed.
Lemma good_element inv cap n m n' : good n -> create_element inv cap n m = Ok n' -> good n'.
Proof.
  intros G E. destruct m; cbn in E; try (injection E as <-; exact G); try discriminate.
  - eapply good_xfmr; eauto.
  - unfold create_cap in E. refine (mfold_inv _ _ _ good _ _ n n' G E). intros; eapply good_phcap; eauto.
  - unfold create_reg in E. apply bind_ok in E as (u1 & _ & E). apply bind_ok in E as (u2 & _ & E). apply bind_ok in E as (u3 & _ & E). apply bind_ok in E as (step & _ & E).
    apply bind_ok in E as (ty & _ & E). apply bind_ok in E as (ct & _ & E). apply bind_ok in E as (per & _ & E).
    refine (mfold_inv _ _ _ good _ _ n n' G E). intros; eapply good_phreg; eauto.
  - eapply good_line; eauto.
  - unfold create_load in E. destruct (do_name l); [|discriminate]. refine (mfold_inv _ _ _ good _ _ n n' G E). intros; eapply good_phload; eauto.
Qed.
Lemma good_parse inv cap ms n : parse_three inv cap ms = Ok n -> good n.
Proof.
  intros E. unfold parse_three in E. apply bind_ok in E as (n0 & E0 & E). apply bare_buses in E0 as [G _].
  refine (mfold_inv _ _ _ good ms _ n0 n G E). intros; eapply good_element; eauto.
Qed.

(** *** the network of the solver, three phases *)
Lemma phase_ok n l p x : dx_phase n l p = Ok x <-> exists f t, x = (Some f, Some t) /\ bus_for n (tn_from l) p f /\ bus_for n (tn_to l) p t.
Proof.
  unfold dx_phase, bus_for, found. split.
  - intros E. apply bind_ok in E as (f & F & E). apply bind_ok in E as (t & T & E). injection E as <-. exists f, t. apply lookup_o_ok in F, T. auto.
  - intros (f & t & -> & F & T). apply lookup_o_ok in F, T. rewrite F, T. reflexivity.
Qed.
Lemma line_ok n l e : dx_line n l = Ok e -> exists ph, Forall2 (fun p x => dx_phase n l p = Ok x) (tn_phases l) ph /\ exists g b B, e = EUnb ph g b B.
Proof. intros E. unfold dx_line in E. apply bind_ok in E as (ph & E1 & E). injection E as <-. apply pmap_ok in E1. eauto 8. Qed.
Lemma dx_lines opt n : (exists nw, dx_network opt n = Ok nw) <-> forall l, In l (nt_lines n) -> connected n l.
Proof.
  assert (A : (exists nw, dx_network opt n = Ok nw) <-> exists r, pmap (dx_line n) (nt_lines n) = Ok r).
  { unfold dx_network. split; [intros [nw E]; apply bind_ok in E as (r & E & _); eauto|intros [r ->]; eexists; reflexivity]. }
  rewrite A, pmap_all. split; intros H l Hl.
  - destruct (H l Hl) as [e Ee]. apply line_ok in Ee as (ph & F & _). intros p Hp. clear - F Hp. induction F as [|q x ps xs Q F IH]; [destruct Hp|]. destruct Hp as [<-|Hp]; [|auto].
    apply phase_ok in Q as (f & t & _ & Ff & Ft). split; eauto.
  - assert (B : exists ph, pmap (dx_phase n l) (tn_phases l) = Ok ph).
    { apply pmap_all. intros p Hp. destruct (H l Hl p Hp) as [[f F] [t T]]. exists (Some f, Some t). apply phase_ok. eauto 6. }
    destruct B as [ph E]. unfold dx_line. rewrite E. eexists. reflexivity.
Qed.
Lemma dx_fields opt n nw : dx_network opt n = Ok nw ->
  Forall2 (fun l e => dx_line n l = Ok e) (nt_lines n) (nw_lines nw) /\ nw_three_phase nw = true /\ nw_buses nw = map dx_bus (nt_buses n) /\
  nw_transformers nw = map dx_xfmr (nt_xfmrs n) /\ nw_slack nw = map dx_slack (nt_slack n) /\ nw_switches nw = map dx_switch (nt_switches n) /\
  nw_generators nw = [] /\ nw_loads nw = map dx_load (nt_loads n) /\ nw_misc nw = [] /\ nw_sources nw = [] /\ nw_shunts nw = [] /\
  nw_regulators nw = map dx_reg (nt_regs n) /\ nw_fuses nw = map dx_fuse (nt_fuses n) /\ nw_capacitors nw = map dx_cap (nt_caps n) /\ nw_optimization nw = opt.
Proof. intros E. unfold dx_network in E. apply bind_ok in E as (r & E1 & E). injection E as <-. apply pmap_ok in E1. cbn. repeat (split; [assumption || reflexivity|]). reflexivity. Qed.
(** an element of the network, and where it comes from *)
Definition comes_from (n : net) (e : elem) : Prop :=
  (exists l, In l (nt_lines n) /\ dx_line n l = Ok e) \/ (exists x, In x (nt_xfmrs n) /\ e = dx_xfmr x) \/ (exists s, In s (nt_slack n) /\ e = ESlack (dx_slack s)) \/
  (exists s, In s (nt_switches n) /\ e = dx_switch s) \/ (exists l, In l (nt_loads n) /\ e = dx_load l) \/ (exists r, In r (nt_regs n) /\ e = dx_reg r) \/
  (exists f, In f (nt_fuses n) /\ e = dx_fuse f) \/ (exists c, In c (nt_caps n) /\ e = dx_cap c).
Lemma dx_elements opt n nw e : dx_network opt n = Ok nw -> In e (Network.elements nw) -> comes_from n e.
Proof.
  intros E H. apply dx_fields in E as (L & T & _ & X & SL & SW & GE & LO & MI & _ & _ & RE & FU & CA & _).
  unfold Network.elements in H. rewrite T, X, SL, SW, GE, LO, MI, RE, FU, CA in H. cbn [map app] in H. rewrite !in_app_iff in H. unfold comes_from.
  destruct H as [H|[H|[H|[H|[H|[H|[H|H]]]]]]].
  - left. destruct (forall2_left _ _ _ _ _ L e H) as (l & Hl & El). eauto.
  - apply in_map_iff in H as (x & <- & Hx). eauto 10.
  - rewrite map_map in H. apply in_map_iff in H as (x & <- & Hx). eauto 10.
  - apply in_map_iff in H as (x & <- & Hx). eauto 10.
  - apply in_map_iff in H as (x & <- & Hx). eauto 10.
  - apply in_map_iff in H as (x & <- & Hx). eauto 10.
  - apply in_map_iff in H as (x & <- & Hx). eauto 12.
  - apply in_map_iff in H as (x & <- & Hx). eauto 14.
Qed.
Lemma opt_in k (t : tref) : Some k = t -> In k (opt_list t).
Proof. intros <-. now left. Qed.
Lemma dx_ok opt n nw : good n -> dx_network opt n = Ok nw -> network_ok nw.
Proof.
  intros [W B] E. pose proof (dx_fields _ _ _ E) as (_ & _ & BU & _).
  assert (I : map bus_id (nw_buses nw) = seq 0 (nt_next n)) by (rewrite BU, map_map; exact (proj1 W)).
  unfold network_ok. rewrite I. split; [apply seq_NoDup|]. intros e He k Hk. apply in_seq.
  assert (Q : forall j, In j (all_refs n) -> (0 <= j < 0 + nt_next n)%nat) by (intros j Hj; unfold bounded in B; rewrite Forall_forall in B; pose proof (B _ Hj); lia).
  destruct (dx_elements _ _ _ _ E He) as [(l & Hl & El)|[(x & Hx & ->)|[(x & Hx & ->)|[(x & Hx & ->)|[(x & Hx & ->)|[(x & Hx & ->)|[(x & Hx & ->)|(x & Hx & ->)]]]]]]].
  - apply line_ok in El as (ph & F & g & b & B' & ->). cbn in Hk. apply in_flat_map in Hk as (x & Hx & Hk).
    destruct (forall2_left _ _ _ _ _ F x Hx) as (p & _ & Ep). apply phase_ok in Ep as (f & t & -> & (sf & _ & Ff) & (st & _ & Ft)).
    pose proof (wf_lookup _ _ _ _ W Ff). pose proof (wf_lookup _ _ _ _ W Ft). cbn in Hk. destruct Hk as [Hk|[Hk|[]]]; injection Hk as <-; lia.
  - apply Q. unfold all_refs. rewrite !in_app_iff. right. right. left. apply in_flat_map. exists x. split; [exact Hx|].
    destruct x as [fp fn tp tn d g b rt|ph from pri s1 t1 s2 t2 c g b]; cbn in Hk |- *.
    + rewrite !in_app_iff. destruct Hk as [Hk|[Hk|[Hk|[Hk|[]]]]]; rewrite Hk; cbn; auto 8.
    + destruct Hk as [Hk|[Hk|[Hk|[Hk|[Hk|[Hk|[]]]]]]]; injection Hk as <-; auto 8.
  - apply Q. unfold all_refs. rewrite !in_app_iff. left. cbn in Hk. destruct Hk as [Hk|[]]. injection Hk as <-. now apply in_map.
  - apply Q. unfold all_refs. rewrite !in_app_iff. do 6 right. apply in_flat_map. exists x. split; [exact Hx|]. cbn in Hk |- *. destruct Hk as [Hk|[Hk|[]]]; injection Hk as <-; auto.
  - apply Q. unfold all_refs. rewrite !in_app_iff. right. left. apply in_flat_map. exists x. split; [exact Hx|]. cbn in Hk. rewrite in_app_iff. destruct Hk as [Hk|[Hk|[]]]; [left|right]; apply opt_in; auto.
  - apply Q. unfold all_refs. rewrite !in_app_iff. do 4 right. left. apply in_flat_map. exists x. split; [exact Hx|]. cbn in Hk |- *. destruct Hk as [Hk|[Hk|[Hk|[]]]]; injection Hk as <-; auto.
  - apply Q. unfold all_refs. rewrite !in_app_iff. do 5 right. left. apply in_flat_map. exists x. split; [exact Hx|]. cbn in Hk |- *. destruct Hk as [Hk|[Hk|[Hk|[]]]]; injection Hk as <-; auto.
  - apply Q. unfold all_refs. rewrite !in_app_iff. do 3 right. left. cbn in Hk. destruct Hk as [Hk|[Hk|[]]]; [|discriminate]. injection Hk as <-. now apply in_map.
Qed.
Lemma dx_ends opt n nw : dx_network opt n = Ok nw -> ends_on_buses nw.
Proof.
  intros E. split.
  - intros ph g b B He p Hp. destruct (dx_elements _ _ _ _ E He) as [(l & Hl & El)|[(x & Hx & Q)|[(x & Hx & Q)|[(x & Hx & Q)|[(x & Hx & Q)|[(x & Hx & Q)|[(x & Hx & Q)|(x & Hx & Q)]]]]]]]; try discriminate.
    + apply line_ok in El as (ph' & F & g' & b' & B' & Q). injection Q as <- _ _ _. destruct (forall2_left _ _ _ _ _ F p Hp) as (q & _ & Ep).
      apply phase_ok in Ep as (f & t & -> & _). split; discriminate.
    + destruct x; discriminate.
  - intros c f p s1 t1 s2 t2 He. destruct (dx_elements _ _ _ _ E He) as [(l & Hl & El)|[(x & Hx & Q)|[(x & Hx & Q)|[(x & Hx & Q)|[(x & Hx & Q)|[(x & Hx & Q)|[(x & Hx & Q)|(x & Hx & Q)]]]]]]]; try discriminate.
    + apply line_ok in El as (ph' & F & g' & b' & B' & Q). discriminate.
    + destruct x; [discriminate|]. injection Q as _ _ Q _ _ _ _. congruence.
Qed.
Lemma dx_sorted opt n nw : dx_network opt n = Ok nw -> sorted nw.
Proof.
  intros E. apply dx_fields in E as (_ & _ & _ & _ & _ & _ & _ & _ & _ & _ & _ & _ & FU & CA & _). split; intros e He.
  - rewrite FU in He. apply in_map_iff in He as (f & <- & _). unfold dx_fuse. eauto.
  - rewrite CA in He. apply in_map_iff in He as (f & <- & _). unfold dx_cap. eauto 6.
Qed.

(** *** inner buses *)
Lemma plain_buses ms n : create_buses ms = Ok n -> Forall (fun b => tb_virtual b = false) (nt_buses n).
Proof.
  intros E. unfold create_buses in E. apply bind_ok in E as ([n0 st] & E & E1). injection E1 as <-. cbn [fst].
  rewrite nodes_as_visits in E.
  assert (Q : wf (fst (n0, st)) /\ Forall (fun b => tb_virtual b = false) (nt_buses (fst (n0, st)))); [|exact (proj2 Q)].
  refine (mfold_inv _ _ step (fun s => wf (fst s) /\ Forall (fun b => tb_virtual b = false) (nt_buses (fst s))) (visits (nodes_of ms)) _ (empty_net, None) (n0, st) (conj wf_empty (Forall_nil _)) E).
  intros [m t] [nd p] [m' t'] _ [W B] Sx. cbn [fst] in *. pose proof (step_visited _ _ _ _ _ _ W Sx) as V.
  assert (SK : forall m1 b st1, wf m1 -> Forall (fun b => tb_virtual b = false) (nt_buses m1) -> slack_added nd b st1 m1 m' -> wf m' /\ Forall (fun b => tb_virtual b = false) (nt_buses m')).
  { intros m1 b st1 W1 B1 SA. inversion SA; subst; split; assumption. }
  inversion V as [NK|par b n1 K EP EL SA|c b n1 K EP EC EL SA|va vr vi n1 K RT SP SA]; subst.
  - split; assumption.
  - pose proof (wf_lookup _ _ _ _ W EL). eapply SK; [| |exact SA]; [now apply wf_set_map|exact B].
  - eapply SK; [| |exact SA]; assumption.
  - eapply SK; [| |exact SA].
    + destruct (wf_create m (fst va) (snd va) (dn_name nd) p false W) as [W1 W2]. split; [|exact W2].
      cbn [set_buses nt_buses nt_next]. rewrite map_app. cbn [create_bus fst nt_buses nt_next] in W1. rewrite map_app in W1. exact W1.
    + cbn [set_buses nt_buses]. apply Forall_app. split; [exact B|]. constructor; [reflexivity|constructor].
Qed.
Section Inner.
Variables (inv : matrix -> option matrix) (cap : bool) (ms : list dmodel) (n : net).
Hypothesis K : known_elements ms.
Hypothesis E : parse_three inv cap ms = Ok n.
Hypothesis P : Forall plain_ends ms.
Definition real (k : nat) : Prop := gb_virtual (dx_place n k) = false.
Lemma early_real n0 k : create_buses ms = Ok n0 -> (k < nt_next n0)%nat -> real k.
Proof.
  intros E0 L. destruct (p_frame _ _ _ _ K E) as (n0' & E0' & _ & (l & EB & _) & _). rewrite E0 in E0'. injection E0' as <-.
  pose proof (plain_buses _ _ E0) as V. apply bare_buses in E0 as [[W _] _]. rewrite <- (wf_length _ W) in L.
  apply nth_error_Some in L. destruct (nth_error (nt_buses n0) k) as [b|] eqn:Nb; [|congruence].
  assert (Q : nth_error (map ident (nt_buses n)) k = Some (ident b)).
  { rewrite EB, nth_error_app1; [now apply map_nth_error|]. rewrite map_length. apply nth_error_Some. congruence. }
  rewrite nth_error_map in Q. unfold real, dx_place. destruct (nth_error (nt_buses n) k) as [b'|]; [|discriminate]. cbn in Q |- *.
  unfold ident in Q. injection Q as _ _ _ Q _. rewrite Q. apply nth_error_In in Nb. rewrite Forall_forall in V. exact (V _ Nb).
Qed.
Lemma found_real s p k : one_letter p -> ~ interior_name s -> found n s p k -> real k.
Proof.
  intros O I F. destruct (p_frame _ _ _ _ K E) as (n0 & E0 & _ & _ & FR). apply (FR s p k O I) in F.
  apply (early_real n0); [exact E0|]. apply bare_buses in E0 as [[W _] _]. exact (wf_lookup _ _ _ _ W F).
Qed.
Lemma leads_real o p k : one_letter p -> outside o -> leads_to_o n o p k -> real k.
Proof. intros O U (s & -> & L). pose proof (U s eq_refl) as I. exact (found_real s p k O I (L I)). Qed.
Lemma for_real o p k : one_letter p -> outside o -> bus_for n o p k -> real k.
Proof. intros O U (s & -> & F). exact (found_real s p k O (U s eq_refl) F). Qed.
Lemma wire_letter p : known p \/ p = "N"%string -> one_letter p.
Proof. intros [H| ->]; [|eexists; reflexivity]. cbn in H. destruct H as [<-|[<-|[<-|[<-|[<-|[]]]]]]; eexists; reflexivity. Qed.
Lemma known_letter p : known p -> one_letter p.
Proof. intros H. cbn in H. destruct H as [<-|[<-|[<-|[<-|[<-|[]]]]]]; eexists; reflexivity. Qed.
Lemma joined_real opt nw e f t k : dx_network opt n = Ok nw -> In e (Network.elements nw) -> joins e f t -> f = Some k \/ t = Some k -> real k.
Proof.
  intros EN He J Hk. rewrite Forall_forall in P. pose proof K as KK. unfold known_elements in KK. rewrite Forall_forall in KK.
  destruct (dx_elements _ _ _ _ EN He) as [(l & Hl & El)|[(x & Hx & ->)|[(x & Hx & ->)|[(x & Hx & ->)|[(x & Hx & ->)|[(x & Hx & ->)|[(x & Hx & ->)|(x & Hx & ->)]]]]]]].
  - apply line_ok in El as (ph & F & g & b & B' & ->). inversion J as [|ph' g' b' B'' p Hp| | | | | | | | | |]; subst.
    destruct (forall2_left _ _ _ _ _ F p Hp) as (q & Hq & Ep). apply phase_ok in Ep as (f' & t' & -> & Ff & Ft).
    destruct (Forall2_in_l _ _ _ _ _ _ (p_lines _ _ _ _ K E) Hl) as (dl & Hd & (L1 & L2 & L3 & _)).
    apply in_flat_map in Hd as (m & Hm & Hd). destruct m as [| | | |l0| | |]; try destruct Hd. cbn in Hd. destruct (plain_line l0); [|destruct Hd]. destruct Hd as [<-|[]].
    destruct (P _ Hm) as (U1 & U2 & OL). rewrite L1 in Ff. rewrite L2 in Ft. rewrite L3 in Hq. apply filter_In in Hq as [Hq _]. rewrite Forall_forall in OL.
    pose proof (wire_letter _ (OL _ Hq)) as Oq. cbn in Hk. destruct Hk as [Hk|Hk]; injection Hk as <-; [exact (for_real _ _ _ Oq U1 Ff)|exact (for_real _ _ _ Oq U2 Ft)].
  - destruct (p_xfmrs _ _ _ _ K E) as (gs & EG & FG). rewrite EG in Hx. apply in_concat in Hx as (us & Hu & Hx).
    destruct (Forall2_in_l _ _ _ _ _ _ FG Hu) as (dx & Hd & M). apply in_flat_map in Hd as (m & Hm & Hd). destruct m as [|x0| | | | | |]; try destruct Hd as [<-|[]]; try destruct Hd.
    destruct (P _ Hm) as (U1 & U2). pose proof (KK _ Hm) as KP. cbn in KP. rewrite Forall_app in KP. destruct KP as [KP1 KP2]. rewrite Forall_forall in KP1, KP2.
    unfold xfmr_made in M. destruct (dx_tap x0).
    + destruct M as (u & -> & M). destruct Hx as [->|[]]. destruct M as (ph & from & pri & s1 & t1 & s2 & t2 & c & g & b & -> & HD & A1 & A2 & A3 & _).
      assert (OP : one_letter ph) by (apply known_letter, KP1; destruct (dx_phases x0); [discriminate|]; injection HD as ->; now left).
      inversion J; subst; destruct Hk as [Hk|Hk]; injection Hk as <-; eauto using leads_real.
      * eapply leads_real; [|exact U2|exact A2]. eexists; reflexivity.
      * eapply leads_real; [|exact U2|exact A3]. eexists; reflexivity.
    + destruct M as (w1 & w2 & EW & LW & M). apply In_nth_error in Hx as [i Hi].
      assert (exists p, nth_error (dw_phases w1) i = Some p) as [p Hp].
      { destruct (nth_error (dw_phases w1) i) as [p|] eqn:Q; [eauto|]. apply nth_error_None in Q. assert (i < length us)%nat by (apply nth_error_Some; congruence). lia. }
      destruct (M i p Hp) as (u & Hu' & fp & fn & tp & tn & d & g & b & -> & A1 & A2 & A3 & A4 & _). rewrite Hi in Hu'. injection Hu' as ->.
      assert (OL : forall q, In q (dw_phases w1) -> one_letter q).
      { intros q Hq. apply known_letter, KP2. apply in_flat_map. exists w1. rewrite EW. split; [now left|exact Hq]. }
      assert (ST : forall w o r, outside o -> second_terminal n w o (dw_phases w1) i r -> forall j, r = Some j -> real j).
      { intros w o r U [S1 S2] j ->. destruct (delta (dw_conn w)) eqn:D.
        - apply delta_spec in D. destruct (S1 D) as (q & b' & Sq & Eb & Lb). injection Eb as <-. eapply leads_real; [|exact U|exact Lb]. apply OL. unfold succ_phase in Sq. eapply nth_error_In; exact Sq.
        - assert (ND : ~ is_delta w) by (rewrite <- delta_spec; congruence). specialize (S2 ND). discriminate. }
      assert (Op : one_letter p) by (apply OL; eapply nth_error_In; exact Hp).
      assert (R1 : real fp) by (eapply leads_real; [exact Op|exact U1|exact A1]). assert (R2 : real tp) by (eapply leads_real; [exact Op|exact U2|exact A3]).
      cbn [dx_xfmr] in J. inversion J; subst; destruct Hk as [Hk|Hk]; try (injection Hk as <-; assumption); subst; eauto.
  - inversion J.
  - destruct (Forall2_in_l _ _ _ _ _ _ (p_switches _ _ _ _ K E) Hx) as ([l w] & Hd & (_ & A1 & A2 & _)). cbn [fst snd] in *.
    apply in_flat_map in Hd as (m & Hm & Hd). destruct m as [| | | |l0| | |]; try destruct Hd. cbn in Hd. destruct (dl_fuse l0); [destruct Hd|]. destruct (dl_switch l0); [|destruct Hd].
    apply in_map_iff in Hd as (w' & Q & Hw). injection Q as -> ->. destruct (P _ Hm) as (U1 & U2 & OL). rewrite Forall_forall in OL.
    assert (Ow : one_letter (wi_phase w)). { apply wire_letter, OL, in_map. unfold switch_wires in Hw. destruct (dl_phases l); [|destruct Hw]. now apply filter_In in Hw. }
    unfold dx_switch in J. inversion J; subst. destruct Hk as [Hk|Hk]; injection Hk as <-; eauto using leads_real.
  - inversion J.
  - destruct (Forall2_in_l _ _ _ _ _ _ (p_regs _ _ _ _ K E) Hx) as ([r p] & Hd & (A1 & A2 & _)). cbn [fst snd] in *.
    apply in_flat_map in Hd as (m & Hm & Hd). destruct m as [| | |r0| | | |]; try destruct Hd. cbn in Hd. apply in_map_iff in Hd as (p' & Q & Hp). injection Q as -> ->.
    destruct (P _ Hm) as (U1 & U2). pose proof (KK _ Hm) as KP. cbn in KP. rewrite Forall_forall in KP. pose proof (known_letter _ (KP _ Hp)).
    unfold dx_reg in J. inversion J; subst. destruct Hk as [Hk|Hk]; injection Hk as <-; eauto using leads_real.
  - destruct (Forall2_in_l _ _ _ _ _ _ (p_fuses _ _ _ _ K E) Hx) as ([l w] & Hd & (_ & A1 & A2 & _)). cbn [fst snd] in *.
    apply in_flat_map in Hd as (m & Hm & Hd). destruct m as [| | | |l0| | |]; try destruct Hd. cbn in Hd. destruct (dl_fuse l0); [|destruct Hd].
    apply in_map_iff in Hd as (w' & Q & Hw). injection Q as -> ->. destruct (P _ Hm) as (U1 & U2 & OL). rewrite Forall_forall in OL.
    assert (Ow : one_letter (wi_phase w)) by (apply wire_letter, OL, in_map; exact Hw).
    unfold dx_fuse in J. inversion J; subst. destruct Hk as [Hk|Hk]; injection Hk as <-; eauto using leads_real.
  - destruct (parse_ok _ _ _ _ K E) as (n0 & _ & _ & _ & [_ HC _ _ _ _ _]). cbn in HC.
    destruct (Forall2_in_l _ _ _ _ _ _ HC Hx) as ([c pc] & Hd & KC & (par & v & ctl & A0 & _ & _ & A1 & _)). cbn [fst snd] in *.
    apply in_flat_map in Hd as (m & Hm & Hd). destruct m as [| |c0| | | | |]; try destruct Hd. cbn in Hd. apply in_map_iff in Hd as (pc' & Q & Hp). injection Q as -> ->.
    pose proof (P _ Hm) as U. cbn in U. unfold dx_cap in J. inversion J; subst. destruct Hk as [Hk|Hk]; [|discriminate]. injection Hk as <-.
    eapply found_real; [|exact (U _ A0)|apply A1; exact (U _ A0)].
    exact (known_letter _ KC).
Qed.
Lemma slack_real s : In s (nt_slack n) -> real (sk_bus s).
Proof.
  intros Hs. destruct (p_frame _ _ _ _ K E) as (n0 & E0 & SL & _). rewrite SL in Hs. apply (early_real n0 _ E0). apply bare_buses in E0 as [[_ B] _].
  unfold bounded in B. rewrite Forall_forall in B. apply B. unfold all_refs. apply in_app_iff. left. now apply in_map.
Qed.
Lemma dx_proper opt nw : dx_network opt n = Ok nw -> proper (dx_details n) nw.
Proof.
  intros EN. split; [|split].
  - intros k. cbn. unfold dx_place. destruct (nth_error (nt_buses n) k); reflexivity.
  - intros e f t k He J Hk. exact (joined_real _ _ _ _ _ _ EN He J Hk).
  - intros s k He Hk. destruct (dx_elements _ _ _ _ EN He) as [(l & Hl & El)|[(x & Hx & Q)|[(x & Hx & Q)|[(x & Hx & Q)|[(x & Hx & Q)|[(x & Hx & Q)|[(x & Hx & Q)|(x & Hx & Q)]]]]]]]; try discriminate.
    + apply line_ok in El as (ph' & F & g' & b' & B' & Q). discriminate.
    + destruct x; discriminate.
    + injection Q as ->. cbn in Hk. injection Hk as <-. exact (slack_real _ Hx).
Qed.
Hypothesis T : tidy ms.
Lemma phases_apart l ph : In l (nt_lines n) -> NoDup (tn_phases l) -> pmap (dx_phase n l) (tn_phases l) = Ok ph -> apart ph.
Proof.
  intros Hl ND Ep. apply pmap_ok in Ep. rewrite Forall_forall in P.
  destruct (Forall2_in_l _ _ _ _ _ _ (p_lines _ _ _ _ K E) Hl) as (dl & Hd & (L1 & L2 & L3 & _)).
  apply in_flat_map in Hd as (m & Hm & Hd). destruct m as [| | | |l0| | |]; try destruct Hd. cbn in Hd. destruct (plain_line l0); [|destruct Hd]. destruct Hd as [<-|[]].
  destruct (P _ Hm) as (U1 & U2 & OL). rewrite Forall_forall in OL. destruct (p_frame _ _ _ _ K E) as (n0 & E0 & _ & _ & FR).
  assert (KN : forall p, In p (tn_phases l) -> known p).
  { intros p Hp. rewrite L3 in Hp. apply filter_In in Hp as [Hp Np]. destruct (OL _ Hp) as [Q| ->]; [exact Q|discriminate]. }
  assert (D : forall o, outside o -> forall p q i, In p (tn_phases l) -> In q (tn_phases l) -> bus_for n o p i -> bus_for n o q i -> p = q).
  { intros o U p q i Hp Hq (s & -> & F1) (s' & Q & F2). injection Q as <-. pose proof (U s eq_refl) as I.
    apply (FR s p i (known_letter _ (KN _ Hp)) I) in F1. apply (FR s q i (known_letter _ (KN _ Hq)) I) in F2.
    exact (proj1 (proj1 (same_bus ms n0 s s p q i i T E0 (KN _ Hp) (KN _ Hq) F1 F2) eq_refl)). }
  clear Hl L3 Hm. split.
  - revert ND KN D. induction Ep as [|p x ps xs Q F IH]; intros ND KN D; [constructor|]. cbn. constructor.
    + intros I. apply in_map_iff in I as (y & Ey & Hy). destruct (forall2_left _ _ _ _ _ F y Hy) as (q & Hq & Eq).
      apply phase_ok in Q as (f & t & -> & F1 & _). apply phase_ok in Eq as (f' & t' & -> & F2 & _). cbn in Ey. injection Ey as ->. rewrite L1 in F1, F2.
      assert (p = q) by (eapply (D (dl_from l0) U1); [now left|now right|exact F1|exact F2]). subst q. inversion ND; contradiction.
    + apply IH; [now inversion ND|intros r Hr; apply KN; now right|]. intros o U r r' i Hr Hr'. apply (D o U r r' i); now right.
  - revert ND KN D. induction Ep as [|p x ps xs Q F IH]; intros ND KN D; [constructor|]. cbn. constructor.
    + intros I. apply in_map_iff in I as (y & Ey & Hy). destruct (forall2_left _ _ _ _ _ F y Hy) as (q & Hq & Eq).
      apply phase_ok in Q as (f & t & -> & _ & F1). apply phase_ok in Eq as (f' & t' & -> & _ & F2). cbn in Ey. injection Ey as ->. rewrite L2 in F1, F2.
      assert (p = q) by (eapply (D (dl_to l0) U2); [now left|now right|exact F1|exact F2]). subst q. inversion ND; contradiction.
    + apply IH; [now inversion ND|intros r Hr; apply KN; now right|]. intros o U r r' i Hr Hr'. apply (D o U r r' i); now right.
Qed.
Lemma lines_apart opt nw ph g b B : Forall (fun l => NoDup (tn_phases l)) (nt_lines n) -> dx_network opt n = Ok nw -> In (EUnb ph g b B) (nw_lines nw) -> apart ph.
Proof.
  intros ND EN He. apply dx_fields in EN as (L & _). destruct (forall2_left _ _ _ _ _ L _ He) as (l & Hl & El). unfold dx_line in El.
  apply bind_ok in El as (ph' & Ep & Q). injection Q as <- _ _ _. rewrite Forall_forall in ND. exact (phases_apart l ph' Hl (ND _ Hl) Ep).
Qed.
End Inner.
