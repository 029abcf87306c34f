(** C156: circuits in the terms of the parsers. *)
From Coq Require Import String Reals ZArith List Bool Arith Lia Lra.
From Verif Require Import PyExc Components SpecComponents ComponentsProofs SpecUnbalanced UnbalancedLine Devices Network SpecNetwork SpecKirchhoff KirchhoffNet ThreePhase SpecThreePhase ThreePhaseBase SpecSolverNet
  RawTransformers RawParser SpecRaw SolverNet SolverNetProofs SolverRawProofs SpecParts PartsProofs.
Import ListNotations.
Local Open Scope R_scope.

(** *** accounts of two kinds *)
Section Accounts.
Context {A B I J : Type} (rel : A -> B -> Prop) (lawA : A -> I -> list R -> Prop) (lawB : B -> J -> list R -> Prop) (same : I -> J -> Prop).
Lemma account_along : (forall a b i m, rel a b -> lawA a i m -> exists j, lawB b j m /\ same i j) -> forall la lb, Forall2 rel la lb ->
  forall ac : list (A * I * list R), map (fun x => fst (fst x)) ac = la -> Forall (fun x => lawA (fst (fst x)) (snd (fst x)) (snd x)) ac ->
  exists bc : list (B * J * list R), map (fun x => fst (fst x)) bc = lb /\ Forall (fun x => lawB (fst (fst x)) (snd (fst x)) (snd x)) bc /\
    flat_map snd bc = flat_map snd ac /\ Forall2 (fun x y => same (snd (fst x)) (snd (fst y))) ac bc.
Proof.
  intros H la lb F. induction F as [|a b la lb R F IH]; intros ac E L.
  - destruct ac; [|discriminate]. exists []. repeat split; constructor.
  - destruct ac as [|[[a' i] m] ac]; [discriminate|]. cbn in E. injection E as -> E. inversion L as [|? ? L1 L2]. subst. destruct (IH ac eq_refl L2) as (bc & E1 & E2 & E3 & E4). destruct (H a b i m R L1) as (j & J1 & J2).
    exists ((b, j, m) :: bc). split; [cbn; now rewrite E1|]. split; [now constructor|]. split; [cbn; now rewrite E3|]. now constructor.
Qed.
End Accounts.
Lemma same_flat {A B I} (ac : list (A * list I * list R)) (bc : list (B * list I * list R)) : Forall2 (fun x y => snd (fst x) = snd (fst y)) ac bc -> flat_map (fun x => snd (fst x)) ac = flat_map (fun x => snd (fst x)) bc.
Proof. induction 1 as [|x y ac bc E F IH]; cbn; [reflexivity|]. now rewrite E, IH. Qed.
Lemma flip {A B} (P : A -> B -> Prop) l m : Forall2 P l m -> Forall2 (fun y x => P x y) m l.
Proof. induction 1; constructor; assumption. Qed.

(** *** three phases *)
Lemma elems_parts opt n nw : dx_network opt n = Ok nw -> Forall2 (elem_of n) (parts n) (elements nw).
Proof.
  intros E. apply dx_fields in E as (L & T & _ & X & SL & SW & GE & LO & MI & _ & _ & RE & FU & CA & _). unfold elements, parts. rewrite T, X, SL, SW, GE, LO, MI, RE, FU, CA. cbn [map app].
  assert (M : forall Y (c : Y -> part) (d : Y -> elem) l, (forall y, elem_of n (c y) (d y)) -> Forall2 (elem_of n) (map c l) (map d l)) by (intros Y c d l H; induction l; cbn; constructor; auto).
  repeat apply Forall2_app; try (apply M; reflexivity).
  - clear - L. induction L; cbn; constructor; assumption.
  - rewrite map_map. apply M. reflexivity.
Qed.
Section Three.
Variables (opt : option bool) (n : net) (nw : Network.network) (V : bref -> C).
Hypothesis E : dx_network opt n = Ok nw.
Lemma three_ids (P : nat -> Prop) : (forall b, In b (nw_buses nw) -> P (bus_id b)) <-> forall b, In b (nt_buses n) -> P (tb_id b).
Proof.
  pose proof (dx_fields _ _ _ E) as (_ & _ & B & _). rewrite B. split; intros H b Hb.
  - apply (H (dx_bus b)). now apply in_map.
  - apply in_map_iff in Hb as (c & <- & Hc). exact (H c Hc).
Qed.
Lemma three_circuit allowed : V None = C0 /\ (exists ac, accounts_for V nw ac /\ Forall allowed (misses ac) /\ forall b, In b (nw_buses nw) -> allowed (fst (net_current (bus_id b) ac)) /\ allowed (snd (net_current (bus_id b) ac))) <-> circuit n V allowed.
Proof.
  pose proof (elems_parts _ _ _ E) as F. unfold circuit. split; intros [V0 (ac & H)]; (split; [exact V0|]).
  - destruct H as ([H1 H2] & H3 & H4). apply flip in F.
    destruct (account_along (fun e p => elem_of n p e) (behaves V) (lawful n V) eq) with (la := elements nw) (lb := parts n) (ac := ac) as (bc & B1 & B2 & B3 & B4); [|exact F|exact H1|exact H2|].
    { intros e p i m R L. exists i. split; [exact (proj1 (part_same n V p e i m R) L)|reflexivity]. }
    exists bc. split; [exact B1|]. split; [exact B2|]. split; [rewrite B3; exact H3|]. apply (proj1 (three_ids (fun k => let c := drawn k (flat_map (fun x => snd (fst x)) bc) in allowed (fst c) /\ allowed (snd c)))).
    rewrite <- (same_flat _ _ B4). exact H4.
  - destruct H as (H1 & H2 & H3 & H4).
    destruct (account_along (fun p e => elem_of n p e) (lawful n V) (behaves V) eq) with (la := parts n) (lb := elements nw) (ac := ac) as (bc & B1 & B2 & B3 & B4); [|exact F|exact H1|exact H2|].
    { intros p e i m R L. exists i. split; [exact (proj2 (part_same n V p e i m R) L)|reflexivity]. }
    exists bc. split; [split; assumption|]. split; [unfold misses; rewrite B3; exact H3|]. unfold net_current. rewrite <- (same_flat _ _ B4).
    apply (proj2 (three_ids (fun k => let c := drawn k (flat_map (fun x => snd (fst x)) ac) in allowed (fst c) /\ allowed (snd c)))). exact H4.
Qed.
Lemma zero_pair (c : C) : c = C0 <-> fst c = 0 /\ snd c = 0.
Proof. destruct c as [x y]. unfold C0. cbn. split; [intros H; injection H; auto|intros [-> ->]; reflexivity]. Qed.
Lemma physical_zero (w : Network.network) : physical w V <-> V None = C0 /\ exists ac, accounts_for V w ac /\ Forall (fun x => x = 0) (misses ac) /\ forall b, In b (nw_buses w) -> fst (net_current (bus_id b) ac) = 0 /\ snd (net_current (bus_id b) ac) = 0.
Proof.
  unfold physical. split; intros [V0 (ac & H1 & H2 & H3)]; (split; [exact V0|]); exists ac; (split; [exact H1|]); (split; [exact H2|]); intros b Hb; apply zero_pair, H3, Hb.
Qed.
Lemma three_laws : (physical nw V <-> circuit n V (fun x => x = 0)) /\ forall eps, nearly_physical eps nw V <-> circuit n V (fun x => Rabs x < eps).
Proof. split; [rewrite physical_zero; apply three_circuit|]. intros eps. exact (three_circuit (fun x => Rabs x < eps)). Qed.
End Three.

(** *** RAW *)
Section Single.
Variables (o : onet) (opt : option bool) (V : bref -> C) (U : Z -> C).
Hypothesis WA : well_attached o.
Hypothesis ND : NoDup (map ob_num (n_buses o)).
Hypothesis V0 : V None = C0.
Hypothesis VU : forall k b, nth_error (n_buses o) k = Some b -> V (Some k) = U (ob_num b).
Let ref := sx_ref o.
Lemma add0 c : Cadd C0 c = c.
Proof. destruct c. unfold Cadd, C0. cbn. f_equal; ring. Qed.
Lemma add3 (a b c : C) : Cadd a (Cadd b c) = Cadd (Cadd a b) c.
Proof. unfold Cadd. cbn. f_equal; ring. Qed.
Definition same (I : currents) (J : numbered) : Prop := forall k b, nth_error (n_buses o) k = Some b -> drawn k I = out_of (ob_num b) J.
Lemma ref_volt z : attached o z -> V (ref z) = U z.
Proof. intros H. destruct (ref_of o z H) as (k & E & b & Hb & <-). unfold ref. rewrite E. exact (VU k b Hb). Qed.
Lemma same_nil : same [] [].
Proof. intros k b Hb. reflexivity. Qed.
Lemma same_none c I J : same I J -> same ((None, c) :: I) J.
Proof. intros H k b Hb. exact (H k b Hb). Qed.
Lemma same_cons z c I J : attached o z -> same I J -> same ((ref z, c) :: I) ((z, c) :: J).
Proof.
  intros A H k b Hb. destruct (ref_of o z A) as (j & E & b' & Hb' & Q). unfold ref. rewrite E. cbn [drawn out_of fold_right fst snd]. fold (drawn k I) (out_of (ob_num b) J). rewrite (H k b Hb).
  destruct (Nat.eqb_spec j k) as [->|NE]; destruct (Z.eqb_spec z (ob_num b)) as [EZ|NZ]; try reflexivity.
  - exfalso. apply NZ. congruence.
  - exfalso. apply NE. eapply is_bus_once; [exact ND|exists b'; eauto|exists b; eauto].
Qed.
Lemma same_app I J I' J' : same I J -> same I' J' -> same (I ++ I') (J ++ J').
Proof.
  intros H H' k b Hb.
  assert (A1 : forall X Y, drawn k (X ++ Y) = Cadd (drawn k X) (drawn k Y)).
  { intros X Y. unfold drawn. induction X as [|[[j|] c] X IH]; cbn [app fold_right fst snd]; [now rewrite add0|destruct (Nat.eqb j k); [rewrite IH; apply add3|exact IH]|exact IH]. }
  assert (A2 : forall X Y, out_of (ob_num b) (X ++ Y) = Cadd (out_of (ob_num b) X) (out_of (ob_num b) Y)).
  { intros X Y. unfold out_of. induction X as [|[z c] X IH]; cbn [app fold_right fst snd]; [now rewrite add0|]. destruct (Z.eqb z (ob_num b)); [rewrite IH; apply add3|exact IH]. }
  now rewrite A1, A2, (H k b Hb), (H' k b Hb).
Qed.
Definition elem_at (q : piece) (e : elem) : Prop :=
  match q with
  | QLine l => attached o (fst (fst l)) /\ attached o (snd (fst l)) /\ e = ELine (snd l) (ref (fst (fst l))) (ref (snd (fst l)))
  | QXfmr x => attached o (x_from x) /\ attached o (x_to x) /\ e = EXf (x_dev x) (ref (x_from x)) None (ref (x_to x)) None
  | QSlack s => attached o (RawParser.sl_bus s) /\ e = ESlack (sx_slack o s)
  | QGen g => attached o (og_bus g) /\ e = EGen (sx_gen o g)
  | QLoad l => attached o (fst l) /\ e = ELoad (snd l) (ref (fst l)) None
  | QShunt s => attached o (os_bus s) /\ e = EShunt (100 * os_G s) (100 * os_B s) (ref (os_bus s))
  end.
Lemma power_opp u I p q : power u (Copp I) = (p, q) <-> power u I = (- p, - q).
Proof. unfold power, Copp, Cmul, Cconj. destruct u, I. cbn. split; intros H; injection H; intros; f_equal; lra. Qed.
Lemma opp_opp c : Copp (Copp c) = c.
Proof. destruct c. unfold Copp. cbn. f_equal; ring. Qed.
Lemma sub_0 c : Csub c C0 = c.
Proof. destruct c. unfold Csub, C0. cbn. f_equal; ring. Qed.
Lemma shunt_100 g b : (100 * g / 100, 100 * b / 100) = (g, b).
Proof. f_equal; field. Qed.
Lemma piece_law q e I m : elem_at q e -> behaves V e I m -> exists J, obeys U q J m /\ same I J.
Proof.
  destruct q as [[[f t] l]|x|s|g|[z l]|s]; cbn [elem_at fst snd].
  - intros (A1 & A2 & ->) H. inversion H; subst. unfold across. rewrite (ref_volt f A1), (ref_volt t A2). eexists. split; [apply ob_line|]. repeat apply same_cons; auto using same_nil.
  - intros (A1 & A2 & ->) H. inversion H; subst. clear H. subst k J. unfold across. rewrite V0, !sub_0, (ref_volt _ A1). replace (V (ref (x_to x))) with (U (x_to x)) by (symmetry; now apply ref_volt).
    eexists. split; [apply (ob_xfmr U x I0 Vs)|]. apply same_cons; [exact A1|]. apply same_none. apply same_cons; [exact A2|]. apply same_none, same_nil.
  - intros (A & ->) H. inversion H; subst. cbn [sx_slack Network.sl_bus sl_V Network.sl_ang]. fold ref. rewrite (ref_volt _ A). eexists. split; [apply ob_slack|]. apply same_cons; [exact A|apply same_nil].
  - intros (A & ->) H. inversion H; subst. cbn [sx_gen gen_bus gen_P gen_Vset] in *. change (sx_ref o (og_bus g)) with (ref (og_bus g)) in *. rewrite (ref_volt _ A) in *. exists [(og_bus g, Copp I0)]. split; [|apply same_cons; [exact A|apply same_nil]].
    apply (ob_gen U g (Copp I0) (- Q)); [assumption|]. apply power_opp. rewrite Ropp_involutive. assumption.
  - intros (A & ->) H. inversion H; subst. cbn zeta. unfold across in *. rewrite V0, !sub_0, (ref_volt z A) in *. eexists. split; [apply ob_load; eassumption|]. apply same_cons; [exact A|]. apply same_none, same_nil.
  - intros (A & ->) H. inversion H; subst. rewrite shunt_100, (ref_volt _ A). eexists. split; [apply ob_shunt|]. apply same_cons; [exact A|apply same_nil].
Qed.
Lemma piece_back q e J m : elem_at q e -> obeys U q J m -> exists I, behaves V e I m /\ same I J.
Proof.
  destruct q as [[[f t] l]|x|s|g|[z l]|s]; cbn [elem_at fst snd].
  - intros (A1 & A2 & ->) H. inversion H; subst. clear H. subst I. rewrite <- (ref_volt f A1), <- (ref_volt t A2). eexists. split; [apply is_line; reflexivity|]. apply same_cons; [exact A1|]. apply same_cons; [exact A2|apply same_nil].
  - intros (A1 & A2 & ->) H. inversion H; subst. clear H. subst d k J0. rewrite <- (ref_volt _ A1), <- (ref_volt _ A2).
    pose proof (is_xf V (x_dev x) (ref (x_from x)) None (ref (x_to x)) None I W) as X. cbv zeta in X. unfold across in X. rewrite V0, !sub_0 in X. eexists. split; [exact X|]. apply same_cons; [exact A1|]. apply same_none. apply same_cons; [exact A2|]. apply same_none, same_nil.
  - intros (A & ->) H. inversion H; subst. rewrite <- (ref_volt _ A). eexists. split; [apply (is_slack V (sx_slack o s))|]. apply same_cons; [exact A|apply same_nil].
  - intros (A & ->) H. inversion H as [| | |g' I Q N P| |]; subst. rewrite <- (ref_volt _ A) in *. exists [(ref (og_bus g), Copp (Copp I))]. split.
    + apply (is_gen V (sx_gen o g) (Copp I) (- Q)); [exact N|]. apply power_opp. cbn [sx_gen gen_P gen_bus]. fold ref. rewrite !Ropp_involutive. exact P.
    + rewrite opp_opp. apply same_cons; [exact A|apply same_nil].
  - intros (A & ->) H. inversion H as [| | | |z' l' Ip Iz P Q|]; subst. exists [(ref z, Cadd Ip (Cadd (ld_IP l, ld_IQ l) Iz)); (None, Copp (Cadd Ip (Cadd (ld_IP l, ld_IQ l) Iz)))]. split.
    + apply (is_load V l (ref z) None Ip Iz); unfold across; rewrite V0, sub_0, (ref_volt z A); assumption.
    + apply same_cons; [exact A|]. apply same_none, same_nil.
  - intros (A & ->) H. inversion H; subst. rewrite <- (ref_volt _ A). pose proof (is_shunt V (100 * os_G s) (100 * os_B s) (ref (os_bus s))) as X. rewrite shunt_100 in X. eexists. split; [exact X|]. apply same_cons; [exact A|apply same_nil].
Qed.
Lemma elems_pieces : Forall2 elem_at (pieces o) (elements (sx_network opt o)).
Proof.
  destruct WA as (W1 & W2 & W3 & W4 & W5 & W6).
  assert (M : forall Y (c : Y -> piece) (d : Y -> elem) l, (forall y, In y l -> elem_at (c y) (d y)) -> Forall2 elem_at (map c l) (map d l)).
  { intros Y c d l H. induction l; cbn; constructor; [apply H; now left|apply IHl; intros; apply H; now right]. }
  rewrite Forall_forall in W1, W2, W3, W4, W5, W6. unfold elements, pieces. cbn. rewrite !map_map. repeat apply Forall2_app; apply M; intros y Hy.
  - destruct (W5 y Hy). cbn. auto.
  - destruct (W6 y Hy). cbn. auto.
  - cbn. split; [apply W1; apply in_map_iff; eauto|reflexivity].
  - cbn. split; [apply W2; apply in_map_iff; eauto|reflexivity].
  - cbn. split; [apply W3; apply in_map_iff; eauto|reflexivity].
  - cbn. split; [apply W4; apply in_map_iff; eauto|reflexivity].
Qed.
Lemma same_all {A B} (ac : list (A * currents * list R)) (bc : list (B * numbered * list R)) : Forall2 (fun x y => same (snd (fst x)) (snd (fst y))) ac bc -> same (flat_map (fun x => snd (fst x)) ac) (flat_map (fun x => snd (fst x)) bc).
Proof. induction 1; cbn; [apply same_nil|now apply same_app]. Qed.
Lemma single_ids (P : nat -> Prop) : (forall b, In b (nw_buses (sx_network opt o)) -> P (bus_id b)) <-> forall k b, nth_error (n_buses o) k = Some b -> P k.
Proof.
  cbn. assert (G : forall j l, (forall b, In b (sx_buses j l) -> P (bus_id b)) <-> forall k b, nth_error l k = Some b -> P (j + k)%nat).
  { intros j l. revert j. induction l as [|x l IH]; intros j; cbn; [split; [intros _ [|k] b; discriminate|intros _ b []]|]. split.
    - intros H [|k] b Hb; [rewrite Nat.add_0_r; exact (H _ (or_introl eq_refl))|]. cbn in Hb. replace (j + S k)%nat with (S j + k)%nat by lia. apply (proj1 (IH (S j)) (fun b Hb => H b (or_intror Hb)) k b Hb).
    - intros H b [<-|Hb]; [cbn; specialize (H 0%nat x eq_refl); now rewrite Nat.add_0_r in H|]. apply (proj2 (IH (S j))); [|exact Hb]. intros k c Hc. replace (S j + k)%nat with (j + S k)%nat by lia. exact (H (S k) c Hc). }
  exact (G 0%nat (n_buses o)).
Qed.
Lemma single_circuit allowed : (exists ac, accounts_for V (sx_network opt o) ac /\ Forall allowed (misses ac) /\ forall b, In b (nw_buses (sx_network opt o)) -> allowed (fst (net_current (bus_id b) ac)) /\ allowed (snd (net_current (bus_id b) ac))) <-> sequence o U allowed.
Proof.
  pose proof elems_pieces as F. unfold sequence. split; intros (ac & H).
  - destruct H as ([H1 H2] & H3 & H4). apply flip in F.
    destruct (account_along (fun e p => elem_at p e) (behaves V) (obeys U) same) with (la := elements (sx_network opt o)) (lb := pieces o) (ac := ac) as (bc & B1 & B2 & B3 & B4); [|exact F|exact H1|exact H2|].
    { intros e p i m R L. exact (piece_law p e i m R L). }
    exists bc. split; [exact B1|]. split; [exact B2|]. split; [rewrite B3; exact H3|]. intros b Hb. apply In_nth_error in Hb as [k Hk]. apply same_all in B4. rewrite <- (B4 k b Hk).
    exact (proj1 (single_ids (fun k => allowed (fst (net_current k ac)) /\ allowed (snd (net_current k ac)))) H4 k b Hk).
  - destruct H as (H1 & H2 & H3 & H4).
    destruct (account_along (fun p e => elem_at p e) (obeys U) (behaves V) (fun J I => same I J)) with (la := pieces o) (lb := elements (sx_network opt o)) (ac := ac) as (bc & B1 & B2 & B3 & B4); [|exact F|exact H1|exact H2|].
    { intros p e j m R L. exact (piece_back p e j m R L). }
    exists bc. split; [split; assumption|]. split; [unfold misses; rewrite B3; exact H3|]. apply (proj2 (single_ids (fun k => allowed (fst (net_current k bc)) /\ allowed (snd (net_current k bc))))).
    intros k b Hk. apply flip in B4. apply same_all in B4. unfold net_current. rewrite (B4 k b Hk). apply H4. eapply nth_error_In. exact Hk.
Qed.
Lemma single_laws : (physical (sx_network opt o) V <-> sequence o U (fun x => x = 0)) /\ forall eps, nearly_physical eps (sx_network opt o) V <-> sequence o U (fun x => Rabs x < eps).
Proof.
  split.
  - rewrite physical_zero. rewrite <- single_circuit. split; [intros [_ H]; exact H|intros H; split; [exact V0|exact H]].
  - intros eps. rewrite <- single_circuit. unfold nearly_physical. split; [intros [_ H]; exact H|intros H; split; [exact V0|exact H]].
Qed.
End Single.

(** *** other data *)
Lemma raw_kept nm opt o : let nw := sx_network opt o in
  map (fun b => (bus_Vm b, bus_Va b)) (nw_buses nw) = map (fun b => (ob_vm b, ob_va b)) (n_buses o) /\
  Forall2 (fun s t => sl_Pinit t / 100 = sl_pinit s /\ sl_Qinit t / 100 = sl_qinit s) (n_slack o) (nw_slack nw) /\
  Forall2 (fun g h => gen_Qinit h = - og_qinit g) (n_gens o) (nw_generators nw) /\
  forall k b, nth_error (n_buses o) k = Some b -> Graph.gb_vnom (PowerFlow.of_bus (sx_details nm o) k) = ob_vm b /\ Graph.gb_name (PowerFlow.of_bus (sx_details nm o) k) = nm (ob_num b).
Proof.
  cbn. split; [|split; [|split]].
  - generalize 0%nat. induction (n_buses o) as [|b l IH]; intros k; cbn; [reflexivity|]. now rewrite IH.
  - induction (n_slack o) as [|s l IH]; cbn; constructor; [cbn; split; field|exact IH].
  - induction (n_gens o) as [|s l IH]; cbn; constructor; [reflexivity|exact IH].
  - intros k b ->. split; reflexivity.
Qed.
Lemma three_kept n : let x := dx_details n in
  (forall k f, nth_error (nt_fuses n) k = Some f -> PowerFlow.of_fuse x k = (tf_limit f, tf_status f)) /\
  (forall k c hi lo, nth_error (nt_caps n) k = Some c -> tc_high c = Some hi -> tc_low c = Some lo -> PowerFlow.of_cap x k = (tc_mode c, hi, lo)).
Proof. cbn. split; [intros k f ->; reflexivity|intros k c hi lo -> H L; now rewrite H, L]. Qed.
