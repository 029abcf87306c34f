(** Buses and sources, from the file to the network. *)
From Coq Require Import Reals ZArith String Ascii List Bool Lia Lra Arith.
From Verif Require Import PyExc SpecComponents SpecUnbalanced Components Devices UnbalancedLine GlmText SpecGlm GlmBase LineImpedance ThreePhase SpecThreePhase SpecThreeElems ThreePhaseBase ThreePhaseBusProofs ThreePhaseInitProofs GlmReader SpecReader ReaderBase ReaderLoadProofs ReaderFrame ReaderStore ReaderFile ReaderFrame2 ReaderVisit SpecLineZ SpecReader2 LineFile ReaderTurns OverheadFile SpecReader3 XfmrFile RegFile VnomFile ThreePhaseFinal SpecFile FileNet FileElems.
Import ListNotations.
Local Open Scope string_scope.
Set Implicit Arguments.

(** *** where the buses of the nodes start *)
Definition bus_of (nds : list dnode) (b : tbus) : Prop :=
  exists nd va, In nd nds /\ is_root nd /\ tb_name b = dn_name nd /\ set_point nd (tb_phase b) va /\ tb_vnom b = fst va /\
    starts_at (tb_phase b) (fst va) (snd va) (tb_vr b) (tb_vi b).
Lemma slack_buses : forall nd b st n n', slack_added nd b st n n' -> nt_buses n' = nt_buses n.
Proof. intros nd b st n n' S. destruct S; reflexivity. Qed.
Lemma step_starts : forall nds n st nd p n' st', wf n -> In nd nds -> ThreePhaseBusProofs.step (n, st) (nd, p) = Ok (n', st') ->
  nt_buses n' = nt_buses n \/ exists b, nt_buses n' = (nt_buses n ++ [b])%list /\ bus_of nds b.
Proof.
  intros nds n st nd p n' st' W I H. pose proof (step_visited _ _ _ _ _ _ W H) as V.
  destruct V as [N | par b n1 K P L S | c b n1 K P Q L S | va vr vi n1 K R SP S].
  - now left.
  - left. now rewrite (slack_buses S).
  - left. now rewrite (slack_buses S).
  - right. pose proof (slack_buses S) as B. cbn [set_buses nt_buses] in B.
    eexists. split; [exact B |]. exists nd, va. cbn [tb_name tb_phase tb_vnom tb_vr tb_vi]. split; [exact I |]. split; [exact R |]. split; [reflexivity |]. split; [exact SP |]. split; [reflexivity |].
    clear S. unfold ThreePhaseBusProofs.step in H. cbn [fst snd] in H. unfold node_phase in H. destruct (phase_angle p) as [ang |] eqn:EA; [| apply known_angle in K; destruct K as [a K]; congruence].
    destruct R as [R1 R2]. rewrite R1, R2 in H. apply bind_ok in H. destruct H as ([[n2 b] st2] & H & H2). apply bind_ok in H. destruct H as (v & HV & H).
    unfold create_bus in H. cbv beta iota zeta in H.
    assert (SV : st2 = Some v /\ nt_buses n1 = nt_buses n2).
    { injection H as _ _ <-. split; [reflexivity |]. destruct (dn_source nd); [destruct v |]; injection H2 as <- _; reflexivity. }
    destruct SV as [-> BN]. assert (v = va) as ->.
    { destruct (dn_source nd); [destruct v; injection H2 as _ H2; congruence | injection H2 as _ H2; congruence]. }
    rewrite B in BN. injection H as <- _. unfold starts_at. destruct (String.eqb p "1"); [| destruct (String.eqb p "2")].
    3:{ cbn [nt_buses] in BN. apply app_inv_head in BN. injection BN as -> ->. auto. }
    all: unfold set_init in BN; cbn [set_buses nt_buses] in BN; rewrite map_app, (fresh_init n (nt_next n) _ _ (proj1 W) eq_refl) in BN; apply app_inv_head in BN;
      cbn in BN; rewrite Nat.eqb_refl in BN; injection BN as -> ->; split; lra.
Qed.
Lemma visits_part : forall nds d x r, NoDup (map dn_name nds) -> Forall (fun nd => NoDup (dn_phases nd)) nds -> visits nds = (d ++ x :: r)%list ->
  (forall y, In y (d ++ [x]) -> In (fst y) nds) /\ NoDup (map pname (d ++ [x])).
Proof.
  intros nds d x r T1 T2 EL. split.
  - intros y Hy. apply (visits_in nds y). rewrite EL. apply in_app_iff in Hy. destruct Hy as [Hy | [<- | []]]; apply in_or_app; cbn; auto.
  - pose proof (visits_nodup _ T1 T2) as ND. rewrite EL in ND. change (x :: r) with ([x] ++ r)%list in ND. rewrite app_assoc, map_app in ND.
    clear - ND. induction (map pname (d ++ [x])) as [| z l IH]; [constructor |]. cbn in ND. inversion ND; subst. constructor; [| auto]. intros H. apply H1. apply in_or_app. auto.
Qed.
Lemma buses_start : forall ms n, tidy ms -> create_buses ms = Ok n -> Forall (bus_of (nodes_of ms)) (nt_buses n).
Proof.
  intros ms n [T1 T2] E. unfold create_buses in E. apply bind_ok in E. destruct E as ([n0 st] & E & E1). injection E1 as <-. rewrite nodes_as_visits in E. cbn [fst].
  refine (proj2 (mfold_prefix _ _ ThreePhaseBusProofs.step (fun d s => inv (nodes_of ms) d s /\ Forall (bus_of (nodes_of ms)) (nt_buses (fst s))) (visits (nodes_of ms)) _ (empty_net, None) (n0, st) (conj (inv_start _) (Forall_nil _)) E)).
  intros d x r s s' EL [I F] ES. destruct (@visits_part _ _ _ _ T1 T2 EL) as [V1 V2]. split; [eapply ThreePhaseBusProofs.inv_step; eauto |].
  destruct s as [m t], s' as [m' t'], x as [nd p]. cbn [fst] in *.
  assert (IN : In nd (nodes_of ms)) by (apply (V1 (nd, p)), in_or_app; right; now left).
  destruct (@step_starts (nodes_of ms) m t nd p m' t' (i_wf _ _ _ I) IN ES) as [-> | (b & -> & B)]; [exact F |]. apply Forall_app. split; [exact F | constructor; [exact B | constructor]].
Qed.
Lemma nodes_unique : forall ms x y, tidy ms -> In x (nodes_of ms) -> In y (nodes_of ms) -> dn_name x = dn_name y -> x = y.
Proof.
  intros ms x y [T _]. revert T. generalize (nodes_of ms). intros l. induction l as [| z l IH]; intros T Ix Iy Q; [destruct Ix |]. cbn in T. inversion T as [| ? ? N T']; subst.
  destruct Ix as [-> | Ix], Iy as [-> | Iy]; auto; exfalso; apply N; [rewrite Q | rewrite <- Q]; now apply in_map.
Qed.
Lemma root_bus : forall ms n nd p, tidy ms -> create_buses ms = Ok n -> In nd (nodes_of ms) -> is_root nd -> In p (dn_phases nd) -> known p ->
  exists b bus va, found n (dn_name nd) p b /\ nth_error (nt_buses n) b = Some bus /\ tb_name bus = dn_name nd /\ tb_phase bus = p /\
    set_point nd p va /\ tb_vnom bus = fst va /\ starts_at p (fst va) (snd va) (tb_vr bus) (tb_vi bus).
Proof.
  intros ms n nd p T E I R Ip K. destruct (@node_bus ms n nd p T E I Ip K (or_introl R)) as (b & bus & r & F & N & Q & P & H).
  assert (r = dn_name nd) as ->. { eapply (@hangs_fun (nodes_of ms)); [exact (proj1 T) | exact H | now constructor]. }
  pose proof (buses_start T E) as B. rewrite Forall_forall in B. destruct (B bus (nth_error_In _ _ N)) as (nd' & va & I' & R' & Q' & SP & V & ST).
  assert (nd' = nd) as -> by (eapply nodes_unique; eauto; congruence). rewrite P in *. exists b, bus, va. auto 10.
Qed.

(** *** the last later child *)
Lemma child_dec : forall name o, child_of name o \/ ~ child_of name o.
Proof.
  intros name o. unfold child_of. destruct (string_dec (go_class o) "node") as [C | C]; [| destruct (string_dec (go_class o) "meter") as [D | D]]; [| | right; tauto].
  all: destruct (gattr o "parent") as [t |] eqn:G; [destruct (string_dec t name) as [<- | N]; [left; split; [tauto | now apply gattr_says] | right; intros [_ S]; apply gattr_says in S; congruence] |].
  all: right; intros [_ S]; apply gattr_says in S; congruence.
Qed.
Lemma last_child : forall name (objs : list (string * gobj)) i,
  (exists j nj oj, (i < j)%nat /\ nth_error objs j = Some (nj, oj) /\ child_of name oj /\ forall k nk ok, (j < k)%nat -> nth_error objs k = Some (nk, ok) -> ~ child_of name ok) \/
  (forall j nj oj, (i < j)%nat -> nth_error objs j = Some (nj, oj) -> ~ child_of name oj).
Proof.
  intros name objs i. induction objs as [| x l IH] using rev_ind; [right; intros j nj oj _ H; destruct j; discriminate H |].
  destruct x as [nx ox]. destruct (le_lt_dec (List.length l) i) as [L | L].
  { right. intros j nj oj Lj H. exfalso. assert (nth_error (l ++ [(nx, ox)]) j <> None) as N by congruence. apply nth_error_Some in N. rewrite app_length in N. cbn in N. lia. }
  assert (A : forall k nk ok, nth_error (l ++ [(nx, ox)]) k = Some (nk, ok) -> nth_error l k = Some (nk, ok) \/ k = List.length l /\ nk = nx /\ ok = ox).
  { intros k nk ok H. destruct (lt_dec k (List.length l)) as [Lk | Lk]; [left; now rewrite nth_error_app1 in H | right].
    assert (k = List.length l) as ->. { assert (nth_error (l ++ [(nx, ox)]) k <> None) as N by congruence. apply nth_error_Some in N. rewrite app_length in N. cbn in N. lia. }
    rewrite nth_error_app2, Nat.sub_diag in H by lia. injection H as <- <-. auto. }
  destruct (child_dec name ox) as [C | C].
  - left. exists (List.length l), nx, ox. split; [exact L |]. split; [now rewrite nth_error_app2, Nat.sub_diag by lia |]. split; [exact C |].
    intros k nk ok Lk H. destruct (A _ _ _ H) as [H' | (-> & _)]; [| lia]. assert (nth_error l k <> None) as N by congruence. apply nth_error_Some in N. lia.
  - destruct IH as [(j & nj & oj & Lj & H & CJ & U) | U].
    + left. exists j, nj, oj. split; [exact Lj |]. split; [rewrite nth_error_app1; [exact H | apply nth_error_Some; congruence] |]. split; [exact CJ |].
      intros k nk ok Lk Hk. destruct (A _ _ _ Hk) as [H' | (_ & -> & ->)]; [exact (U _ _ _ Lk H') | exact C].
    + right. intros j nj oj Lj H. destruct (A _ _ _ H) as [H' | (_ & -> & ->)]; [exact (U _ _ _ Lj H') | exact C].
Qed.

(** *** node objects *)
Lemma point_volts : forall E objs i name o nd p va, node_voltage E objs i name o nd -> volts_like E o nd -> (dn_source nd = true <-> says o "bustype" "SWING") -> known p ->
  set_point nd p va -> phase_volts E objs i name o p (fst va) (snd va).
Proof.
  intros E objs i name o nd p va NV VL SW K SP.
  assert (BV : forall m, dn_vnom nd = Some m -> base_volts E objs i name o (Some m)).
  { intros m Q. destruct NV as [N1 N2]. destruct (dn_source nd) eqn:S.
    - right. split; [left; now apply SW |]. rewrite <- Q. auto.
    - destruct (N2 eq_refl) as [N3 N4]. assert (NS : ~ says o "bustype" "SWING") by (intros X; apply SW in X; congruence).
      destruct (last_child name objs i) as [(j & nj & oj & Lj & H & C & U) | U].
      + left. exists j, nj, oj. rewrite <- Q. repeat (split; [assumption |]). eapply N3; eauto.
      + right. split; [now right |]. rewrite <- Q. auto. }
  unfold set_point in SP. destruct (VL p) as [V1 V2].
  split.
  - intros I v D. rewrite (V1 I v D) in SP.
    assert (N12 : String.eqb p "1" = false /\ String.eqb p "2" = false) by (cbn in I; destruct I as [<- | [<- | [<- | []]]]; split; reflexivity).
    destruct N12 as [N1 N2]. rewrite N1, N2 in SP. now destruct va.
  - intros D. rewrite (V2 D) in SP.
    assert (SP' : exists m, dn_vnom nd = Some m /\ va = (m, standard_angle p)) by (destruct (String.eqb p "1"); [exact SP | destruct (String.eqb p "2"); exact SP]).
    destruct SP' as (m & Q & ->). split; [now apply BV | reflexivity].
Qed.

Lemma filter_every : forall A (p : A -> bool) l, Forall (fun x => p x = true) l -> filter p l = l.
Proof. intros A p l F. induction F as [| x l H F IH]; [reflexivity |]. cbn. now rewrite H, IH. Qed.
Section Buses.
Variables (E : prims) (sch : list (string * string)) (inv : matrix -> option matrix) (cap : bool).
Variables (objs : list (string * gobj)) (ms : list dmodel) (n : net).
Hypothesis clean : clean_file objs.
Hypothesis reads : read_store E sch objs = Ok ms.
Hypothesis parses : parse_three inv cap ms = Ok n.
Let td : tidy ms := proj1 (@clean_ok E sch objs ms clean reads).
Let kn : known_elements ms := proj2 (@clean_ok E sch objs ms clean reads).

Lemma letters_known : forall name o core, In (name, o) objs -> ~ In (go_class o) config_classes -> phase_core o core -> Forall known (phase_letters core).
Proof using clean.
  intros name o core I C PC. pose proof (proj2 clean) as CL. clear td kn. rewrite Forall_forall in CL. destruct (CL _ I) as [C' | (core' & PC' & _ & K)]; [now destruct C |]. cbn [snd] in *.
  destruct PC as (t & S & W), PC' as (t' & S' & W'). assert (t' = t) as -> by exact (says_fun S' S). apply clean_wrapped in W, W'. assert (core = core') as -> by congruence. exact K.
Qed.
(** the node of a node object, as it is in the store *)
Lemma file_node : forall i name o, nth_error objs i = Some (name, o) -> go_class o = "node" \/ go_class o = "meter" ->
  exists nd, In (MNode nd) ms /\ dn_name nd = name /\ (forall core, phase_core o core -> dn_phases nd = phase_letters core) /\ (dn_source nd = true <-> says o "bustype" "SWING") /\
    told o "parent" (dn_parent nd) /\ dn_conn nd = None /\ volts_like E o nd /\ node_voltage E objs i name o nd.
Proof using clean reads.
  intros i name o Ho C. destruct (@file_turns E sch objs ms (proj1 clean) reads) as (parts & F & S & T).
  destruct (T i name o Ho) as (part & s1 & s2 & o1 & Hp & _). apply forall2_nth in F. destruct F as [_ F]. pose proof (F _ _ _ Ho Hp) as K. cbn [fst snd] in K. clear F T.
  inversion K as [C1 | d par L SP LM | d nd ps L SI LM NP NL | nd par C1 NLo T1 CS NL | nd ps b par C1 T1 P BT NL V | x C1 Q EN P | l C1 F1 EN P FL ST | l C1 F1 SW EN P | l C1 F1 SW EN | c C1 M | r C1 EN];
    subst part; try (exfalso; clear Hp; classes K).
  assert (I : In (MNode nd) (concat parts)) by (apply in_concat; exists [MNode nd]; split; [exact (nth_error_In _ _ Hp) | now left]).
  destruct (forall2_first _ S I) as (m' & Im & SM). destruct NL as (N1 & N2 & N3 & N4 & N5).
  assert (X : exists nd', m' = MNode nd' /\ dn_source nd' = dn_source nd /\ dn_name nd' = dn_name nd /\ dn_phases nd' = dn_phases nd /\ dn_parent nd' = dn_parent nd /\ dn_conn nd' = dn_conn nd /\ dn_volt nd' = dn_volt nd).
  { destruct SM as [<- | (x & y & Qx & -> & S1 & S2 & S3 & S4 & S5 & S6 & S7)]; [exists nd; auto 10 |]. injection Qx as <-. exists y. repeat (split; [congruence |]). congruence. }
  destruct X as (nd' & -> & X1 & X2 & X3 & X4 & X5 & X6). exists nd'. split; [exact Im |]. split; [congruence |]. split; [intros core PC; destruct (P core PC) as [_ PP]; congruence |].
  split; [rewrite X1, N3; exact BT |]. split; [rewrite X4, N4; exact T1 |]. split; [congruence |]. split; [unfold volts_like in *; rewrite X6; exact V |].
  eapply nodes_voltage; [exact (proj1 clean) | exact reads | exact Ho | exact Im | congruence].
Qed.
Lemma known_one : forall p, known p -> one_letter p.
Proof. intros p K. cbn in K. destruct K as [<- | [<- | [<- | [<- | [<- | []]]]]]; eexists; reflexivity. Qed.
Lemma plain_class : forall o, go_class o = "node" \/ go_class o = "meter" -> ~ In (go_class o) config_classes.
Proof. intros o [-> | ->] H; cbn in H; intuition discriminate. Qed.
Lemma told_silent : forall o k x, told o k x -> silent o k -> x = None.
Proof. intros o k x [[_ H] | (t & S & _)] N; [exact H |]. exfalso. exact (says_silent S N). Qed.
Lemma frame_leads : exists n0, create_buses ms = Ok n0 /\ nt_slack n = nt_slack n0 /\ forall name p b, known p -> found n0 name p b -> leads_to n name p b.
Proof using clean reads parses.
  destruct (@p_frame inv cap ms n kn parses) as (n0 & E0 & SL & _ & FR). exists n0. split; [exact E0 |]. split; [exact SL |].
  intros name p b K F NI. apply FR; [now apply known_one | exact NI | exact F].
Qed.
Lemma file_buses : forall i name o core p, nth_error objs i = Some (name, o) -> go_class o = "node" \/ go_class o = "meter" -> silent o "parent" ->
  phase_core o core -> In p (phase_letters core) ->
  exists b bus a, leads_to n name p b /\ nth_error (nt_buses n) b = Some bus /\ tb_name bus = name /\ tb_phase bus = p /\ tb_virtual bus = false /\
    phase_volts E objs i name o p (tb_vnom bus) a /\ (~ In b (map tc_bus (nt_caps n)) -> starts_at p (tb_vnom bus) a (tb_vr bus) (tb_vi bus)).
Proof using clean reads parses.
  intros i name o core p Ho C SI PC Ip. destruct (file_node _ Ho C) as (nd & I & N & P & SW & PA & CN & VL & NV).
  pose proof (@letters_known name o core (nth_error_In _ _ Ho) (@plain_class o C) PC) as KL. rewrite Forall_forall in KL. pose proof (KL p Ip) as K. clear KL.
  destruct frame_leads as (n0 & E0 & _ & FR). destruct (@parse_inits inv cap ms n kn parses) as (n0' & E0' & IN). assert (n0' = n0) as -> by congruence.
  assert (R : is_root nd) by (split; [exact (told_silent PA SI) | exact CN]).
  assert (Ip' : In p (dn_phases nd)) by (rewrite (P core PC); exact Ip).
  destruct (@root_bus ms n0 nd p td E0 (proj2 (nodes_in ms nd) I) R Ip' K) as (b & bus & va & F & NB & Q1 & Q2 & SP & VN & ST).
  destruct (IN b bus NB) as (bus' & NB' & U1 & U2). exists b, bus', (snd va). rewrite N in *.
  assert (V : tb_virtual bus = false).
  { destruct (create_buses_inv _ _ td E0) as [st IV]. pose proof (i_bus _ _ _ IV) as B. rewrite Forall_forall in B. exact (proj1 (B bus (nth_error_In _ _ NB))). }
  assert (ID : ident bus' = ident bus) by (destruct (in_dec Nat.eq_dec b (map tc_bus (nt_caps n))) as [H | H]; [exact (proj1 (U2 H)) | now rewrite (U1 H)]).
  unfold ident in ID. injection ID as _ I1 I2 I3 I4.
  split; [now apply FR |]. split; [exact NB' |]. split; [congruence |]. split; [congruence |]. split; [congruence |]. rewrite I4, VN.
  split; [eapply point_volts; eauto |]. intros H. rewrite (U1 H). exact ST.
Qed.
(** every other bus belongs to one element *)
Lemma file_bus_kinds : forall bus, In bus (nt_buses n) -> tb_virtual bus = false ->
  exists i o, nth_error objs i = Some (tb_name bus, o) /\ silent o "parent" /\ (In (go_class o) ["node"; "meter"; "triplex_meter"] \/ load_object o).
Proof using clean reads parses.
  intros bus I V. destruct (@p_frame inv cap ms n kn parses) as (n0 & E0 & _ & (l & ML & VL) & _).
  assert (J : exists bus0, In bus0 (nt_buses n0) /\ tb_name bus0 = tb_name bus).
  { apply (in_map ident) in I. rewrite ML in I. apply in_app_or in I. destruct I as [I | I].
    - apply in_map_iff in I. destruct I as (b0 & Q & I). exists b0. split; [exact I |]. unfold ident in Q. now injection Q as _ Q _ _ _.
    - exfalso. rewrite Forall_forall in VL. pose proof (VL _ I) as X. cbn in X. congruence. }
  destruct J as (bus0 & I0 & Q0). destruct (bus_origin _ _ td E0) as [_ BO]. destruct (proj1 (BO (tb_name bus0) (tb_phase bus0))) as (nd & In' & N & R & _); [exists bus0; auto |].
  apply nodes_in in In'. destruct (@file_turns E sch objs ms (proj1 clean) reads) as (parts & F & S & T).
  destruct (forall2_first _ (forall2_flip S) In') as (m & Im & SM). apply in_concat in Im. destruct Im as (part & Ip & Im). apply In_nth_error in Ip. destruct Ip as (i & Hp).
  apply forall2_nth in F. destruct F as [L F]. destruct (nth_error objs i) as [[name o] |] eqn:Ho; [| apply nth_error_None in Ho; assert (i < List.length parts)%nat by (apply nth_error_Some; congruence); lia].
  pose proof (F _ _ _ Ho Hp) as K. cbn [fst snd] in K. exists i, o.
  assert (X : exists nd', m = MNode nd' /\ dn_name nd' = dn_name nd /\ dn_parent nd' = dn_parent nd).
  { destruct SM as [-> | (x & y & -> & Qy & S1 & S2 & S3 & S4 & S5 & S6 & S7)]; [exists nd; auto |]. injection Qy as <-. exists x. auto. }
  destruct X as (nd' & -> & X1 & X2). destruct R as [R _]. rewrite R in X2.
  inversion K as [C1 | d par L1 SP LM | d n1 ps L1 SI LM NP NL | n1 par C1 NLo T1 CS NL | n1 ps b par C1 T1 P BT NL V1 | x C1 Q EN P | l1 C1 F1 EN P FL ST | l1 C1 F1 SW EN P | l1 C1 F1 SW EN | c C1 M | r C1 EN];
    subst part; cbn [In] in Im; try (exfalso; intuition discriminate).
  - assert (n1 = nd') as -> by (destruct Im as [Im | [Im | []]]; [discriminate Im | now injection Im]). destruct NL as (N1 & _).
    split; [congruence |]. split; [exact SI | now right].
  - assert (n1 = nd') as -> by (destruct Im as [Im | []]; now injection Im). destruct NL as (N1 & _ & _ & N4 & _). split; [congruence |].
    split; [destruct T1 as [[T1 _] | (t & _ & T1)]; [exact T1 | congruence] |]. left. rewrite C1. cbn. tauto.
  - assert (n1 = nd') as -> by (destruct Im as [Im | []]; now injection Im). destruct NL as (N1 & _ & _ & N4 & _). split; [congruence |].
    split; [destruct T1 as [[T1 _] | (t & _ & T1)]; [exact T1 | congruence] |]. left. destruct C1 as [-> | ->]; cbn; tauto.
Qed.
Lemma file_buses_differ : NoDup (map (fun b => (tb_name b, tb_phase b)) (filter (fun b => negb (tb_virtual b)) (nt_buses n))).
Proof using clean reads parses.
  destruct (@p_frame inv cap ms n kn parses) as (n0 & E0 & _ & (l & ML & VL) & _). destruct (bus_origin _ _ td E0) as [ND _].
  assert (V0 : Forall (fun b => tb_virtual b = false) (nt_buses n0)).
  { destruct (create_buses_inv _ _ td E0) as [st IV]. eapply Forall_impl; [| exact (i_bus _ _ _ IV)]. intros b H. exact (proj1 H). }
  set (nm := fun i : nat * string * string * bool * R => (snd (fst (fst (fst i))), snd (fst (fst i)))).
  assert (G : forall bs, map (fun b => (tb_name b, tb_phase b)) (filter (fun b => negb (tb_virtual b)) bs) = map nm (filter (fun i => negb (snd (fst i))) (map ident bs))).
  { induction bs as [| b bs IH]; [reflexivity |]. cbn [map filter]. change (snd (fst (ident b))) with (tb_virtual b). destruct (tb_virtual b); cbn [negb map]; [exact IH |]. now rewrite IH. }
  rewrite G, ML, filter_app, map_app. clear ML.
  assert (L0 : filter (fun i : nat * string * string * bool * R => negb (snd (fst i))) l = []).
  { induction l as [| x l IH]; [reflexivity |]. inversion VL as [| ? ? X Y]; subst. cbn [filter]. rewrite X. cbn. now apply IH. }
  rewrite L0, app_nil_r, <- G. rewrite filter_every; [exact ND |]. eapply Forall_impl; [| exact V0]. intros b ->. reflexivity.
Qed.

(** *** sources *)
Definition swings (m : dmodel) : list (dnode * string) :=
  match m with MNode nd => if dn_source nd then map (pair nd) (known_phases nd) else [] | _ => [] end.
Lemma swing_models : forall l, swing_phases l = flat_map swings l.
Proof. unfold swing_phases. induction l as [| m l IH]; [reflexivity |]. destruct m; cbn [nodes_of flat_map swings]; try exact IH. now rewrite IH. Qed.
Lemma known_all : forall nd, Forall known (dn_phases nd) -> known_phases nd = dn_phases nd.
Proof.
  intros nd. unfold known_phases. induction (dn_phases nd) as [| p ps IH]; intros F; [reflexivity |]. inversion F as [| ? ? K F']; subst. cbn [filter].
  change (ThreePhase.mem p ["A"; "B"; "C"; "1"; "2"]) with (knownb p). rewrite (proj2 (knownb_spec p) K). now rewrite IH.
Qed.
Lemma file_sources : grouped objs (fun o => (go_class o = "node" \/ go_class o = "meter") /\ says o "bustype" "SWING") (fun i name o g => source_group E objs n i name o g) (nt_slack n).
Proof using clean reads parses.
  destruct (@file_turns E sch objs ms (proj1 clean) reads) as (parts & F & S & _).
  destruct frame_leads as (n0 & E0 & SL & FR). pose proof (slack_list _ _ td E0) as PF. rewrite swing_models, <- SL in PF. clear SL.
  assert (SF : forall a b, Forall2 same_model a b -> flat_map swings a = flat_map swings b).
  { intros a b FF. induction FF as [| x y a b SM FF IH]; [reflexivity |]. cbn [flat_map]. rewrite IH. f_equal. destruct SM as [-> | (u & v & -> & -> & S1 & S2 & _)]; [reflexivity |]. cbn [swings]. now rewrite S1, S2. }
  rewrite <- (SF _ _ S) in PF. clear SF. apply regroup in PF. destruct PF as (gs & -> & G). pose proof F as FF. apply forall2_nth in FF. destruct FF as [L FF]. apply forall2_nth in G. destruct G as [LG G].
  exists gs. split; [reflexivity |]. split; [congruence |]. intros i name o g Ho Hg.
  destruct (nth_error parts i) as [part |] eqn:Hp; [| apply nth_error_None in Hp; assert (i < List.length objs)%nat by (apply nth_error_Some; congruence); lia].
  pose proof (FF _ _ _ Ho Hp) as K. pose proof (G _ _ _ Hg Hp) as H. cbn [fst snd] in K. clear FF G L LG.
  inversion K as [C1 | d par L1 SP LM | d n1 ps L1 SI LM NP NL | n1 par C1 NLo T1 CS NL | n1 ps b par C1 T1 P BT NL V1 | x C1 Q EN P | l1 C1 F1 EN P FL ST | l1 C1 F1 SW EN P | l1 C1 F1 SW EN | c C1 M | r C1 EN];
    subst part; cbn [flat_map swings List.app] in H; (split; [intros [C BS] | intros NC]); try (exact (nil_group H)); try (exfalso; clear H Hp; classes K).
  - destruct NL as (_ & _ & N3 & _). rewrite N3 in H. exact (nil_group H).
  - destruct NL as (_ & _ & N3 & _). rewrite N3 in H. exact (nil_group H).
  - intros core PC. destruct NL as (N1 & N2 & N3 & N4 & N5). rewrite N3, (proj2 BT BS), app_nil_r in H.
    pose proof (@letters_known name o core (nth_error_In _ _ Ho) (@plain_class o C) PC) as KL. destruct (P core PC) as [_ PP]. rewrite known_all, N2, PP in H; [| rewrite N2, PP; exact KL].
    assert (I : In (MNode n1) ms).
    { assert (I : In (MNode n1) (concat parts)) by (apply in_concat; exists [MNode n1]; split; [exact (nth_error_In _ _ Hp) | now left]).
      destruct (forall2_first _ S I) as (m' & Im & [<- | (u & v & Qu & _ & S1 & _)]); [exact Im |]. injection Qu as <-. rewrite (proj2 BT BS) in N3. congruence. }
    assert (NV : node_voltage E objs i name o n1) by (eapply nodes_voltage; [exact (proj1 clean) | exact reads | exact Ho | exact I | exact N1]).
    apply forall2_map, forall2_flip in H. cbn [fst snd] in H. clear - H KL N1 N3 N4 N5 T1 BT V1 NV FR.
    induction H as [| p sk ps g [M1 M2] H IH]; [constructor |]. inversion KL as [| ? ? K KL']; subst. constructor; [| now apply IH]. split.
    + apply FR; [exact K |]. apply M2. destruct (dn_parent n1) as [u |] eqn:DP; [right; discriminate | left; now split].
    + intros SI. assert (R : is_root n1) by (split; [exact (told_silent T1 SI) | exact N5]). exact (@point_volts E objs i (dn_name n1) o n1 p (sk_v sk, sk_ang sk) NV V1 BT K (M1 R)).
  - destruct NL as (_ & _ & N3 & _). destruct (dn_source n1) eqn:DS; [| exact (nil_group H)]. exfalso. apply NC. split; [exact C1 |]. apply BT. congruence.
Qed.
End Buses.
