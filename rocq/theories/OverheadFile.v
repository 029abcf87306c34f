(** Overhead and triplex lines, from the file to the store. *)
From Coq Require Import Reals ZArith String Ascii List Bool Lia Lra Arith.
From Verif Require Import PyExc SpecComponents SpecUnbalanced Components UnbalancedLine GlmText SpecGlm GlmBase LineImpedance ThreePhase GlmReader SpecReader ReaderBase ReaderLoadProofs ReaderFrame ReaderStore ReaderFile ReaderFrame2 ReaderVisit SpecLineZ KronProofs CarsonProofs SpacingProofs LineZFinal TriplexProofs SpecReader2 LineFile ReaderKeep ReaderWires ReaderTurns LineProofs.
Import ListNotations.
Local Open Scope string_scope.
Set Implicit Arguments.
Ltac plain := let Z := fresh in intros Z; cbn in Z; repeat (destruct Z as [Z | Z]; [discriminate Z |]); destruct Z.

Lemma Forall2_map_l : forall A B D (h : A -> B) (P : B -> D -> Prop) l m, Forall2 (fun a => P (h a)) l m -> Forall2 P (map h l) m.
Proof. intros A B D h P l m H. induction H; constructor; auto. Qed.
Lemma Forall2_map_r : forall A B D (h : D -> B) (P : A -> B -> Prop) l m, Forall2 (fun a d => P a (h d)) l m -> Forall2 P l (map h m).
Proof. intros A B D h P l m H. induction H; constructor; auto. Qed.
Lemma Forall2_imp : forall A B (P Q : A -> B -> Prop) l m, (forall a b, In a l -> P a b -> Q a b) -> Forall2 P l m -> Forall2 Q l m.
Proof. intros A B P Q l m I H. induction H; constructor; [apply I; [now left | assumption] | apply IHForall2; intros a b Ia; apply I; now right]. Qed.
Lemma Forall2_in_r : forall A B (P : A -> B -> Prop) l m, Forall2 P l m -> forall b, In b m -> exists a, In a l /\ P a b.
Proof. intros A B P l m H. induction H as [| x y l m Pxy H IH]; intros b I; [destruct I |]. destruct I as [<- | I]; [exists x; split; [now left | exact Pxy] |]. destruct (IH b I) as (a & Ia & Pa). exists a. split; [now right | exact Pa]. Qed.
Lemma per_meter_holds : forall r c m f, holds r c m f -> holds r c (per_meter m) (fun i j => to_metre (f i j)).
Proof.
  intros r c m f [L H]. unfold per_meter, scale. apply holds_intro; [now rewrite map_length |].
  intros i row Hn. rewrite nth_error_map in Hn. match type of Hn with option_map _ ?a = _ => destruct a as [row0 |] eqn:E0; [| discriminate] end. injection Hn as <-.
  destruct (@holds_row r c m f row0 i (conj L H) E0) as (_ & Lr & Hr). split; [now rewrite map_length |].
  intros j Hj. rewrite nth_error_map. etransitivity; [exact (f_equal (option_map _) (Hr j Hj)) |]. cbn. unfold to_metre. do 2 f_equal. f_equal; lra.
Qed.

Section Overhead.
Variables (E : prims) (sch : list (string * string)).
(** *** the configuration of an overhead line *)
Lemma oh_wires : forall objs pre o o1 s s' ps r g D z, state (usedb objs pre) objs (r_objs s) -> untouched_before objs (r_objs s) -> all_kept objs (r_objs s) ->
  rwl o o1 -> oh_config E o1 s = Ok s' -> overhead_data E objs pre o ps r g D -> phase_z ps r g D z ->
  exists ws d Dn, r_conds s' = Some ws /\ r_dist s' = Some d /\ wired ws (strip_dist d) Dn /\ primitive ws Dn z /\
    Forall2 (fun p w => w_phase w = p /\ amps E objs o p (w_emerg w)) ps ws.
Proof.
  intros objs pre o o1 s s' ps r g D z S UB AK R H (c & so & m & (cn & Scn & Ncn) & CO & (sn & Ssn & Nsn) & CD & PL & GP) (Z1 & Z2 & Z3).
  unfold oh_config in H. rewrite (@says_rwl o o1 "configuration" cn R ltac:(plain) Scn) in H. apply named_dget in Ncn, Nsn.
  destruct (UB _ _ Ncn) as (c1 & Dc1 & Rc). unfold obj_at in H at 1. rewrite Dc1 in H. cbn [pbind] in H. inv H. destruct x as [objs2 ws].
  unfold fill_all in Hx. change ["A"; "B"; "C"; "N"] with line_phases in Hx. rewrite (@wires_rwl c c1 line_phases Rc (or_introl (incl_refl _))) in Hx.
  rewrite (@says_rwl c c1 "spacing" sn Rc ltac:(plain) Ssn) in H. inv H. inv H. injection H as <-. cbn [set_vars r_conds r_dist].
  pose proof (conductors_filter CO) as PS. pose proof (wires_for_phases c line_phases) as WP. rewrite <- PS in WP.
  destruct (@fill_state E (wires_for c line_phases) (usedb objs pre) objs (r_objs s) [] objs2 ws (new_wires c line_phases) S Hx) as (_ & t & Qt & PT & V).
  cbn [List.app] in Qt. subst t. rewrite WP in PT.
  assert (INCL : incl ps line_phases) by (rewrite PS; intros p Ip; apply filter_In in Ip; tauto).
  assert (ND : NoDup ps). { rewrite PS. apply NoDup_filter. unfold line_phases. repeat constructor; cbn; intuition discriminate. }
  assert (VAL : forall i w, nth_error ws i = Some w -> In (w_phase w) ps /\ w_res w = Some (r (w_phase w)) /\ w_gmr w = Some (g (w_phase w)) /\ (0 < g (w_phase w))%R).
  { intros i w Hw. assert (Hp : nth_error ps i = Some (w_phase w)) by (rewrite <- PT, nth_error_map, Hw; reflexivity).
    assert (Ip : In (w_phase w) ps) by (eapply nth_error_In; eauto). rewrite <- WP, nth_error_map in Hp.
    destruct (nth_error (wires_for c line_phases) i) as [cw |] eqn:Hc; [| discriminate]. injection Hp as Hp.
    destruct (wires_for_in _ _ _ (nth_error_In _ _ Hc)) as (_ & Gc & _).
    destruct (CD _ Ip) as (n & cd & Sn & Nn & Mr & Mg & Pos). apply gattr_says in Sn. rewrite <- Hp, Gc in Sn. injection Sn as <-.
    apply named_dget in Nn. destruct (V i cw w cd Hc Hw Nn) as [V1 V2]. pose proof (used_match objs pre c i Hc) as UM. rewrite Hp in UM.
    split; [exact Ip |]. rewrite V1, V2. split; [eapply measured_ohm; eauto |]. split; [eapply measured_cm; eauto | exact Pos]. }
  assert (IN : forall w, In w ws -> In (w_phase w) ps /\ w_res w = Some (r (w_phase w)) /\ w_gmr w = Some (g (w_phase w)) /\ (0 < g (w_phase w))%R).
  { intros w Iw. apply In_nth_error in Iw. destruct Iw as (i & Hi). eauto. }
  apply obj_at_dget in Hx0.
  assert (Rs : rwl so x).
  { destruct (UB _ _ Nsn) as (so1 & Ds1 & Rs1). apply fill_rw in Hx; [| apply oh_wire_rw]. cbn [fst] in Hx. destruct (all_rw_dget _ Hx Ds1) as (so2 & Ds2 & Rs2).
    assert (so2 = x) as -> by congruence. eapply rwl_trans; [exact Rs1 | now apply rw_rwl]. }
  destruct x0 as [so' d]. cbn [snd].
  destruct (@spacing_right E x (map w_phase ws) so' d ws m Hx1) as (Dn & W & G).
  - rewrite PT. eapply places_rwl; [exact Rs | exact PL].
  - rewrite PT. exact INCL.
  - intros w rr gg Iw _ Q. destruct (IN w Iw) as (_ & A & B & P). congruence.
  - intros v w Iv Iw N. destruct (GP _ _ (proj1 (IN v Iv)) (proj1 (IN w Iw)) N) as [Ga Po]. exists (D (w_phase v) (w_phase w)). split; [| exact Po].
    now apply (gap_rwl E _ _ _ Rs).
  - exists ws, d, Dn. split; [reflexivity |]. split; [reflexivity |]. split; [exact W |]. split; [split; [| split] |].
    + intros i w Hw. destruct (VAL i w Hw) as (Ip & A & B & _). left. exists (r (w_phase w)), (g (w_phase w)). split; [exact A |]. split; [exact B |]. now apply Z1.
    + intros i j v w Hv Hw N. assert (NE : w_phase v <> w_phase w).
      { intros Q. apply N. rewrite <- PT in ND. eapply NoDup_nth_error; [exact ND | |].
        - rewrite map_length. apply nth_error_Some. congruence.
        - rewrite !nth_error_map, Hv, Hw. cbn. congruence. }
      destruct (VAL i v Hv) as (Iv & _). destruct (VAL j w Hw) as (Iw & _). rewrite (Z2 _ _ Iv Iw NE). f_equal.
      pose proof (proj1 (GP _ _ Iv Iw NE)) as GG. apply (@gap_rwl E so x _ _ _ Rs) in GG. exact (gap_fun GG (G i j v w Hv Hw N)).
    + intros p q Np. rewrite PT in Np. now apply Z3.
    + assert (A : Forall2 (fun cw w => w_phase w = w_phase (snd cw) /\ exists n cd, says c ("conductor_" ++ w_phase (snd cw)) n /\ named objs n cd /\
        opt_number E cd "rating.summer.emergency" (w_emerg w)) (wires_for c line_phases) ws).
      { eapply (@fill_amps E (oh_wire E) (@oh_wire_rw E)); [| exact UB | exact AK | | exact Hx].
        - intros p d0 i c0 r0 Hf. unfold oh_wire in Hf. do 5 inv Hf. injection Hf as <-. cbn [snd w_phase w_emerg insulate new_wire]. split; [reflexivity |].
          apply fattr_opt in Hx6. unfold or_else. destruct x4; exact Hx6.
        - intros cw I. destruct (wires_for_in _ _ _ I) as (_ & Gc & Qc). exists None, None. split; [rewrite Qc; reflexivity | now apply gattr_says]. }
      rewrite <- WP. apply Forall2_map_l. eapply Forall2_imp; [| exact A]. intros cw w I (Q & n & cd & Sn & Nn & O). split; [exact Q |].
      exists c, n, cd. split; [exists cn; split; [exact Scn | now apply named_dget] |]. auto.
Qed.
(** *** the turn of a line *)
Definition line_entry (name : string) (o1 : gobj) (s1 s2 : rstate) (cls : string) : Prop :=
  exists ps pi, gattr o1 "phases" = Some ps /\ parse_phases ps = Ok pi /\
    ((cls = "overhead_line" -> read_overhead E name o1 pi s1 = Ok s2) /\ (cls = "triplex_line" -> read_triplex_line E name o1 s1 = Ok s2) /\
     (cls = "underground_line" -> read_underground E name o1 pi s1 = Ok s2)).
Lemma line_turn : forall s1 s2 name o1 cls, read_object E sch s1 name = Ok s2 -> dget name (r_objs s1) = Some o1 -> go_class o1 = cls -> In cls line_classes ->
  line_entry name o1 s1 s2 cls.
Proof.
  intros s1 s2 name o1 cls H D C I. unfold read_object in H. inv H. apply obj_at_dget in Hx. assert (x = o1) as -> by congruence.
  unfold class_of in H. rewrite C in H. cbn in I. unfold line_entry.
  destruct I as [<- | [<- | [<- | []]]]; cbn [GlmText.mem existsb shared_config_objects String.eqb Ascii.eqb Bool.eqb orb andb] in H; cbv zeta in H; do 2 inv H;
    cbn [String.eqb Ascii.eqb Bool.eqb orb] in H; apply attr_ok in Hx0; exists x, x0; (split; [exact Hx0 |]); (split; [exact Hx1 |]);
    (split; [| split]); intros Q; first [exact H | discriminate Q].
Qed.
Lemma set_length_state : forall objs U name o1 s1 r, state U objs (r_objs s1) -> dget name (r_objs s1) = Some o1 -> line_length E o1 = Ok r ->
  state U objs (r_objs (set_length name (fst r) s1)).
Proof. intros objs U name o1 s1 r S D L. exact (state_keep S (length_keep E name s1 D L)). Qed.
Lemma set_length_untouched : forall objs name o1 s1 r, untouched_before objs (r_objs s1) -> dget name (r_objs s1) = Some o1 -> line_length E o1 = Ok r ->
  untouched_before objs (r_objs (set_length name (fst r) s1)).
Proof.
  intros objs name o1 s1 r UB D L m om Dm. destruct (UB _ _ Dm) as (om1 & Dm1 & Rm). cbn. rewrite dget_dset. destruct (String.eqb_spec m name) as [-> | _]; [| eauto].
  assert (om1 = o1) as -> by congruence. exists (fst r). split; [reflexivity | eapply rwl_trans; [exact Rm | eapply length_rwl; eauto]].
Qed.
Lemma set_length_kept : forall objs name o1 s1 r, all_kept objs (r_objs s1) -> dget name (r_objs s1) = Some o1 -> line_length E o1 = Ok r ->
  all_kept objs (r_objs (set_length name (fst r) s1)).
Proof. intros objs name o1 s1 r A D L. eapply all_kept_trans; [exact A |]. cbn. eapply all_kept_dset; [exact D | eapply length_kept; eauto]. Qed.
Lemma rw_core : forall o o1 core, rw o o1 -> phase_core o core -> phase_core o1 core.
Proof.
  intros o o1 core R (t & S & W). exists t. split; [| exact W]. apply gattr_says. apply rw_rwl in R. apply (says_rwl R); [plain | exact S].
Qed.
Lemma config_store : forall o s s', oh_config E o s = Ok s' \/ tp_config E o s = Ok s' \/ ug_config E o s = Ok s' -> r_store s' = r_store s.
Proof. intros o s s' [H | [H | H]]; [apply oh_config_rw in H | apply tp_config_rw in H | apply ug_config_rw in H]; tauto. Qed.
Lemma overhead_part : forall objs pre name o part s1 s2 o1, NoDup (map fst objs) -> incl pre objs -> at_turn E sch objs pre name o part s1 s2 o1 ->
  go_class o = "overhead_line" -> overhead_ok E objs pre o part.
Proof.
  intros objs pre name o part s1 s2 o1 ND IP (H1 & H2 & D1 & R & UB & AK & SS) C core ps r g D z neutral PC OD PZ NE INV.
  assert (C1 : go_class o1 = "overhead_line") by (destruct R as [Q _]; congruence).
  destruct (@line_turn s1 s2 name o1 "overhead_line" H2 D1 C1 ltac:(cbn; tauto)) as (pt & pi & Gp & Pp & (RO & _ & _)). specialize (RO eq_refl).
  pose proof (@core_letters o1 pt pi Gp Pp core (rw_core R PC)) as PK. destruct PK as (P1 & P2 & _).
  assert (Q : pi_neutral pi = neutral). { destruct neutral, (pi_neutral pi); intuition congruence. }
  unfold read_overhead in RO. do 3 inv RO. unfold bound in Hx1. 
  pose proof (@loop_state E sch objs (@nodup_dget objs ND) pre s1 IP H1) as S1.
  destruct (@oh_wires objs pre o o1 (set_length name (fst x) s1) x0 ps r g D z (@set_length_state objs (usedb objs pre) name o1 s1 x S1 D1 Hx) (@set_length_untouched objs name o1 s1 x UB D1 Hx) (@set_length_kept objs name o1 s1 x AK D1 Hx)
    (rw_rwl R) Hx0 OD PZ) as (ws & d & Dn & Qw & Qd & W & P & A).
  rewrite Qw in Hx1. injection Hx1 as <-. inv RO. inv RO. rewrite direct_never in Hx2 by (left; reflexivity). injection Hx2 as <-.
  inv RO. rewrite Qd in Hx2. cbn [bound pbind] in Hx2. rewrite P1, Q in Hx2.
  destruct (@overhead_carson E ws (strip_dist d) Dn z (phase_letters core) neutral W P INV) as (mz & Qz & HZ). rewrite Qz in Hx2. injection Hx2 as <-.
  do 2 inv RO. injection RO as <-. cbn [GlmReader.append with_store r_store set_vars] in SS. rewrite (@config_store o1 (set_length name (fst x) s1) x0 (or_introl Hx0)) in SS. cbn [set_length set_objs r_store] in SS.
  apply part_one in SS; [| discriminate]. eexists. split; [exact SS |]. cbn [dl_wires dl_z]. split; [| now apply per_meter_holds].
  unfold closed_wires, line_wires. rewrite map_map. apply Forall2_map_r. eapply Forall2_imp; [| exact A]. intros p w _ [Qp Ap]. cbn. auto.
Qed.
(** *** lengths *)
Lemma length_part : forall objs pre name o part s1 s2 o1, at_turn E sch objs pre name o part s1 s2 o1 -> In (go_class o) line_classes -> length_ok E o part.
Proof.
  intros objs pre name o part s1 s2 o1 (H1 & H2 & D1 & R & UB & AK & SS) C.
  assert (C1 : go_class o1 = go_class o) by (destruct R as [Q _]; congruence).
  destruct (@line_turn s1 s2 name o1 (go_class o) H2 D1 C1 C) as (pt & pi & Gp & Pp & (RO & RT & RU)).
  assert (K : exists len l, line_length E o1 = Ok len /\ r_store s2 = (r_store s1 ++ [MLine l])%list /\ dl_len l = snd len).
  { cbn in C. destruct C as [C | [C | [C | []]]]; symmetry in C.
    - specialize (RO C). unfold read_overhead in RO. do 8 inv RO. injection RO as <-. exists x. eexists. split; [exact Hx |]. cbn [GlmReader.append with_store r_store set_vars].
      rewrite (@config_store o1 (set_length name (fst x) s1) x0 (or_introl Hx0)). split; reflexivity.
    - specialize (RT C). unfold read_triplex_line in RT. do 6 inv RT. injection RT as <-. exists x. eexists. split; [exact Hx |]. cbn [GlmReader.append with_store r_store set_vars].
      rewrite (@config_store o1 (set_length name (fst x) s1) x0 (or_intror (or_introl Hx0))). split; reflexivity.
    - specialize (RU C). unfold read_underground in RU. do 8 inv RU. injection RU as <-. exists x. eexists. split; [exact Hx |]. cbn [GlmReader.append with_store r_store set_vars].
      rewrite (@config_store o1 (set_length name (fst x) s1) x0 (or_intror (or_intror Hx0))). split; reflexivity. }
  destruct K as (len & l & L & St & Q). rewrite St in SS. apply part_one in SS; [| discriminate]. exists l. split; [exact SS |]. rewrite Q.
  eapply rw_metres; [exact R | now apply length_metres].
Qed.
(** *** triplex lines *)
Lemma set_last_app : forall f a x, set_last f (a ++ [x])%list = (a ++ [(fst x, f (snd x))])%list.
Proof. intros f a [k w]. unfold set_last. rewrite rev_app_distr. cbn. now rewrite rev_involutive. Qed.
Lemma tp_wires : forall objs o o1 s s' ps r g d12 d1n z, untouched_before objs (r_objs s) -> all_kept objs (r_objs s) ->
  rwl o o1 -> tp_config E o1 s = Ok s' -> triplex_data E objs o ps r g d12 d1n ->
  phase_z ps r g (fun p q => if (String.eqb p "N" || String.eqb q "N")%bool then d1n else d12) z ->
  exists ws, r_conds s' = Some ws /\ triplex_wired ws /\ insulated ws d12 d1n /\ triplex_primitive ws d12 d1n z /\
    Forall2 (fun p w => w_phase w = p /\ amps E objs o p (w_emerg w)) ps ws.
Proof.
  intros objs o o1 s s' ps r g d12 d1n z UB AK R H (c & d & t & (cn & Scn & Ncn) & CO & NE & (td & Sd & Fd) & (tt & St & Ft) & Pd & Pt & Q12 & Q1n & CD) (Z1 & Z2 & Z3).
  unfold tp_config in H. rewrite (@says_rwl o o1 "configuration" cn R ltac:(plain) Scn) in H. apply named_dget in Ncn.
  destruct (UB _ _ Ncn) as (c1 & Dc1 & Rc). unfold obj_at in H at 1. rewrite Dc1 in H. cbn [pbind] in H. unfold fattr, fl in H.
  rewrite (@says_rwl c c1 "insulation_thickness" tt Rc ltac:(plain) St), (@says_rwl c c1 "diameter" td Rc ltac:(plain) Sd), Fd, Ft in H. cbn [pbind] in H.
  inv H. injection H as <-. destruct x as [objs2 ws]. cbn [set_vars r_conds fst snd]. unfold fill_all in Hx. change ["1"; "2"; "N"] with triplex_phases in Hx.
  rewrite (@wires_rwl c c1 triplex_phases Rc (or_intror (incl_refl _))) in Hx.
  pose proof (conductors_filter CO) as PS. pose proof (wires_for_phases c triplex_phases) as WP. rewrite <- PS in WP.
  assert (INCL : incl ps triplex_phases) by (rewrite PS; intros p Ip; apply filter_In in Ip; tauto).
  assert (ND : NoDup ps). { rewrite PS. apply NoDup_filter. unfold triplex_phases. repeat constructor; cbn; intuition discriminate. }
  destruct (@exists_last _ (wires_for c triplex_phases)) as (a & x & Qa); [intros X; rewrite X in WP; now apply NE |].
  set (f := insulate (Some t) (Some d)) in *. rewrite Qa, set_last_app in Hx. set (cws := (a ++ [(fst x, f (snd x))])%list) in *.
  assert (CW : forall cw, In cw cws -> In (w_phase (snd cw)) ps /\ says c ("conductor_" ++ w_phase (snd cw)) (fst cw) /\
    exists di i, snd cw = insulate i di (new_wire (w_phase (snd cw)))).
  { assert (B : forall cw, In cw (wires_for c triplex_phases) -> In (w_phase (snd cw)) ps /\ says c ("conductor_" ++ w_phase (snd cw)) (fst cw) /\ snd cw = new_wire (w_phase (snd cw))).
    { intros cw I. destruct (wires_for_in _ _ _ I) as (_ & G & Q). split; [| split; [now apply gattr_says | exact Q]]. rewrite <- WP. apply in_map_iff. exists cw. auto. }
    intros cw I. apply in_app_or in I. destruct I as [I | [<- | []]].
    - destruct (B cw) as (B1 & B2 & B3); [rewrite Qa; apply in_or_app; now left |]. split; [exact B1 |]. split; [exact B2 |]. exists None, None. rewrite B3. reflexivity.
    - destruct (B x) as (B1 & B2 & B3); [rewrite Qa; apply in_or_app; right; now left |]. cbn [fst snd f insulate w_phase]. split; [exact B1 |]. split; [exact B2 |].
      exists (Some d), (Some t). unfold f. rewrite B3. reflexivity. }
  assert (PH : map (fun cw => w_phase (snd cw)) cws = ps). { rewrite <- WP, Qa. unfold cws. rewrite !map_app. reflexivity. }
  set (P := fun (cw : string * wire) (c1 : gobj) => bare E c1 "resistance" "Ohm/km" (r (w_phase (snd cw))) /\ bare E c1 "geometric_mean_radius" "cm" (g (w_phase (snd cw)))).
  set (QW := fun (cw : string * wire) w => w_phase w = w_phase (snd cw) /\ w_res w = Some (r (w_phase (snd cw))) /\ w_gmr w = Some (g (w_phase (snd cw))) /\
    w_diam w = w_diam (snd cw) /\ w_ins w = w_ins (snd cw)).
  assert (F : Forall2 QW cws ws).
  { destruct (@fill_ok (tp_wire E) QW P (@tp_wire_rw E)) with (cws := cws) (objs := r_objs s) (ws0 := @nil wire) (objs' := objs2) (ws' := ws) as (t' & -> & T); [| | | exact Hx | exact T].
    - intros cw b b' (P1 & P2) W. apply rw_rwl in W. split; eapply rwl_bare; eauto; discriminate.
    - intros cw b r' (P1 & P2) Hf. destruct (@tp_wire_bare E _ _ _ _ _ Hf P1 P2) as (A1 & A2 & A3 & A4 & A5). repeat split; assumption.
    - intros cw I. destruct (CW cw I) as (Ip & Sc & _). destruct (CD _ Ip) as (cd & (n & Sn & Nn) & B1 & B2 & _). apply gattr_says in Sc, Sn. assert (n = fst cw) as -> by congruence.
      apply named_dget in Nn. destruct (UB _ _ Nn) as (cd1 & Dd1 & Rd). exists cd1. split; [exact Dd1 |]. split; eapply rwl_bare; eauto; discriminate. }
  assert (IN : forall w, In w ws -> In (w_phase w) ps /\ w_res w = Some (r (w_phase w)) /\ w_gmr w = Some (g (w_phase w))).
  { intros w I. apply (Forall2_in_r F) in I. destruct I as (cw & I & (A1 & A2 & A3 & _)). rewrite A1. split; [now apply CW |]. auto. }
  assert (PT : map w_phase ws = ps). { rewrite <- PH. clear - F. induction F as [| cw w l m (A & _) F IH]; [reflexivity |]. cbn. now rewrite A, IH. }
  exists ws. split; [reflexivity |]. split; [| split; [| split]].
  - split; [now rewrite PT |]. split; [now rewrite PT |]. intros w rr gg I _ Q. destruct (IN w I) as (Ip & A2 & A3). destruct (CD _ Ip) as (cd & _ & _ & _ & Pg). congruence.
  - unfold cws in F. apply Forall2_app_inv_l in F. destruct F as (wa & wb & Fa & Fb & ->). inversion Fb as [| ? w ? wr (_ & _ & _ & A4 & A5) Fr]. subst. inversion Fr. subst.
    cbn [snd f insulate w_diam w_ins or_else] in A4, A5. exists wa, w, [], d, t. split; [reflexivity |]. split; [| repeat split; auto].
    intros v I. left. apply (Forall2_in_r Fa) in I. destruct I as (cw & I & (_ & _ & _ & A & _)). rewrite A.
    assert (I' : In cw (wires_for c triplex_phases)) by (rewrite Qa; apply in_or_app; now left). destruct (wires_for_in _ _ _ I') as (_ & _ & Q). rewrite Q. reflexivity.
  - split; [| split].
    + intros w I. destruct (IN w I) as (Ip & A2 & A3). left. exists (r (w_phase w)), (g (w_phase w)). split; [exact A2 |]. split; [exact A3 | now apply Z1].
    + intros v w Iv Iw N. destruct (IN v Iv) as (Ipv & _). destruct (IN w Iw) as (Ipw & _). rewrite (Z2 _ _ Ipv Ipw N).
      destruct (String.eqb_spec (w_phase v) "N"), (String.eqb_spec (w_phase w) "N"); cbn [orb]; split; intros; try reflexivity; tauto.
    + intros p q Np. rewrite PT in Np. now apply Z3.
  - assert (A : Forall2 (fun cw w => w_phase w = w_phase (snd cw) /\ exists n cd, says c ("conductor_" ++ w_phase (snd cw)) n /\ named objs n cd /\
      opt_number E cd "rating.summer.emergency" (w_emerg w)) cws ws).
    { eapply (@fill_amps E (tp_wire E) (@tp_wire_rw E)); [| exact UB | exact AK | | exact Hx].
      - intros p d0 i c0 r0 Hf. unfold tp_wire in Hf. do 4 inv Hf. injection Hf as <-. cbn [snd w_phase w_emerg insulate new_wire]. split; [reflexivity |].
        apply fattr_opt in Hx3. unfold or_else. destruct x3; exact Hx3.
      - intros cw I. destruct (CW cw I) as (_ & Sc & di & i & Q). eauto. }
    rewrite <- PH. apply Forall2_map_l. eapply Forall2_imp; [| exact A]. intros cw w I (Q & n & cd & Sn & Nn & O). split; [exact Q |].
    exists c, n, cd. split; [exists cn; split; [exact Scn | now apply named_dget] |]. auto.
Qed.
Lemma triplex_part : forall objs pre name o part s1 s2 o1, at_turn E sch objs pre name o part s1 s2 o1 ->
  go_class o = "triplex_line" -> triplex_ok E objs o part.
Proof.
  intros objs pre name o part s1 s2 o1 (H1 & H2 & D1 & R & UB & AK & SS) C ps r g d12 d1n z TD PZ INV.
  assert (C1 : go_class o1 = "triplex_line") by (destruct R as [Q _]; congruence).
  destruct (@line_turn s1 s2 name o1 "triplex_line" H2 D1 C1 ltac:(cbn; tauto)) as (pt & pi & Gp & Pp & (_ & RT & _)). specialize (RT eq_refl).
  unfold read_triplex_line in RT. do 3 inv RT.
  destruct (@tp_wires objs o o1 (set_length name (fst x) s1) x0 ps r g d12 d1n z (@set_length_untouched objs name o1 s1 x UB D1 Hx) (@set_length_kept objs name o1 s1 x AK D1 Hx)
    (rw_rwl R) Hx0 TD PZ) as (ws & Qw & W & I & P & A).
  rewrite Qw in Hx1. injection Hx1 as <-. inv RT. inv RT. rewrite direct_never in Hx2 by (left; reflexivity). injection Hx2 as <-. inv RT.
  destruct (@triplex_carson E ws d12 d1n z W I P INV) as (mz & Qz & HZ). rewrite Qz in Hx2. injection Hx2 as <-. injection RT as <-.
  cbn [GlmReader.append with_store r_store] in SS. rewrite (@config_store o1 (set_length name (fst x) s1) x0 (or_intror (or_introl Hx0))) in SS. cbn [set_length set_objs r_store] in SS.
  apply part_one in SS; [| discriminate]. eexists. split; [exact SS |]. cbn [dl_wires dl_z]. split; [| now apply per_meter_holds].
  unfold closed_wires, line_wires. apply Forall2_map_r. eapply Forall2_imp; [| exact A]. intros p w _ [Qp Ap]. cbn. auto.
Qed.
(** *** the file *)
Lemma file_lines : forall objs ms, NoDup (map fst objs) -> read_store E sch objs = Ok ms ->
  exists parts, Forall2 (fun no part => contributes E sch (fst no) (snd no) part) objs parts /\ Forall2 same_model (concat parts) ms /\
    forall i name o part, nth_error objs i = Some (name, o) -> nth_error parts i = Some part ->
      (In (go_class o) line_classes -> length_ok E o part) /\
      (go_class o = "overhead_line" -> overhead_ok E objs (firstn i objs) o part) /\
      (go_class o = "triplex_line" -> triplex_ok E objs o part).
Proof.
  intros objs ms ND H. destruct (@file_turns E sch objs ms ND H) as (parts & F & S & T). exists parts. split; [exact F |]. split; [exact S |].
  intros i name o part Ho Hp. destruct (T i name o Ho) as (part' & t1 & t2 & o1 & Hp' & A). assert (part' = part) as -> by congruence.
  split; [intros C; eapply length_part; eauto |]. split; [| intros C; eapply triplex_part; eauto].
  intros C. eapply overhead_part; [exact ND | | exact A | exact C]. intros a Ha. rewrite <- (firstn_skipn i objs). apply in_or_app. now left.
Qed.
End Overhead.
