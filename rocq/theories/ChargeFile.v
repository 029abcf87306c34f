(** The charging of overhead lines, from the file to the store. *)
From Coq Require Import Reals ZArith String Ascii List Bool Lia Lra Arith.
From Verif Require Import PyExc SpecComponents SpecUnbalanced Components UnbalancedLine GlmText SpecGlm GlmBase LineImpedance ThreePhase GlmReader SpecReader ReaderBase ReaderLoadProofs ReaderFrame ReaderStore ReaderFile ReaderFrame2 ReaderVisit SpecLineZ KronProofs CarsonProofs SpacingProofs LineZFinal SpecReader2 LineFile ReaderKeep ReaderWires ReaderTurns LineProofs OverheadFile Cables SpecCables ShuntProofs ChargeProofs RingProofs CableZProofs CableFinal CableWires CableFile SpecChargeFile.
Import ListNotations.
Local Open Scope string_scope.
Set Implicit Arguments.
Ltac plain := let Z := fresh in intros Z; cbn in Z; repeat (destruct Z as [Z | Z]; [discriminate Z |]); destruct Z.

Section Wires.
Variable E : prims.
Definition diam_of (cd : gobj) (w : wire) : Prop := exists a, opt_number E cd "diameter" a /\ w_diam w = Some (diameter a).
Lemma oh_wire_diam : forall p c r, oh_wire E (new_wire p) c = Ok r -> w_phase (snd r) = p /\ diam_of c (snd r).
Proof.
  intros p c r Hf. unfold oh_wire in Hf. do 5 inv Hf. injection Hf as <-. cbn [snd w_phase w_diam new_wire]. split; [reflexivity |].
  apply fattr_opt in Hx. exists x. split; [exact Hx |]. unfold or_else, diameter. now destruct x.
Qed.
Lemma opt_fun : forall o k x y, opt_number E o k x -> opt_number E o k y -> x = y.
Proof.
  intros o k x y [[S ->] | (a & (t & T & F) & ->)] [[S' ->] | (b & (t' & T' & F') & ->)]; try reflexivity.
  - apply gattr_silent in S. apply gattr_says in T'. congruence.
  - apply gattr_silent in S'. apply gattr_says in T. congruence.
  - rewrite (says_fun T T') in F. congruence.
Qed.
Lemma oh_fill_diam : forall objs objs1 cws objs' ws', untouched_before objs objs1 ->
  (forall cw, In cw cws -> snd cw = new_wire (w_phase (snd cw)) /\ exists cd, dget (fst cw) objs = Some cd) ->
  mfold (fill (oh_wire E)) cws (objs1, []) = Ok (objs', ws') ->
  Forall2 (fun cw w => w_phase w = w_phase (snd cw) /\ exists cd, named objs (fst cw) cd /\ diam_of cd w) cws ws'.
Proof.
  intros objs objs1 cws objs' ws' UB New H.
  destruct (@fill_ok (oh_wire E) (fun cw w => w_phase w = w_phase (snd cw) /\ exists cd, named objs (fst cw) cd /\ diam_of cd w)
    (fun cw c1 => exists cd, dget (fst cw) objs = Some cd /\ rwl cd c1 /\ In cw cws) (@oh_wire_rw E)) with (cws := cws) (objs := objs1) (ws0 := @nil wire) (objs' := objs') (ws' := ws') as (t & -> & T).
  - intros cw c1 c2 (cd & D & R & I) R2. exists cd. split; [exact D |]. split; [| exact I]. eapply rwl_trans; [exact R | now apply rw_rwl].
  - intros cw c1 r (cd & D & R & I) Hf. destruct (New cw I) as (Q & _). rewrite Q in Hf. destruct (oh_wire_diam _ _ Hf) as [V1 (a & V2 & V3)]. split; [exact V1 |].
    exists cd. split; [now apply named_dget |]. exists a. split; [| exact V3]. eapply opt_plain; [exact R | plain | exact V2].
  - intros cw I. destruct (New cw I) as (_ & cd & D). destruct (UB _ _ D) as (c1 & D1 & R). exists c1. split; [exact D1 |]. exists cd. auto.
  - exact H.
  - exact T.
Qed.
(** *** the table *)
Lemma gap_at : forall o a b v, (a < 5)%nat -> (b < 5)%nat -> a <> b -> gap E o (spot a) (spot b) v -> at2 (table5 E o) a b = v.
Proof.
  intros o a b v Ha Hb N G. destruct (Nat.lt_ge_cases a b) as [L | L].
  - apply gap_iff in G; [| exact L | exact Hb]. destruct (table_off E o L Hb) as (A & _). cbn zeta in A. now rewrite G in A.
  - assert (L' : (b < a)%nat) by lia. apply gap_sym in G. apply gap_iff in G; [| exact L' | exact Ha]. destruct (table_off E o L' Ha) as (_ & A). cbn zeta in A. now rewrite G in A.
Qed.
Lemma no_gap_at : forall o a, (a < 4)%nat -> (forall x, ~ gap E o (spot a) "E" x) -> at2 (table5 E o) a 4 = (-1)%R.
Proof.
  intros o a Ha N. destruct (@table_off E o a 4 Ha ltac:(lia)) as (A & _). cbn zeta in A. destruct (given E o (a, 4%nat)) as [x |] eqn:G; [| exact A].
  exfalso. apply (N x). apply (@gap_iff E o a 4 x Ha ltac:(lia)). exact G.
Qed.
Lemma placed_at : forall o a, (a < 5)%nat -> placed E o (spot a) -> at2 (table5 E o) a a = 0%R.
Proof. intros o a Ha P. apply placed_iff in P; [| exact Ha]. now rewrite table_diag, P. Qed.
(** heights of one foot *)
Definition one_foot (d : dmat) : dmat := map (fun i => map (fun j => if Nat.eqb j 4 then 1%R else at2 d i j) (seq 0 5)) (seq 0 5).
Lemma one_foot_at : forall d a b, (a < 5)%nat -> (b < 5)%nat -> at2 (one_foot d) a b = if Nat.eqb b 4 then 1%R else at2 d a b.
Proof.
  intros d a b Ha Hb. unfold at2 at 1, one_foot. destruct a as [| [| [| [| [| a]]]]]; try lia; destruct b as [| [| [| [| [| b]]]]]; try lia; reflexivity.
Qed.
Lemma spot_index : forall a p, nth_error spots a = Some p -> (a < 5)%nat /\ spot a = p.
Proof.
  intros a p H. assert (L : (a < List.length spots)%nat) by (apply nth_error_Some; congruence). split; [exact L |]. unfold spot. exact (nth_error_nth _ _ _ H).
Qed.
Lemma phase_index : forall a p, nth_error spots a = Some p -> In p line_phases -> (a < 4)%nat.
Proof.
  intros a p H I. destruct (spot_index _ H) as (L & Q). destruct (Nat.eq_dec a 4) as [-> | N]; [| lia]. cbn in H. injection H as <-. cbn in I. intuition discriminate.
Qed.
Lemma charge_wires : forall objs o o1 s s' ps X h rad, untouched_before objs (r_objs s) -> rwl o o1 -> oh_config E o1 s = Ok s' -> overhead_measures E objs o ps X h rad ->
  exists ws d d', r_conds s' = Some ws /\ r_dist s' = Some d /\ map w_phase ws = ps /\ incl ps line_phases /\ measured X h rad ws d' /\
    (d' = d \/ (forall a b, (a < 4)%nat -> (b < 4)%nat -> at2 d a b = at2 d' a b) /\ (forall a, (a < 4)%nat -> at2 d a 4 = -1 /\ at2 d' a 4 = 1)%R).
Proof.
  intros objs o o1 s s' ps X h rad UB R H (c & so & (cn & Scn & Ncn) & CO & (sn & Ssn & Nsn) & CD & GP & HH & TR).
  unfold oh_config in H. rewrite (@says_rwl o o1 "configuration" cn R ltac:(plain) Scn) in H. apply named_dget in Ncn, Nsn.
  destruct (UB _ _ Ncn) as (c1 & Dc1 & Rc). unfold obj_at in H at 1. rewrite Dc1 in H. cbn [pbind] in H. inv H. destruct x as [objs2 ws].
  unfold fill_all in Hx. change ["A"; "B"; "C"; "N"] with line_phases in Hx. rewrite (@wires_rwl c c1 line_phases Rc (or_introl (incl_refl _))) in Hx.
  rewrite (@says_rwl c c1 "spacing" sn Rc ltac:(plain) Ssn) in H. inv H. inv H. injection H as <-. cbn [set_vars r_conds r_dist].
  pose proof (conductors_filter CO) as PS. pose proof (wires_for_phases c line_phases) as WP. rewrite <- PS in WP.
  assert (INCL : incl ps line_phases) by (rewrite PS; intros p Ip; apply filter_In in Ip; tauto).
  assert (ND : NoDup ps). { rewrite PS. apply NoDup_filter. unfold line_phases. repeat constructor; cbn; intuition discriminate. }
  assert (HC : forall cw, In cw (wires_for c line_phases) -> snd cw = new_wire (w_phase (snd cw)) /\ exists cd, dget (fst cw) objs = Some cd).
  { intros cw I. destruct (wires_for_in _ _ _ I) as (_ & Gc & Q). split; [exact Q |].
    assert (Ip : In (w_phase (snd cw)) ps) by (rewrite <- WP; apply in_map_iff; exists cw; auto).
    destruct (CD _ Ip) as (n & cd & a & Sn & Nn & _). apply gattr_says in Sn. assert (n = fst cw) as -> by congruence. apply named_dget in Nn. eauto. }
  pose proof (@oh_fill_diam objs (r_objs s) (wires_for c line_phases) objs2 ws UB HC Hx) as F.
  assert (PT : map w_phase ws = ps). { rewrite <- WP. clear - F. induction F as [| cw w l m (Q & _) F IH]; [reflexivity |]. cbn. now rewrite Q, IH. }
  assert (DM : forall w, In w ws -> exists dm, w_diam w = Some dm /\ (0 < dm)%R /\ rad (w_phase w) = (dm / 2)%R).
  { intros w Iw. destruct (Forall2_in_r F _ Iw) as (cw & Ic & Q & cd & Nn & a & Oa & Da). destruct (wires_for_in _ _ _ Ic) as (_ & Gc & _).
    assert (Ip : In (w_phase w) ps) by (rewrite <- PT; now apply in_map). destruct (CD _ Ip) as (n & cd' & a' & Sn & Nn' & Oa' & Pos & Rd). apply gattr_says in Sn.
    rewrite Q in Sn. assert (n = fst cw) as -> by congruence. rewrite (named_fun Nn' Nn) in Oa'. rewrite (opt_fun Oa' Oa) in *. exists (diameter a). rewrite Da. auto. }
  apply obj_at_dget in Hx0.
  assert (Rs : rwl so x).
  { destruct (UB _ _ Nsn) as (so1 & Ds1 & Rs1). apply fill_rw in Hx; [| apply oh_wire_rw]. cbn [fst] in Hx. destruct (all_rw_dget _ Hx Ds1) as (so2 & Ds2 & Rs2).
    assert (so2 = x) as -> by congruence. eapply rwl_trans; [exact Rs1 | now apply rw_rwl]. }
  destruct x0 as [so' d]. cbn [snd]. apply spacing_table in Hx1. subst d.
  assert (INW : forall w, In w ws -> In (w_phase w) ps) by (intros w Iw; rewrite <- PT; now apply in_map).
  assert (PLC : forall p, In p ps -> placed E x p).
  { intros p Ip. destruct HH as [HE | [_ HP]]; [exists "E", (h p); apply (gap_rwl E _ _ _ Rs); now apply HE |]. destruct (HP p Ip) as ((q & y & G) & _). exists q, y. now apply (gap_rwl E _ _ _ Rs). }
  assert (OFF : forall v w a b, In v ws -> In w ws -> w_phase v <> w_phase w -> nth_error spots a = Some (w_phase v) -> nth_error spots b = Some (w_phase w) ->
    at2 (table5 E x) a b = X (w_phase v) (w_phase w) /\ (0 < X (w_phase v) (w_phase w))%R).
  { intros v w a b Iv Iw N Ha Hb. destruct (GP _ _ (INW v Iv) (INW w Iw) N) as (G & Pos). split; [| exact Pos].
    destruct (spot_index _ Ha) as (La & Qa). destruct (spot_index _ Hb) as (Lb & Qb). apply gap_at; [exact La | exact Lb | congruence |].
    rewrite Qa, Qb. now apply (gap_rwl E _ _ _ Rs). }
  assert (DIAG : forall w a, In w ws -> nth_error spots a = Some (w_phase w) -> at2 (table5 E x) a a = 0%R).
  { intros w a Iw Ha. destruct (spot_index _ Ha) as (La & Qa). apply placed_at; [exact La |]. rewrite Qa. apply PLC. auto. }
  destruct HH as [HE | [HN HP]].
  - exists ws, (table5 E x), (table5 E x). split; [reflexivity |]. split; [reflexivity |]. split; [exact PT |]. split; [exact INCL |]. split; [| now left].
    split; [now rewrite PT |]. split; [now rewrite PT |]. split; [exact DM |]. split; [| split; [exact OFF |]].
    + intros w a Iw Ha. split; [eauto |]. destruct (HE _ (INW w Iw)) as (G & Pos). split; [| exact Pos]. destruct (spot_index _ Ha) as (La & Qa).
      pose proof (phase_index _ Ha (INCL _ (INW w Iw))) as La4. apply (@gap_at x a 4); [exact La | lia | lia |]. rewrite Qa. now apply (gap_rwl E _ _ _ Rs).
    + intros w Iw Nw In'. rewrite PT in In'. apply TR; auto.
  - exists ws, (table5 E x), (one_foot (table5 E x)). split; [reflexivity |]. split; [reflexivity |]. split; [exact PT |]. split; [exact INCL |]. split.
    + split; [now rewrite PT |]. split; [now rewrite PT |]. split; [exact DM |]. split; [| split].
      * intros w a Iw Ha. pose proof (phase_index _ Ha (INCL _ (INW w Iw))) as La4. rewrite !one_foot_at by lia. rewrite (proj2 (Nat.eqb_neq a 4)) by lia. cbn [Nat.eqb].
        destruct (HP _ (INW w Iw)) as (_ & ->). split; [eauto |]. split; [reflexivity | lra].
      * intros v w a b Iv Iw N Ha Hb. pose proof (phase_index _ Ha (INCL _ (INW v Iv))). pose proof (phase_index _ Hb (INCL _ (INW w Iw))). rewrite one_foot_at by lia.
        rewrite (proj2 (Nat.eqb_neq b 4)) by lia. eauto.
      * intros w Iw Nw In'. rewrite PT in In'. apply TR; auto.
    + right. split.
      * intros a b Ha Hb. rewrite one_foot_at by lia. now rewrite (proj2 (Nat.eqb_neq b 4)) by lia.
      * intros a Ha. split; [| now rewrite one_foot_at by lia]. apply no_gap_at; [exact Ha |]. intros y G. apply (HN (spot a) y). now apply (gap_rwl E _ _ _ Rs).
Qed.
End Wires.

Section File.
Variables (E0 : prims) (side : R) (sch : list (string * string)).
Let E := with_cables E0 side.
Lemma charging_part : forall objs pre name o part s1 s2 o1, at_turn E sch objs pre name o part s1 s2 o1 -> go_class o = "overhead_line" -> charging_ok E objs o part.
Proof.
  intros objs pre name o part s1 s2 o1 (H1 & H2 & D1 & R & UB & AK & SS) C cs neutral X h rad ps OM NN NZ c n P INV.
  assert (C1 : go_class o1 = "overhead_line") by (destruct R as [Q _]; congruence).
  destruct (@line_turn E sch s1 s2 name o1 "overhead_line" H2 D1 C1 ltac:(cbn; tauto)) as (pt & pi & Gp & Pp & (RU & _ & _)). specialize (RU eq_refl).
  unfold read_overhead in RU. do 3 inv RU. unfold bound in Hx1.
  destruct (@charge_wires E objs o o1 (set_length name (fst x) s1) x0 ps X h rad (@set_length_untouched E objs name o1 s1 x UB D1 Hx) (rw_rwl R) Hx0 OM)
    as (ws & d & d' & Qw & Qd & PT & INCL & ME & DD).
  rewrite Qw in Hx1. injection Hx1 as <-. inv RU. inv RU. rewrite direct_never in Hx2 by (left; reflexivity). injection Hx2 as <-.
  inv RU. inv RU. rewrite direct_never in Hx3 by (right; reflexivity). injection Hx3 as <-. inv RU. rewrite Qd in Hx3. cbn [bound pbind] in Hx3.
  change (p_ocap E ws d) with (overhead_cap E0 side ws d) in Hx3.
  assert (CAP : overhead_cap E0 side ws d = overhead_cap E0 side ws d') by (destruct DD as [-> | [A B]]; [reflexivity | now apply no_heights]). rewrite CAP in Hx3.
  injection RU as <-.
  cbn [GlmReader.append with_store r_store set_vars] in SS. rewrite (@config_store E o1 (set_length name (fst x) s1) x0 (or_introl Hx0)) in SS. cbn [set_length set_objs r_store] in SS.
  apply part_one in SS; [| discriminate].
  assert (SP : exists pw nw, ws = (pw ++ nw)%list /\ map w_phase pw = cs /\ map w_phase nw = if neutral then ["N"] else []).
  { exists (firstn (List.length cs) ws), (skipn (List.length cs) ws). split; [now rewrite firstn_skipn |]. rewrite <- firstn_map, <- skipn_map, PT. unfold ps.
    split; [rewrite firstn_app, firstn_all, Nat.sub_diag, app_nil_r; reflexivity | rewrite skipn_app, skipn_all, Nat.sub_diag; reflexivity]. }
  destruct SP as (pw & nw & -> & Mp & Mn).
  assert (LP : List.length pw = c) by (unfold c; rewrite <- Mp; now rewrite map_length).
  destruct (@charge_law E0 side X h rad pw nw d' ME) as (m & fm & Q & Hm & LAW).
  - intros w Iw Qw'. apply NN. rewrite <- Mp, <- Qw'. now apply in_map.
  - destruct neutral; [right | left; now destruct nw]. destruct nw as [| w [| w' nw]]; try discriminate Mn. injection Mn as Mn. exists w. auto.
  - rewrite PT, LP. fold P. destruct neutral; destruct nw; try discriminate Mn; exact INV.
  - rewrite Q in Hx3. injection Hx3 as <-. rewrite LP in Hm. eexists. exists (per_meter m), fm. split; [exact SS |]. split; [reflexivity |]. split; [now apply per_meter_holds |].
    intros q HN i Hi. assert (LN : List.length (pw ++ nw) = n) by (unfold n; rewrite <- PT; now rewrite map_length).
    rewrite LP, LN, PT in LAW. fold P in LAW. apply (LAW q); [| exact Hi]. intros Nn. apply HN. destruct neutral; [reflexivity |]. now destruct nw.
Qed.
Lemma lines_charging : forall objs ms, NoDup (map fst objs) -> read_store E sch objs = Ok ms ->
  exists parts, Forall2 (fun no part => contributes E sch (fst no) (snd no) part) objs parts /\ Forall2 same_model (concat parts) ms /\
    forall i name o part, nth_error objs i = Some (name, o) -> nth_error parts i = Some part -> go_class o = "overhead_line" -> charging_ok E objs o part.
Proof.
  intros objs ms ND H. destruct (@file_turns E sch objs ms ND H) as (parts & F & S & T). exists parts. split; [exact F |]. split; [exact S |].
  intros i name o part Ho Hp C. destruct (T i name o Ho) as (part' & t1 & t2 & o1 & Hp' & A). assert (part' = part) as -> by congruence.
  eapply charging_part; [exact A | exact C].
Qed.
End File.
