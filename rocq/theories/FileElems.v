(** Fuses, switches, regulators, loads and capacitors, from the file to the network. *)
From Coq Require Import Reals ZArith String Ascii List Bool Lia Lra Arith.
From Verif Require Import PyExc SpecComponents SpecUnbalanced Components Devices UnbalancedLine GlmText SpecGlm GlmBase LineImpedance ThreePhase SpecThreePhase SpecThreeElems ThreePhaseBase GlmReader SpecReader ReaderBase ReaderLoadProofs ReaderFrame ReaderStore ReaderFile ReaderFrame2 ReaderVisit SpecLineZ SpecReader2 LineFile ReaderTurns OverheadFile SpecReader3 XfmrFile RegFile VnomFile ThreePhaseFinal SpecFile FileNet.
Import ListNotations.
Local Open Scope string_scope.
Set Implicit Arguments.

Lemma told_end : forall n o k x p b, told o k x -> leads_to_o n x p b -> at_end n o k p b.
Proof. intros n o k x p b [[_ ->] | (t & S & ->)] (s & Q & L); [discriminate Q |]. injection Q as <-. exists t. auto. Qed.
Lemma forall2_flip : forall A B (P : A -> B -> Prop) l m, Forall2 P l m -> Forall2 (fun b a => P a b) m l.
Proof. intros A B P l m F. induction F; constructor; auto. Qed.
Lemma forall2_map : forall A B D (P : A -> B -> Prop) (f : D -> B) l m, Forall2 P l (map f m) -> Forall2 (fun a d => P a (f d)) l m.
Proof. intros A B D P f l m. revert l. induction m as [| d m IH]; intros l H; cbn in H; inversion H; subst; constructor; auto. Qed.
Lemma forall2_weaken : forall A B (P Q : A -> B -> Prop) l m, (forall a b, P a b -> Q a b) -> Forall2 P l m -> Forall2 Q l m.
Proof. intros A B P Q l m I F. induction F; constructor; auto. Qed.
Lemma forall2_first : forall A B (P : A -> B -> Prop) l m a, Forall2 P l m -> In a l -> exists b, In b m /\ P a b.
Proof. intros A B P l m a F. induction F as [| x y l m S F IH]; intros I; [destruct I |]. destruct I as [-> | I]; [exists y; split; [now left | exact S] |]. destruct (IH I) as (b & Ib & Q). exists b. split; [now right | exact Q]. Qed.
Lemma same_in : forall a b m, Forall2 same_model a b -> (forall n, m <> MNode n) -> In m a -> In m b.
Proof.
  intros a b m F N. induction F as [| x y a b S F IH]; intros I; [destruct I |]. destruct I as [-> | I]; [| right; now apply IH].
  destruct S as [-> | (n & n' & -> & _)]; [now left | now destruct (N n)].
Qed.
Lemma mfold_in : forall S X (f : S -> X -> pres S) x l s s', mfold f l s = Ok s' -> In x l -> exists s1 s2, f s1 x = Ok s2.
Proof.
  intros S X f x l. induction l as [| y l IH]; intros s s' H I; [destruct I |]. cbn in H. destruct (f s y) as [s1 | e] eqn:Q; [| discriminate H].
  destruct I as [-> | I]; [eauto | exact (IH _ _ H I)].
Qed.
Lemma element_made : forall inv cap ms n m, parse_three inv cap ms = Ok n -> In m ms -> exists n1 n2, create_element inv cap n1 m = Ok n2.
Proof. intros inv cap ms n m H I. unfold parse_three in H. destruct (create_buses ms) as [n0 | e]; [| discriminate H]. cbn in H. exact (mfold_in _ _ _ _ H I). Qed.

Section Elems.
Variables (E : prims) (sch : list (string * string)) (inv : matrix -> option matrix) (cap : bool).
Variables (objs : list (string * gobj)) (ms : list dmodel) (n : net).
Hypothesis clean : clean_file objs.
Hypothesis reads : read_store E sch objs = Ok ms.
Hypothesis parses : parse_three inv cap ms = Ok n.
Definition kn : known_elements ms := proj2 (@clean_ok E sch objs ms clean reads).

Lemma file_fuses : grouped objs (fun o => go_class o = "fuse") (fun _ _ o g => fuse_group E n o g) (nt_fuses n).
Proof.
  destruct (@file_turns E sch objs ms (proj1 clean) reads) as (parts & F & S & _).
  pose proof (@p_fuses inv cap ms n kn parses) as PF.
  refine (@grouping E sch objs parts ms _ _ _ _ _ _ _ F S _ PF _); [reflexivity |]. clear F S PF.
  intros i name o part g _ _ K H. split; intros C; inversion K; subst part; cbn [flat_map fuses_of List.app] in H;
    try (exfalso; clear H; classes K); try (rewrite ?H1, ?H2 in H; exact (nil_group H)).
  - intros core PC. rewrite H1, app_nil_r in H. destruct (H3 core PC) as [_ W]. exists (dl_wires l). split; [exact W |]. apply forall2_map, forall2_flip in H.
    eapply forall2_weaken; [| exact H]. intros w t (M1 & M2 & M3 & M4 & M5 & M6). cbn [fst snd] in *. destruct H2 as [Tf Tt].
    split; [exact M1 |]. split; [exact (told_end Tf M2) |]. split; [exact (told_end Tt M3) |]. split; [exact M4 |].
    split; [rewrite <- M5; exact H4 |]. rewrite H5 in M6. destruct (tf_status t); [reflexivity |]. destruct M6 as [M6 _]. discriminate (M6 eq_refl).
Qed.
Lemma file_switches : grouped objs (fun o => go_class o = "switch" \/ go_class o = "recloser") (fun _ _ o g => switch_group n o g) (nt_switches n).
Proof.
  destruct (@file_turns E sch objs ms (proj1 clean) reads) as (parts & F & S & _).
  pose proof (@p_switches inv cap ms n kn parses) as PF.
  refine (@grouping E sch objs parts ms _ _ _ _ _ _ _ F S _ PF _); [reflexivity |]. clear F S PF.
  intros i name o part g _ _ K H. split; intros C; inversion K; subst part; cbn [flat_map switches_of List.app] in H;
    try (exfalso; clear H; classes K); try (rewrite ?H1, ?H2 in H; exact (nil_group H)).
  - intros core PC. rewrite H1, H2, app_nil_r in H. destruct (H4 core PC) as [P W]. exists (dl_wires l). split; [exact W |]. apply forall2_map, forall2_flip in H.
    unfold SpecThreeElems.switch_wires in H. rewrite P in H.
    eapply forall2_weaken; [| exact H]. intros w t (M1 & M2 & M3 & M4). cbn [fst snd] in *. destruct H3 as [Tf Tt].
    split; [exact M1 |]. split; [exact (told_end Tf M2) |]. split; [exact (told_end Tt M3) | exact M4].
Qed.
Lemma wye_of : forall c, is_y c = true -> c = Some "Y".
Proof. intros [y |] H; [| discriminate H]. cbn in H. apply String.eqb_eq in H. now subst. Qed.
Lemma file_regulators : grouped objs (fun o => go_class o = "regulator") (fun _ _ o g => reg_group E objs n o g) (nt_regs n).
Proof.
  destruct (@file_turns E sch objs ms (proj1 clean) reads) as (parts & F & S & T).
  pose proof (@p_regs inv cap ms n kn parses) as PF.
  refine (@grouping E sch objs parts ms _ _ _ _ _ _ _ F S _ PF _); [reflexivity |]. clear F PF.
  intros i name o part g Ho Hp K H. split; intros C; inversion K; subst part; cbn [flat_map regs_of List.app] in H;
    try (exfalso; clear H; classes K); try (exact (nil_group H)).
  destruct (T i name o Ho) as (part' & s1 & s2 & o1 & Hp' & A). assert (part' = [MReg r]) as -> by congruence.
  destruct (@reg_part E sch _ _ _ _ _ _ _ _ A C) as (c & r' & CF & Q & NW & CN & PH & WI & CE & RG & CR & UP & DN & HI & LO & TY & CT & TP & _). injection Q as <-.
  destruct H1 as [Tf Tt].
  assert (IM : In (MReg r) ms).
  { apply (same_in S); [discriminate |]. apply in_concat. exists [MReg r]. split; [exact (nth_error_In _ _ Hp) | now left]. }
  destruct (@element_made inv cap ms n _ parses IM) as (n1 & n2 & CE2). cbn [create_element] in CE2. unfold create_reg in CE2.
  apply check_ok in CE2. destruct CE2 as [_ CE2]. apply check_ok in CE2. destruct CE2 as [L3 CE2]. apply check_ok in CE2. destruct CE2 as [YY _].
  apply andb_true_iff in L3. destruct L3 as [L3 _]. apply Nat.eqb_eq in L3. apply andb_true_iff in YY. destruct YY as [Y1 _]. apply wye_of in Y1.
  exists c. split; [exact CF |]. split; [destruct CN as [(_ & X & _) | (X & _)]; [congruence | exact X] |].
  intros core PC. exists (dr_phases1 r). split; [apply PH; exact PC |]. split; [exact L3 |]. rewrite app_nil_r in H. apply forall2_map, forall2_flip in H.
  eapply forall2_weaken; [| exact H]. intros p t (M1 & M2 & M3 & M4 & M5 & (tap & M6 & M7) & M8 & M9). cbn [fst snd] in *.
  split; [exact (told_end Tf M1) |]. split; [exact (told_end Tt M2) |]. split; [exact M3 |].
  exists (dr_center r), (dr_width r), (dr_regulation r), (dr_raise r), (dr_lower r), tap.
  split; [exact CE |]. split; [exact WI |]. split; [exact RG |]. split; [exact UP |]. split; [exact DN |].
  split; [now apply TP |]. split; [lra |]. split; [lra |]. split; [exact M7 |]. rewrite HI, LO in M8. split; [exact M8 |].
  destruct (r_type (tr_dev t)).
  - destruct M9 as [M9 M10]. split; [| exact M10]. destruct TY as [[_ TY] | TY]; [congruence | now rewrite <- M9].
  - destruct M9 as [M9 M10]. split; [| exact M10]. destruct TY as [[TY _] | TY]; [now left | right; now rewrite <- M9].
Qed.
Lemma on_at : forall A (fl : tload -> A) (fd : dphload -> A) d p g l, Forall2 (fun t pl => load_made n d pl t) g l -> (forall t pl, load_made n d pl t -> fl t = fd pl) ->
  map fl (on_phase p g) = map fd (at_phase p l).
Proof.
  intros A fl fd d p g l F Q. induction F as [| t pl g l M F IH]; [reflexivity |]. unfold on_phase, at_phase in *. cbn [filter].
  pose proof M as (_ & _ & _ & _ & _ & P & _). rewrite P. destruct (String.eqb (tl_phase t) p); cbn [map]; [now rewrite (Q _ _ M), IH | exact IH].
Qed.
Lemma group_load : forall name o d g, load_matches E sch name o d -> Forall2 (fun t pl => load_made n d pl t) g (do_loads d) -> load_group E sch n name o g.
Proof.
  intros name o d g (LP & LS & LM) F.
  assert (EN : forall node, do_conn d = Some node -> Forall (load_ends n node) g).
  { intros node Q. apply Forall_forall. intros t I. destruct (forall2_first _ F I) as (pl & _ & M). destruct M as (_ & _ & _ & _ & _ & _ & _ & M).
    unfold load_ends. destruct (tl_phase t) as [| a rest]; [exact M |]. destruct M as [(f & M1 & s & Qs & M2) M3]. assert (s = node) as -> by congruence. split; [eauto |].
    destruct rest as [| b r]; [exact M3 |]. destruct M3 as (h & M3 & s' & Qs' & M4). assert (s' = node) as -> by congruence. eauto. }
  split; [intros par S; apply EN; now apply LP |]. split; [intros S; apply EN; now apply LS |].
  intros core b PC DP. destruct (LM core b PC DP) as (T1 & T2 & L1 & L2 & _).
  split.
  { intros t I. destruct (forall2_first _ F I) as (pl & Ipl & M). destruct M as (_ & _ & _ & _ & _ & P & _).
    destruct (L2 pl Ipl) as [(c & p & La & Q) | [_ Q]]; [| congruence]. exists c, p. split; [exact La | congruence]. }
  split. { intros t I NS. destruct (forall2_first _ F I) as (pl & Ipl & M). destruct M as (_ & _ & _ & _ & M & _). rewrite M. now apply T1. }
  split. { intros t I NS. destruct (forall2_first _ F I) as (pl & Ipl & M). destruct M as (_ & _ & _ & _ & M & _). rewrite M. now apply T2. }
  intros c p La. destruct (L1 c p La) as (S1 & S2 & S3). split; [| split].
  - intros s1 s2 v C1 C2 Z. rewrite (@on_at R tl_p dp_p d p g _ F), (@on_at R tl_q dp_q d p g _ F); [now apply S1 | |]; intros t pl M; apply M.
  - intros z1 z2 C1 C2. rewrite (@on_at _ tl_z dp_z d p g _ F); [now apply S2 |]. intros t pl M; apply M.
  - intros i C1. rewrite (@on_at _ (fun t => (tl_ip t, tl_iq t)) dp_i d p g _ F); [now apply S3 |]. intros t pl M; apply M.
Qed.
Lemma file_loads : grouped objs load_object (fun _ name o g => load_group E sch n name o g) (nt_loads n).
Proof.
  destruct (@file_turns E sch objs ms (proj1 clean) reads) as (parts & F & S & _).
  pose proof (@p_loads inv cap ms n kn parses) as PF.
  refine (@grouping E sch objs parts ms _ _ _ _ _ _ _ F S _ PF _); [reflexivity |]. clear F S PF.
  intros i name o part g _ _ K H. split; intros C; inversion K; subst part; cbn [flat_map load_items List.app] in H; rewrite ?app_nil_r in H;
    try (exact (nil_group H)); try contradiction; try (exfalso; clear H; classes K).
  - apply (@group_load name o d g); [assumption |]. now apply forall2_map in H.
  - apply (@group_load name o d g); [assumption |]. now apply forall2_map in H.
Qed.
Lemma cap_items_fst : forall c f, map fst (dc_phases c) = filter f ["A"; "B"; "C"] -> map fst (cap_items c) = filter (fun p => f p && mem p (dc_connected c))%bool ["A"; "B"; "C"].
Proof.
  intros c f. unfold cap_items. generalize ["A"; "B"; "C"]. generalize (dc_phases c). intros l l0. revert l.
  induction l0 as [| p l0 IH]; intros l Q; cbn [filter] in *; [destruct l; [reflexivity | discriminate Q] |].
  destruct (f p); cbn [andb]; [| now apply IH]. destruct l as [| [q v] l]; [discriminate Q |]. cbn [map fst] in Q. injection Q as -> Q. cbn [filter fst].
  destruct (mem p (dc_connected c)); cbn [map fst]; [f_equal |]; now apply IH.
Qed.
Lemma mem_iff : forall p l, mem p l = true <-> In p l.
Proof. intros p l. unfold mem. rewrite existsb_exists. split; [intros (x & I & Q); apply String.eqb_eq in Q; now subst | intros I; exists p; split; [exact I | apply String.eqb_refl]]. Qed.
Lemma file_capacitors : grouped objs (fun o => go_class o = "capacitor") (fun _ _ o g => cap_group E n o g) (nt_caps n).
Proof.
  destruct (@file_turns E sch objs ms (proj1 clean) reads) as (parts & F & S & _).
  pose proof (@p_caps inv cap ms n kn parses) as PF.
  refine (@grouping E sch objs parts ms _ _ _ _ _ _ _ F S _ PF _); [reflexivity |]. clear F S PF.
  intros i name o part g _ _ K H. split; intros C; inversion K; subst part; cbn [flat_map caps_of List.app] in H; rewrite ?app_nil_r in H;
    try (exact (nil_group H)); try (exfalso; clear H; classes K).
  destruct H1 as (TP & TC & TV & TS & CL & (f & F1 & F2) & NU & C1 & C2).
  exists (dc_connected c), (fun p => f p && mem p (dc_connected c))%bool. split; [split; assumption |].
  split; [intros p; rewrite andb_true_iff, F1, mem_iff; reflexivity |].
  rewrite <- (cap_items_fst c f F2). apply forall2_map, forall2_flip in H.
  assert (X : forall l, incl l (cap_items c) -> forall g, Forall2 (fun (pc : string * R) t => cap_made n c pc t) l g -> Forall2 (cap_unit E n o) (map fst l) g).
  { clear H g. intros l. induction l as [| pc l IH]; intros I g H; inversion H as [| ? t ? g' M H']; subst; [constructor |]. cbn [map]. constructor; [| apply IH; [intros x Ix; apply I; now right | exact H']].
    assert (I0 : In pc (cap_items c)) by (apply I; now left). destruct pc as [p q].
    destruct M as (par & v & ctl & Q1 & Q2 & Q3 & M1 & M2 & M3 & M4 & M5 & M6 & M7 & M8 & M9). cbn [fst snd] in *.
    assert (Sp : says o "parent" par) by (destruct TP as [[_ X] | (t0 & X & Y)]; congruence).
    assert (Sc : says o "control" ctl) by (destruct TC as [[_ X] | (t0 & X & Y)]; congruence).
    assert (U : forall t, says o "control" t <-> ctl = t) by (intros t0; split; [intros X; exact (says_fun Sc X) | intros <-; exact Sc]).
    assert (Nv : number E o "cap_nominal_voltage" v) by (destruct TV as [[_ X] | (t0 & X & Y)]; congruence).
    assert (Ip : In p ["A"; "B"; "C"]).
    { assert (Y : In p (map fst (cap_items c))) by (apply in_map_iff; exists (p, q); auto). rewrite (cap_items_fst c f F2) in Y. apply filter_In in Y. apply Y. }
    split; [exists par; split; [exact Sp | exact M1] |].
    split; [exists q, v; split; [apply NU; apply filter_In in I0; apply I0 |]; auto |].
    split; [now rewrite M4, M5 |]. rewrite !U, M4, M5. split; [exact M6 |]. split; [exact M7 |]. split; [exact M8 |].
    intros MM. rewrite (M9 MM Ip). destruct (TS p) as [[X Y] | (t0 & X & Y)]; rewrite Y.
    - split; [discriminate |]. intros Z. now destruct (says_silent Z X).
    - split; [intros Z; injection Z as ->; exact X | intros Z; now rewrite (says_fun X Z)]. }
  now apply X.
Qed.
End Elems.
