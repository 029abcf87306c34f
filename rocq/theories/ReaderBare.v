(** Lines without conductors and lines without configuration. *)
From Coq Require Import Reals ZArith String Ascii List Bool Lia Lra Arith.
From Verif Require GlmProofs.
From Verif Require Import PyExc SpecComponents SpecUnbalanced Components UnbalancedLine GlmText SpecGlm GlmBase LineImpedance ThreePhase GlmReader SpecReader ReaderBase ReaderLoadProofs ReaderFrame ReaderStore ReaderFile ReaderFrame2 ReaderVisit SpecLineZ KronProofs CarsonProofs SpacingProofs LineZFinal TriplexProofs SpecReader2 LineFile ReaderKeep ReaderWires ReaderTurns LineProofs OverheadFile.
Import ListNotations.
Local Open Scope string_scope.
Set Implicit Arguments.

Section Bare.
Variables (E : prims) (sch : list (string * string)).
Lemma no_wires : forall c l, (forall p, In p l -> silent c ("conductor_" ++ p)) -> wires_for c l = [].
Proof.
  intros c l H. unfold wires_for. induction l as [| p l IH]; [reflexivity |]. cbn [flat_map].
  pose proof (H p (or_introl eq_refl)) as S. apply gattr_silent in S. rewrite S. apply IH. intros q I. apply H. now right.
Qed.
Lemma config_wires : forall objs o o1 s l, untouched_before objs (r_objs s) -> rwl o o1 -> incl l line_phases \/ incl l triplex_phases ->
  without_conductors objs o l -> exists cn c1, gattr o1 "configuration" = Some cn /\ dget cn (r_objs s) = Some c1 /\ wires_for c1 l = [].
Proof.
  intros objs o o1 s l UB R I (c & (cn & Scn & Ncn) & H). apply named_dget in Ncn. destruct (UB _ _ Ncn) as (c1 & D & Rc). exists cn, c1.
  split; [exact (@says_rwl o o1 "configuration" cn R ltac:(plain) Scn) |]. split; [exact D |]. rewrite (@wires_rwl c c1 l Rc I). now apply no_wires.
Qed.
Lemma oh_none : forall objs o o1 s s', untouched_before objs (r_objs s) -> rwl o o1 -> oh_config E o1 s = Ok s' ->
  without_conductors objs o line_phases -> r_conds s' = Some [].
Proof.
  intros objs o o1 s s' UB R H W. destruct (@config_wires objs o o1 s line_phases UB R (or_introl (incl_refl _)) W) as (cn & c1 & G & D & Q).
  unfold oh_config in H. rewrite G in H. unfold obj_at in H at 1. rewrite D in H. cbn [pbind] in H. change ["A"; "B"; "C"; "N"] with line_phases in H. rewrite Q in H.
  cbn [fill_all mfold pbind] in H. destruct (gattr c1 "spacing"); [do 2 inv H |]; injection H as <-; reflexivity.
Qed.
Lemma tp_none : forall objs o o1 s s', untouched_before objs (r_objs s) -> rwl o o1 -> tp_config E o1 s = Ok s' ->
  without_conductors objs o triplex_phases -> r_conds s' = Some [].
Proof.
  intros objs o o1 s s' UB R H W. destruct (@config_wires objs o o1 s triplex_phases UB R (or_intror (incl_refl _)) W) as (cn & c1 & G & D & Q).
  unfold tp_config in H. rewrite G in H. unfold obj_at in H at 1. rewrite D in H. cbn [pbind] in H. change ["1"; "2"; "N"] with triplex_phases in H. rewrite Q in H.
  do 2 inv H. cbn [set_last rev fill_all mfold pbind fst snd] in H. injection H as <-. reflexivity.
Qed.
Lemma wired_nil : forall d, wired [] d (fun _ _ => 1%R).
Proof. intros d. split; [constructor |]. split; [intros p [] |]. split; [intros w r g [] |]. cbn. intros i j Hi. lia. Qed.
Lemma primitive_nil : primitive [] (fun _ _ => 1%R) (fun _ _ => C0).
Proof. split; [intros [|] w X; discriminate X |]. split; [intros [|] j v w X; discriminate X |]. intros p q _. split; reflexivity. Qed.
Lemma triplex_part_bare : forall objs pre name o part s1 s2 o1, at_turn E sch objs pre name o part s1 s2 o1 -> p_inv E [[Some C0]] = None ->
  go_class o = "triplex_line" -> without_conductors objs o triplex_phases -> False.
Proof.
  intros objs pre name o part s1 s2 o1 (H1 & H2 & D1 & R & UB & AK & SS) P C W.
  assert (C1 : go_class o1 = "triplex_line") by (destruct R as [Q _]; congruence).
  destruct (@line_turn E sch s1 s2 name o1 "triplex_line" H2 D1 C1 ltac:(cbn; tauto)) as (pt & pi & Gp & Pp & (_ & RT & _)). specialize (RT eq_refl).
  unfold read_triplex_line in RT. do 3 inv RT.
  pose proof (@tp_none objs o o1 _ x0 (@set_length_untouched E objs name o1 s1 x UB D1 Hx) (rw_rwl R) Hx0 W) as Qw.
  rewrite Qw in Hx1. injection Hx1 as <-. inv RT. inv RT. rewrite direct_never in Hx2 by (left; reflexivity). injection Hx2 as <-. inv RT.
  rewrite triplex_bare in Hx2 by exact P. discriminate.
Qed.
Lemma overhead_part_bare : forall objs pre name o part s1 s2 o1 core, at_turn E sch objs pre name o part s1 s2 o1 -> p_inv E [[Some C0]] = None ->
  go_class o = "overhead_line" -> without_conductors objs o line_phases -> phase_core o core -> In "N"%char (chars core) -> False.
Proof.
  intros objs pre name o part s1 s2 o1 core (H1 & H2 & D1 & R & UB & AK & SS) P C W PC IN.
  assert (C1 : go_class o1 = "overhead_line") by (destruct R as [Q _]; congruence).
  destruct (@line_turn E sch s1 s2 name o1 "overhead_line" H2 D1 C1 ltac:(cbn; tauto)) as (pt & pi & Gp & Pp & (RO & _ & _)). specialize (RO eq_refl).
  destruct (@core_letters o1 pt pi Gp Pp core (rw_core R PC)) as (P1 & P2 & _). apply P2 in IN.
  unfold read_overhead in RO. do 3 inv RO.
  pose proof (@oh_none objs o o1 _ x0 (@set_length_untouched E objs name o1 s1 x UB D1 Hx) (rw_rwl R) Hx0 W) as Qw.
  rewrite Qw in Hx1. injection Hx1 as <-. inv RO. inv RO. rewrite direct_never in Hx2 by (left; reflexivity). injection Hx2 as <-. inv RO. inv Hx2.
  rewrite IN, (@overhead_no_neutral E [] (strip_dist x3) _ _ (pi_phases pi) (wired_nil _) primitive_nil (fun X => X) P) in Hx2. discriminate.
Qed.
Lemma overhead_part_zero : forall objs pre name o part s1 s2 o1, at_turn E sch objs pre name o part s1 s2 o1 ->
  go_class o = "overhead_line" -> bare_ok objs o part.
Proof.
  intros objs pre name o part s1 s2 o1 (H1 & H2 & D1 & R & UB & AK & SS) C core PC W NN.
  assert (C1 : go_class o1 = "overhead_line") by (destruct R as [Q _]; congruence).
  destruct (@line_turn E sch s1 s2 name o1 "overhead_line" H2 D1 C1 ltac:(cbn; tauto)) as (pt & pi & Gp & Pp & (RO & _ & _)). specialize (RO eq_refl).
  destruct (@core_letters o1 pt pi Gp Pp core (rw_core R PC)) as (P1 & P2 & _).
  assert (Q : pi_neutral pi = false) by (destruct (pi_neutral pi); intuition congruence).
  unfold read_overhead in RO. do 3 inv RO.
  pose proof (@oh_none objs o o1 _ x0 (@set_length_untouched E objs name o1 s1 x UB D1 Hx) (rw_rwl R) Hx0 W) as Qw.
  rewrite Qw in Hx1. injection Hx1 as <-. inv RO. inv RO. rewrite direct_never in Hx2 by (left; reflexivity). injection Hx2 as <-. inv RO. inv Hx2.
  rewrite P1, Q in Hx2.
  destruct (@overhead_carson E [] (strip_dist x3) _ _ (phase_letters core) false (wired_nil _) primitive_nil ltac:(discriminate)) as (mz & Qz & HZ). rewrite Qz in Hx2. injection Hx2 as <-.
  do 2 inv RO. injection RO as <-. cbn [GlmReader.append with_store r_store set_vars] in SS. rewrite (@config_store E o1 (set_length name (fst x) s1) x0 (or_introl Hx0)) in SS. cbn [set_length set_objs r_store] in SS.
  apply part_one in SS; [| discriminate]. eexists. split; [exact SS |]. split; [reflexivity |]. cbn [dl_z].
  replace (fun _ _ : nat => C0) with (fun i j => to_metre (reduced false (fun _ _ => C0) (nth i (abc_of (phase_letters core)) "") (nth j (abc_of (phase_letters core)) ""))).
  - now apply per_meter_holds.
  - unfold reduced, to_metre, C0. cbn [fst snd]. unfold Rdiv. now rewrite Rmult_0_l.
Qed.
Lemma bare_fails : forall objs name o, NoDup (map fst objs) -> p_inv E [[Some C0]] = None -> In (name, o) objs ->
  (go_class o = "triplex_line" /\ without_conductors objs o triplex_phases \/
   go_class o = "overhead_line" /\ without_conductors objs o line_phases /\ exists core, phase_core o core /\ In "N"%char (chars core)) ->
  forall ms, read_store E sch objs <> Ok ms.
Proof.
  intros objs name o ND P I K ms H. destruct (@file_turns E sch objs ms ND H) as (parts & _ & _ & T). apply In_nth_error in I. destruct I as (i & I).
  destruct (T i name o I) as (part & t1 & t2 & o1 & _ & A). destruct K as [(C & W) | (C & W & core & PC & IN)]; [eapply triplex_part_bare | eapply overhead_part_bare]; eauto.
Qed.
Lemma bare_zero : forall objs ms, NoDup (map fst objs) -> read_store E sch objs = Ok ms ->
  exists parts, Forall2 (fun no part => contributes E sch (fst no) (snd no) part) objs parts /\ Forall2 same_model (concat parts) ms /\ forall i name o part, nth_error objs i = Some (name, o) -> nth_error parts i = Some part ->
    go_class o = "overhead_line" -> bare_ok objs o part.
Proof.
  intros objs ms ND H. destruct (@file_turns E sch objs ms ND H) as (parts & F & S & T). exists parts. split; [exact F |]. split; [exact S |].
  intros i name o part Ho Hp C. destruct (T i name o Ho) as (part' & t1 & t2 & o1 & Hp' & A). assert (part' = part) as -> by congruence. eapply overhead_part_zero; eauto.
Qed.
(** *** the variable conductors *)
Definition lineb (o : gobj) : bool := GlmText.mem (go_class o) line_classes.
Definition confb (o : gobj) : bool := (lineb o && match gattr o "configuration" with Some _ => true | None => false end)%bool.
Lemma confb_iff : forall o, confb o = true <-> configured_line o.
Proof.
  intros o. unfold confb, lineb, configured_line. rewrite andb_true_iff, mem_iff. destruct (gattr o "configuration") eqn:G.
  - split; [intros [A _]; split; [exact A | intros X; apply gattr_silent in X; congruence] | tauto].
  - split; [intros [_ X]; discriminate | intros [_ X]; destruct X; now apply gattr_silent].
Qed.
Lemma config_conds : forall o s s', oh_config E o s = Ok s' \/ tp_config E o s = Ok s' \/ ug_config E o s = Ok s' ->
  match gattr o "configuration" with Some _ => exists ws, r_conds s' = Some ws | None => r_conds s' = r_conds s end.
Proof.
  intros o s s' [H | [H | H]]; [unfold oh_config in H | unfold tp_config in H | unfold ug_config in H]; (destruct (gattr o "configuration"); [| now injection H as <-]).
  - do 2 inv H. destruct x0 as [objs ws]. destruct (gattr x "spacing"); [do 2 inv H |]; injection H as <-; eexists; reflexivity.
  - do 4 inv H. injection H as <-. eexists. reflexivity.
  - do 2 inv H. destruct x0 as [objs ws]. destruct (gattr x "spacing"); [inv H; destruct (all_some (map w_outer ws)); [inv H |] |]; injection H as <-; eexists; reflexivity.
Qed.
Lemma line_conds : forall s s' name o, read_object E sch s name = Ok s' -> dget name (r_objs s) = Some o ->
  if lineb o
  then exists ws ws' l, r_conds s' = Some ws' /\ r_store s' = (r_store s ++ [MLine l])%list /\ dl_wires l = line_wires ws' /\ line_wires ws' = line_wires ws /\
         (confb o = false -> r_conds s = Some ws)
  else r_conds s' = r_conds s.
Proof.
  intros s s' name o H D. destruct (lineb o) eqn:B.
  - unfold confb. rewrite B. cbn [andb]. unfold lineb in B. apply mem_iff in B. destruct (@line_turn E sch s s' name o (go_class o) H D eq_refl B) as (pt & pi & _ & _ & (RO & RT & RU)).
    cbn in B. destruct B as [B | [B | [B | []]]]; symmetry in B; [specialize (RO B) | specialize (RT B) | specialize (RU B)].
    + unfold read_overhead in RO. do 8 inv RO. injection RO as <-. exists x1, (map to_metric x1). eexists. split; [reflexivity |]. cbn [GlmReader.append with_store r_store set_vars].
      rewrite (@config_store E o (set_length name (fst x) s) x0 (or_introl Hx0)). split; [reflexivity |]. split; [reflexivity |].
      split; [unfold line_wires; rewrite map_map; reflexivity |]. pose proof (@config_conds o _ _ (or_introl Hx0)) as K. destruct (gattr o "configuration"); [discriminate |].
      intros _. rewrite <- (K : _ = r_conds s). destruct (r_conds x0); [now injection Hx1 as -> | discriminate].
    + unfold read_triplex_line in RT. do 6 inv RT. injection RT as <-. exists x1, x1. eexists. cbn [GlmReader.append with_store r_store r_conds].
      split; [destruct (r_conds x0); [now injection Hx1 as -> | discriminate] |].
      rewrite (@config_store E o (set_length name (fst x) s) x0 (or_intror (or_introl Hx0))). split; [reflexivity |]. split; [reflexivity |]. split; [reflexivity |].
      pose proof (@config_conds o _ _ (or_intror (or_introl Hx0))) as K. destruct (gattr o "configuration"); [discriminate |].
      intros _. rewrite <- (K : _ = r_conds s). destruct (r_conds x0); [now injection Hx1 as -> | discriminate].
    + unfold read_underground in RU. do 8 inv RU. injection RU as <-. exists x1, x1. eexists. cbn [GlmReader.append with_store r_store r_conds].
      split; [destruct (r_conds x0); [now injection Hx1 as -> | discriminate] |].
      rewrite (@config_store E o (set_length name (fst x) s) x0 (or_intror (or_intror Hx0))). split; [reflexivity |]. split; [reflexivity |]. split; [reflexivity |].
      pose proof (@config_conds o _ _ (or_intror (or_intror Hx0))) as K. destruct (gattr o "configuration"); [discriminate |].
      intros _. rewrite <- (K : _ = r_conds s). destruct (r_conds x0); [now injection Hx1 as -> | discriminate].
  - unfold read_object in H. inv H. apply obj_at_dget in Hx. assert (x = o) as -> by congruence. clear Hx.
    destruct (GlmText.mem (go_class o) shared_config_objects); [injection H as <-; reflexivity |].
    cbv zeta in H. do 2 inv H.
    destruct (_ || _)%bool; [inv H; injection H as <-; reflexivity |].
    destruct (_ || _)%bool; [inv H; injection H as <-; reflexivity |].
    destruct (String.eqb (class_of o) "transformer").
    { unfold read_xfmr in H. inv H. injection H as <-. cbn.
      destruct (gattr o "configuration") as [cn |]; [| injection Hx1 as <-; reflexivity].
      destruct (dget cn (r_objs s)) as [c |] eqn:G; [| injection Hx1 as <-; reflexivity].
      inv Hx1. injection Hx1 as <-. reflexivity. }
    destruct (_ || _)%bool; [inv H; injection H as <-; reflexivity |].
    destruct (String.eqb (class_of o) "fuse"); [inv H; injection H as <-; reflexivity |].
    destruct (_ || _)%bool; [injection H as <-; reflexivity |].
    unfold lineb in B. rewrite <- not_true_iff_false, mem_iff in B.
    assert (NL : forall c, In c line_classes -> String.eqb (class_of o) c = false).
    { intros c I. apply String.eqb_neq. intros X. destruct (class_other _ X) as [X' _]; [intros ->; cbn in I; intuition discriminate |]. apply B. now rewrite X'. }
    rewrite !NL in H by (cbn; tauto).
    destruct (String.eqb (class_of o) "capacitor"); [inv H; injection H as <-; reflexivity |].
    destruct (String.eqb (class_of o) "regulator"); [| discriminate].
    unfold read_reg in H. do 15 inv H. injection H as <-. reflexivity.
Qed.
Lemma rw_confb : forall o o1, rw o o1 -> confb o1 = confb o /\ lineb o1 = lineb o.
Proof.
  intros o o1 R. assert (L : lineb o1 = lineb o) by (unfold lineb; destruct R as [Q _]; now rewrite Q). split; [| exact L]. unfold confb. rewrite L. f_equal.
  apply rw_rwl in R. assert (Q : gattr o1 "configuration" = gattr o "configuration") by (apply (rwl_plain R); plain). now rewrite Q.
Qed.
Lemma firstn_snoc : forall A (l : list A) i x, nth_error l i = Some x -> firstn (S i) l = (firstn i l ++ [x])%list.
Proof. intros A l. induction l as [| a l IH]; intros [| i] x H; cbn in *; try discriminate; [now injection H as -> | now rewrite (IH i x H)]. Qed.
Lemma conds_upto : forall objs ms parts, NoDup (map fst objs) -> read_store E sch objs = Ok ms ->
  (forall i name o, nth_error objs i = Some (name, o) -> exists part t1 t2 o1, nth_error parts i = Some part /\ at_turn E sch objs (firstn i objs) name o part t1 t2 o1) ->
  forall i s ws, (i <= List.length objs)%nat -> mfold (read_object E sch) (map fst (firstn i objs)) (start objs) = Ok s -> r_conds s = Some ws ->
  exists j l, last_configured objs i j /\ nth_error parts j = Some [MLine l] /\ dl_wires l = line_wires ws.
Proof.
  intros objs ms parts ND RS T. induction i as [| i IH]; intros s ws Li H Q.
  - cbn in H. injection H as <-. discriminate Q.
  - destruct (nth_error objs i) as [[name o] |] eqn:Ho; [| apply nth_error_None in Ho; lia].
    destruct (T i name o Ho) as (part & t1 & t2 & o1 & Hp & (H1 & H2 & D1 & R & UB & AK & SS)).
    assert (s = t2) as ->. { rewrite (firstn_snoc _ _ Ho), map_app in H. cbn [map fst] in H. rewrite GlmProofs.mfold_app, H1 in H. cbn in H. rewrite H2 in H. cbn in H. congruence. }
    pose proof (line_conds _ _ H2 D1) as K. destruct (rw_confb R) as [RC RL]. rewrite RL, RC in K.
    assert (UP : forall j l wsx, last_configured objs i j -> confb o = false -> nth_error parts j = Some [MLine l] -> dl_wires l = line_wires wsx -> line_wires ws = line_wires wsx ->
      exists j l, last_configured objs (S i) j /\ nth_error parts j = Some [MLine l] /\ dl_wires l = line_wires ws).
    { intros j l wsx (Lt & Hj & Bt) NC Pj Q1 Q2. exists j, l. split; [| split; [exact Pj | congruence]]. split; [lia |]. split; [exact Hj |].
      intros k n ok Hk Hn CL. destruct (Nat.eq_dec k i) as [-> | N]; [| apply (Bt k n ok); [lia | exact Hn | exact CL]].
      rewrite Ho in Hn. injection Hn as <- <-. apply confb_iff in CL. congruence. }
    destruct (lineb o) eqn:B.
    + destruct K as (w0 & w1 & l & Q1 & St & Dl & Qw & NC). assert (w1 = ws) as -> by congruence. destruct (confb o) eqn:CB.
      * exists i, l. split; [| split; [| exact Dl]].
        -- split; [lia |]. split; [exists name, o; split; [exact Ho | now apply confb_iff] |]. intros k n ok Hk. lia.
        -- rewrite St in SS. apply part_one in SS; [| discriminate]. congruence.
      * destruct (IH t1 w0 ltac:(lia) H1 (NC eq_refl)) as (j & l' & LC & Pj & Ql). eapply UP; eauto.
    + assert (confb o = false) by (unfold confb; now rewrite B). destruct (IH t1 ws ltac:(lia) H1 ltac:(congruence)) as (j & l' & LC & Pj & Ql). eapply UP; eauto.
Qed.
Lemma file_inherit : forall objs ms, NoDup (map fst objs) -> read_store E sch objs = Ok ms ->
  exists parts, Forall2 (fun no part => contributes E sch (fst no) (snd no) part) objs parts /\ Forall2 same_model (concat parts) ms /\
  forall i name o, nth_error objs i = Some (name, o) -> In (go_class o) line_classes -> silent o "configuration" ->
    exists j l l', last_configured objs i j /\ nth_error parts i = Some [MLine l] /\ nth_error parts j = Some [MLine l'] /\ dl_wires l = dl_wires l'.
Proof.
  intros objs ms ND H. destruct (@file_turns E sch objs ms ND H) as (parts & F & S & T). exists parts. split; [exact F |]. split; [exact S |].
  intros i name o Ho C SI. destruct (T i name o Ho) as (part & t1 & t2 & o1 & Hp & (H1 & H2 & D1 & R & UB & AK & SS)).
  pose proof (line_conds _ _ H2 D1) as K. destruct (rw_confb R) as [RC RL]. rewrite RL, RC in K.
  assert (B : lineb o = true) by (unfold lineb; now apply mem_iff). rewrite B in K. destruct K as (w0 & w1 & l & Q1 & St & Dl & Qw & NC).
  assert (CB : confb o = false). { unfold confb. apply gattr_silent in SI. rewrite SI. apply andb_false_r. }
  specialize (NC CB). destruct (@conds_upto objs ms parts ND H T i t1 w0) as (j & l' & LC & Pj & Ql).
  - apply Nat.lt_le_incl. apply nth_error_Some. congruence.
  - exact H1.
  - exact NC.
  - exists j, l, l'. split; [exact LC |]. rewrite St in SS. apply part_one in SS; [| discriminate]. split; [congruence |]. split; [exact Pj | congruence].
Qed.
End Bare.
