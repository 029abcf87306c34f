(** What each object adds to the store. *)
From Coq Require Import Reals ZArith String Ascii List Bool Lia Lra Arith.
From Verif Require Import PyExc Components UnbalancedLine GlmText SpecGlm GlmBase LineImpedance ThreePhase GlmReader SpecReader ReaderBase ReaderLoadProofs ReaderFrame.
Import ListNotations.
Local Open Scope string_scope.
Set Implicit Arguments.

Ltac inv H := apply bind_ok in H; let x := fresh "x" in let Hx := fresh "Hx" in destruct H as (x & Hx & H).

Lemma told_gattr : forall o k, told o k (gattr o k).
Proof.
  intros o k. destruct (gattr o k) as [t |] eqn:G; [right; exists t; split; [now apply gattr_says | reflexivity] |].
  left. split; [now apply gattr_silent | reflexivity].
Qed.
Lemma says_silent_dec : forall o k, silent o k \/ exists t, says o k t.
Proof. intros o k. destruct (told_gattr o k) as [[S _] | (t & T & _)]; eauto. Qed.

Definition has_cap (o : gobj) (p : string) : bool := match gattr o ("capacitor_" ++ p) with Some _ => true | None => false end.
(** *** classes *)
Lemma has_iff : forall o k, has o k = true <-> ~ silent o k.
Proof.
  intros o k. unfold has. rewrite <- gattr_silent. destruct (gattr o k); split; try congruence; try tauto; intros; congruence.
Qed.
Definition powers (o : gobj) : bool := (has o "power_12" || has o "power_1" || has o "power_2")%bool.
Lemma powers_iff : forall o, powers o = true <-> exists k, In k ["power_12"; "power_1"; "power_2"] /\ ~ silent o k.
Proof.
  intros o. unfold powers. rewrite !orb_true_iff, !has_iff. split.
  - intros [[H | H] | H]; eexists; (split; [| exact H]); cbn; tauto.
  - intros (k & I & H). cbn in I. destruct I as [<- | [<- | [<- | []]]]; tauto.
Qed.
Lemma load_object_iff : forall o, load_object o <-> class_of o = "load" \/ class_of o = "triplex_load".
Proof.
  intros o. unfold load_object, class_of. fold (powers o). rewrite <- powers_iff.
  destruct (String.eqb_spec (go_class o) "triplex_node") as [-> | n1]; cbn [orb].
  - intuition discriminate.
  - destruct (String.eqb_spec (go_class o) "triplex_meter") as [-> | n2]; cbn [andb].
    + destruct (powers o); intuition discriminate.
    + intuition congruence.
Qed.
Lemma class_other : forall o c, class_of o = c -> c <> "triplex_load" -> go_class o = c /\ ~ (go_class o = "triplex_node").
Proof.
  intros o c. unfold class_of. destruct (String.eqb_spec (go_class o) "triplex_node"); cbn [orb]; [congruence |].
  destruct (_ && _)%bool; [congruence | auto].
Qed.

(** *** loads *)
Lemma delta_flag : forall core b, delta_phases core b -> (negb (contains "S" core) && contains "D" core)%bool = b.
Proof.
  intros core b H. unfold delta_phases in H. apply bool_ext. rewrite H, andb_true_iff, negb_true_iff.
  rewrite (contains_char "D" core), <- not_true_iff_false, (contains_char "S" core). tauto.
Qed.
Section Loads.
Variables (E : prims) (sch : list (string * string)).
Definition load_shape (name : string) (o : gobj) (ms : list dmodel) (d : dload) : Prop :=
  (exists par, says o "parent" par /\ ms = [MLoad d]) \/
  (silent o "parent" /\ exists n ps, ms = [MLoad d; MNode n] /\ load_node_phases o ps /\ node_like name ps false None n).
Lemma core_clean : forall o core, phase_core o core -> exists t, gattr o "phases" = Some t /\ clean_phases t = core.
Proof. intros o core (t & T & W). exists t. split; [now apply gattr_says | now apply clean_wrapped]. Qed.
Lemma filter_letters : forall s,
  filter (fun p => GlmText.mem p ["A"; "B"; "C"; "1"; "2"]) (letters s) =
  map (fun c => String c "") (filter (fun c => existsb (Ascii.eqb c) (chars "ABC12")) (chars s)).
Proof.
  intros s. rewrite letters_chars. induction (chars s) as [| c l IH]; [reflexivity |]. cbn [map filter].
  replace (GlmText.mem (chr c) ["A"; "B"; "C"; "1"; "2"]) with (existsb (Ascii.eqb c) (chars "ABC12")).
  - destruct (existsb (Ascii.eqb c) (chars "ABC12")); cbn [map]; now rewrite IH.
  - unfold GlmText.mem, chr. cbn [existsb chars list_ascii_of_string String.eqb].
    repeat match goal with |- context [(c =? ?d)%char] => destruct (c =? d)%char; try reflexivity end.
Qed.
Lemma all_loads_where : forall o b ls, all_phase_loads E sch o b = Ok ls -> forall x, In x ls ->
  (exists c p, lands b c p /\ dp_phase x = Some p) \/ b = true /\ dp_phase x = None.
Proof.
  intros o b ls H x I. destruct (mfold_concat _ _ _ H) as (g & G & ->). cbn [app] in I. apply in_flat_map in I. destruct I as (c & Ic & Ix).
  pose proof (@phase_at E sch o b c _ (G c Ic)) as A. unfold all_at in A. rewrite Forall_forall in A. specialize (A x Ix). rewrite A. unfold load_phase, lands.
  destruct b.
  - destruct (String.eqb_spec c "A") as [-> | _]; [left; exists "A", "AB"; cbn; tauto |].
    destruct (String.eqb_spec c "B") as [-> | _]; [left; exists "B", "BC"; cbn; tauto |].
    destruct (String.eqb_spec c "C") as [-> | _]; [left; exists "C", "CA"; cbn; tauto |]. tauto.
  - left. exists c, c. tauto.
Qed.
Lemma all_loads_stray : forall o ls, all_phase_loads E sch o true = Ok ls ->
  forall c k v, In c ["AB"; "BC"; "CA"; "1"; "2"; "12"]%string -> In k direct_loads -> complex E o (k ++ c) v -> v <> (0, 0)%R ->
  exists x, In x ls /\ dp_phase x = None.
Proof.
  intros o ls H c k v Ic Ik C V. destruct (mfold_concat _ _ _ H) as (g & G & ->).
  assert (Ic' : In c load_connections) by (cbn in *; tauto). pose proof (G c Ic') as F.
  assert (LP : load_phase true c = None) by (cbn in Ic; repeat (destruct Ic as [<- | Ic]; [reflexivity |]); destruct Ic).
  assert (B : both0 (fst v) (snd v) = false).
  { destruct (both0 (fst v) (snd v)) eqn:B; [| reflexivity]. apply both0_iff in B. destruct v as [a b]. cbn in B. destruct B. congruence. }
  assert (S : exists s, gattr o (k ++ c) = Some s /\ p_complex E s = Some v).
  { destruct C as (t & T & F'). exists t. split; [now apply gattr_says | exact F']. }
  destruct S as (s & S & F').
  assert (X : exists x, In x (g c)).
  { unfold phase_loads in F.
    apply bind_ok in F; destruct F as (l1 & H1 & F). apply bind_ok in F; destruct F as (l2 & H2 & F).
    apply bind_ok in F; destruct F as (l3 & H3 & F). apply bind_ok in F; destruct F as (l4 & H4 & F).
    apply bind_ok in F; destruct F as (l5 & H5 & F). apply bind_ok in F; destruct F as (l6 & H6 & F). injection F as <-.
    cbn in Ik. destruct Ik as [<- | [<- | [<- | [<- | [<- | []]]]]].
    - unfold power_load, cattr, cx in H1. rewrite S, F' in H1. cbn in H1. rewrite B in H1. injection H1 as <-. eexists. cbn. now left.
    - unfold power_load, cattr, cx in H2. rewrite S, F' in H2. cbn in H2. rewrite B in H2. injection H2 as <-. eexists. rewrite !in_app_iff. cbn. now right; left; left.
    - unfold impedance_load, cattr, cx in H3. rewrite S, F' in H3. cbn in H3. rewrite B in H3. injection H3 as <-. eexists. rewrite !in_app_iff. cbn. now right; right; left; left.
    - unfold impedance_load, cattr, cx in H4. rewrite S, F' in H4. cbn in H4. rewrite B in H4. injection H4 as <-. eexists. rewrite !in_app_iff. cbn. now right; right; right; left; left.
    - unfold current_load, cattr, cx in H5. rewrite S, F' in H5. cbn in H5. rewrite B in H5. injection H5 as <-. eexists. rewrite !in_app_iff. cbn. now right; right; right; right; left; left. }
  destruct X as (x & X). exists x. split; [apply in_flat_map; eauto |].
  pose proof (@phase_at E sch o true c _ F) as A. unfold all_at in A. rewrite Forall_forall in A. rewrite (A x X). exact LP.
Qed.
Lemma read_load_ok : forall name o ms, read_load E sch name o = Ok ms ->
  exists d, load_shape name o ms d /\ load_matches E sch name o d.
Proof.
  intros name o ms H. unfold read_load in H. do 3 inv H. cbv zeta in H. inv H. injection H as H.
  set (core0 := match gattr o "phases" with Some s => clean_phases s | None => "" end) in *.
  assert (HC : forall core, phase_core o core -> core0 = core).
  { intros core C. destruct (core_clean C) as (t & G & W). unfold core0. now rewrite G. }
  assert (T : forall d, do_loads d = x2 -> do_triplex d = (if contains "S" core0 then first_letter core0 else None) ->
     forall core b, phase_core o core -> delta_phases core b ->
    (~ In "S"%char (chars core) -> do_triplex d = None) /\
    (In "S"%char (chars core) -> exists c r, core = String c r /\ do_triplex d = Some (String c EmptyString)) /\
    (forall c p, lands b c p ->
      (forall s1 s2 v, complex0 E o ("power_" ++ c) s1 -> complex0 E o ("constant_power_" ++ c) s2 -> zip_power E sch o c v ->
         sumR (map dp_p (at_phase p (do_loads d))) = (fst s1 + fst s2 + v)%R /\
         sumR (map dp_q (at_phase p (do_loads d))) = (snd s1 + snd s2)%R) /\
      (forall z1 z2, complex0 E o ("impedance_" ++ c) z1 -> complex0 E o ("constant_impedance_" ++ c) z2 ->
         filter nonzero (map dp_z (at_phase p (do_loads d))) = filter nonzero [z1; z2]) /\
      (forall i, complex0 E o ("constant_current_" ++ c) i ->
         filter nonzero (map dp_i (at_phase p (do_loads d))) = filter nonzero [i])) /\
    (forall x, In x (do_loads d) -> (exists c p, lands b c p /\ dp_phase x = Some p) \/ b = true /\ dp_phase x = None) /\
    (b = true -> forall c k v, In c ["AB"; "BC"; "CA"; "1"; "2"; "12"]%string -> In k direct_loads ->
       complex E o (k ++ c) v -> v <> (0, 0)%R -> exists x, In x (do_loads d) /\ dp_phase x = None)).
  { intros d Ed Et core b C B. rewrite (HC core C) in *. rewrite Ed, Et. rewrite (delta_flag B) in Hx2.
    pose proof (contains_char "S" core) as HS. split; [| split; [| split; [| split; [exact (@all_loads_where o b x2 Hx2) | intros ->; exact (@all_loads_stray o x2 Hx2)]]]].
    - intros N. destruct (contains "S" core); [tauto | reflexivity].
    - intros I. rewrite (proj2 HS I). destruct core as [| c r]; [destruct I |]. exists c, r. split; reflexivity.
    - intros c p L. destruct (@all_loads_at E sch o b x2 c p Hx2 L) as (l & Hl & Ha & Hp). rewrite Ha.
      unfold phase_loads in Hl.
      apply bind_ok in Hl; destruct Hl as (l1 & H1 & Hl). apply bind_ok in Hl; destruct Hl as (l2 & H2 & Hl).
      apply bind_ok in Hl; destruct Hl as (l3 & H3 & Hl). apply bind_ok in Hl; destruct Hl as (l4 & H4 & Hl).
      apply bind_ok in Hl; destruct Hl as (l5 & H5 & Hl). apply bind_ok in Hl; destruct Hl as (l6 & H6 & Hl). injection Hl as Hl.
      (* the values the other attributes have *)
      assert (V : forall k, (exists r, cattr E o k = Ok r) -> exists v, complex0 E o k v).
      { intros k (r & Hr). destruct (cattr_ok _ _ _ Hr) as [[-> S] | (v & -> & V)]; [exists (0, 0)%R; left; auto | exists v; now right]. }
      assert (V1 : exists v, complex0 E o ("power_" ++ c) v) by (apply V; unfold power_load in H1; inv H1; eauto).
      assert (V2 : exists v, complex0 E o ("constant_power_" ++ c) v) by (apply V; unfold power_load in H2; inv H2; eauto).
      assert (V3 : exists v, complex0 E o ("impedance_" ++ c) v) by (apply V; unfold impedance_load in H3; inv H3; eauto).
      assert (V4 : exists v, complex0 E o ("constant_impedance_" ++ c) v) by (apply V; unfold impedance_load in H4; inv H4; eauto).
      assert (V5 : exists v, complex0 E o ("constant_current_" ++ c) v) by (apply V; unfold current_load in H5; inv H5; eauto).
      destruct V1 as (a1 & V1), V2 as (a2 & V2), V3 as (a3 & V3), V4 as (a4 & V4), V5 as (a5 & V5).
      pose proof (power_totals _ _ _ H1 V1) as T1. pose proof (power_totals _ _ _ H2 V2) as T2.
      pose proof (impedance_totals _ _ _ H3 V3) as T3. pose proof (impedance_totals _ _ _ H4 V4) as T4. pose proof (current_totals _ H5 V5) as T5.
      assert (Z6 : exists v, totals (load_phase b c) v 0 [] [] l6).
      { clear - H6. unfold zip_load in H6. destruct (gattr o ("base_power_" ++ c)); [| injection H6 as <-; eexists; apply totals_nil].
        inv H6. inv H6. injection H6 as <-. destruct x0; [| eexists; apply totals_nil].
        exists x. constructor; unfold P, Q; cbn; try lra; [constructor; [reflexivity | constructor] | exact nz0 | exact nz0]. }
      destruct Z6 as (v6 & T6).
      pose proof (totals_app T1 (totals_app T2 (totals_app T3 (totals_app T4 (totals_app T5 T6))))) as T. rewrite Hl in T. clear V. split; [| split].
      + intros s1 s2 v C1 C2 Z. pose proof (zip_totals _ H6 Z) as T6'. pose proof (t_p T6) as E6. rewrite (t_p T6') in E6. subst v6.
        pose proof (t_p (power_totals _ _ _ H1 C1)) as e1. rewrite (t_p T1) in e1. pose proof (t_q (power_totals _ _ _ H1 C1)) as e2. rewrite (t_q T1) in e2.
        pose proof (t_p (power_totals _ _ _ H2 C2)) as e3. rewrite (t_p T2) in e3. pose proof (t_q (power_totals _ _ _ H2 C2)) as e4. rewrite (t_q T2) in e4.
        rewrite <- e1, <- e2, <- e3, <- e4. pose proof (t_p T) as P1. pose proof (t_q T) as Q1. unfold P, Q in P1, Q1. rewrite P1, Q1. split; ring.
      + intros z1 z2 C1 C2. pose proof (t_z T) as Z1. unfold nz in Z1. rewrite Z1. cbn [app].
        pose proof (t_z (impedance_totals _ _ _ H3 C1)) as e1. rewrite (t_z T3) in e1. pose proof (t_z (impedance_totals _ _ _ H4 C2)) as e2. rewrite (t_z T4) in e2.
        change [a3; a4] with ([a3] ++ [a4])%list. change [z1; z2] with ([z1] ++ [z2])%list. rewrite !filter_app.
        unfold nz in e1, e2. now rewrite e1, e2.
      + intros i C1. pose proof (t_i T) as I1. unfold nz in I1. rewrite I1. cbn [app].
        pose proof (t_i (current_totals _ H5 C1)) as e1. rewrite (t_i T5) in e1. exact e1. }
  destruct (gattr o "parent") as [par |] eqn:G; subst ms; eexists; (split; [unfold load_shape | split; [| split]]).
  - left. exists par. split; [now apply gattr_says | reflexivity].
  - intros p Sp. apply gattr_says in Sp. rewrite G in Sp. injection Sp as ->. split; reflexivity.
  - intros S. apply gattr_silent in S. congruence.
  - apply T; reflexivity.
  - right. split; [now apply gattr_silent |]. do 2 eexists. split; [reflexivity |]. split; [| repeat split; reflexivity].
    intros core C. rewrite (HC core C). split; intros I.
    + rewrite (proj2 (contains_char "S" core) I). reflexivity.
    + destruct (contains "S" core) eqn:CS; [apply contains_char in CS; tauto |]. apply filter_letters.
  - intros p Sp. apply gattr_says in Sp. congruence.
  - intros S. split; reflexivity.
  - apply T; reflexivity.
Qed.
End Loads.

(** *** nodes *)
Lemma same_model_refl : forall m, same_model m m.
Proof. now left. Qed.
Lemma same_model_trans : forall a b c, same_model a b -> same_model b c -> same_model a c.
Proof.
  intros a b c [-> | (n & n' & -> & -> & H)]; [tauto |].
  intros [<- | (m & m' & E' & -> & H')]; [right; exists n, n'; tauto |]. injection E' as <-.
  right. exists n, m'. intuition congruence.
Qed.
Definition same_store := Forall2 same_model.
Lemma same_store_refl : forall l, same_store l l.
Proof. unfold same_store. induction l; constructor; auto using same_model_refl. Qed.
Lemma same_store_trans : forall a b c, same_store a b -> same_store b c -> same_store a c.
Proof.
  unfold same_store. intros a b c H. revert c. induction H; intros c H'; inversion H'; subst; constructor; eauto using same_model_trans.
Qed.
Lemma set_vnom_same : forall name v ms, same_store ms (set_vnom name v ms).
Proof.
  unfold same_store. induction ms as [| m ms IH]; [constructor |]. destruct m as [n | | | | | | |]; cbn; try (constructor; [apply same_model_refl | exact IH]).
  destruct (negb (dn_source n) && String.eqb (dn_name n) name)%bool eqn:B; [| constructor; [apply same_model_refl | exact IH]].
  constructor; [| apply same_store_refl]. apply andb_true_iff in B. destruct B as [B _]. apply negb_true_iff in B.
  right. do 2 eexists. repeat split; auto.
Qed.

Lemma maybe_vnom : forall g v ms, same_store ms (match g with Some par => set_vnom par v ms | None => ms end).
Proof. intros [p |] v ms; [apply set_vnom_same | apply same_store_refl]. Qed.
Section Objects.
Variables (E : prims) (sch : list (string * string)).
Lemma named_dget : forall objs n o, named objs n o <-> dget n objs = Some o.
Proof. intros. symmetry. apply dget_some. Qed.
Lemma attr_ok : forall A (x : option A) a, attr x = Ok a <-> x = Some a.
Proof. intros A [b |] a; cbn; split; congruence. Qed.
Lemma swing_iff : forall o, (match gattr o "bustype" with Some b => String.eqb b "SWING" | None => false end) = true <-> says o "bustype" "SWING".
Proof.
  intros o. rewrite <- gattr_says. destruct (gattr o "bustype") as [b |]; [| split; discriminate].
  destruct (String.eqb_spec b "SWING"); split; congruence.
Qed.
Lemma core_letters : forall o ps pi, gattr o "phases" = Some ps -> parse_phases ps = Ok pi ->
  forall core, phase_core o core -> phases_ok core pi.
Proof.
  intros o ps pi G P core (t & T & W). apply gattr_says in T. rewrite G in T. injection T as ->.
  now apply (parse_phases_ok W) in P.
Qed.
Definition step (s s' : rstate) (part : list dmodel) : Prop := all_kept (r_objs s) (r_objs s') /\ same_store (r_store s ++ part)%list (r_store s').
Lemma step_append : forall s ms, step s (append s ms) ms.
Proof. intros. split; [apply all_kept_refl | apply same_store_refl]. Qed.
Lemma step_adds : forall s s' ms, adds s s' ms -> step s s' ms.
Proof. intros s s' ms [K St]. split; [exact K | rewrite St; apply same_store_refl]. Qed.
(** lines: from and to of the object read *)
Lemma overhead_line : forall name o pi s s', dget name (r_objs s) = Some o -> read_overhead E name o pi s = Ok s' ->
  exists l, adds s s' [MLine l] /\ dl_fuse l = false /\ dl_switch l = false /\ dl_from l = gattr o "from" /\ dl_to l = gattr o "to".
Proof.
  intros name o pi s s' G H. destruct (@overhead_adds E name o pi s s' G H) as (l & A). exists l. split; [exact A |]. destruct A as [_ A].
  unfold read_overhead in H. do 8 inv H. injection H as <-. apply oh_config_kept in Hx0. destruct Hx0 as [_ St]. cbn in A, St. rewrite St in A.
  apply app_inv_head in A. injection A as <-. repeat split; reflexivity.
Qed.
Lemma triplex_line : forall name o s s', dget name (r_objs s) = Some o -> read_triplex_line E name o s = Ok s' ->
  exists l, adds s s' [MLine l] /\ dl_fuse l = false /\ dl_switch l = false /\ dl_from l = gattr o "from" /\ dl_to l = gattr o "to".
Proof.
  intros name o s s' G H. destruct (@triplex_adds E name o s s' G H) as (l & A). exists l. split; [exact A |]. destruct A as [_ A].
  unfold read_triplex_line in H. do 6 inv H. injection H as <-. apply tp_config_kept in Hx0. destruct Hx0 as [_ St]. cbn in A, St. rewrite St in A.
  apply app_inv_head in A. injection A as <-. repeat split; reflexivity.
Qed.
Lemma underground_line : forall name o pi s s', dget name (r_objs s) = Some o -> read_underground E name o pi s = Ok s' ->
  exists l, adds s s' [MLine l] /\ dl_fuse l = false /\ dl_switch l = false /\ dl_from l = gattr o "from" /\ dl_to l = gattr o "to".
Proof.
  intros name o pi s s' G H. destruct (@underground_adds E name o pi s s' G H) as (l & A). exists l. split; [exact A |]. destruct A as [_ A].
  unfold read_underground in H. do 8 inv H. injection H as <-. apply ug_config_kept in Hx0. destruct Hx0 as [_ St]. cbn in A, St. rewrite St in A.
  apply app_inv_head in A. injection A as <-. repeat split; reflexivity.
Qed.
Lemma ends_gattr : forall o f t, f = gattr o "from" -> t = gattr o "to" -> ends o f t.
Proof. intros o f t -> ->. split; apply told_gattr. Qed.
Lemma fattr_opt : forall o k r, fattr E o k = Ok r -> opt_number E o k r.
Proof. intros o k r H. destruct (fattr_ok _ _ _ H) as [[-> S] | (v & -> & N)]; [left; auto | right; eauto]. Qed.
Lemma said_gattr : forall o suffix p, phase_told o suffix p <-> gattr o ("phase_" ++ p ++ suffix) <> None.
Proof.
  intros o suffix p. unfold phase_told. split.
  - intros (t & T). apply gattr_says in T. congruence.
  - destruct (gattr o ("phase_" ++ p ++ suffix)) as [t |] eqn:G; [| congruence]. intros _. exists t. now apply gattr_says.
Qed.
Definition said (o : gobj) (suffix p : string) : bool := match gattr o ("phase_" ++ p ++ suffix) with Some _ => true | None => false end.
Lemma said_iff : forall o suffix p, said o suffix p = true <-> phase_told o suffix p.
Proof. intros. rewrite said_gattr. unfold said. destruct (gattr o ("phase_" ++ p ++ suffix)); split; congruence. Qed.
Lemma given_phases : forall o suffix opens l,
  map wi_phase (flat_map (fun p => match gattr o ("phase_" ++ p ++ suffix) with
                     | Some st => [{| wi_phase := p; wi_open := gone opens st; wi_amp := None |}] | None => [] end) l) = filter (said o suffix) l.
Proof.
  intros o suffix opens l. induction l as [| p l IH]; [reflexivity |]. cbn [flat_map filter]. unfold said at 1.
  destruct (gattr o ("phase_" ++ p ++ suffix)); cbn [List.app map wi_phase]; now rewrite IH.
Qed.
Lemma wires_told : forall o suffix opens ps, wires_as_told o suffix opens ps (switch_wires o suffix opens ps).
Proof.
  intros o suffix opens ps. pose proof (given_phases o suffix opens ["A"; "B"; "C"]) as GP. fold (given_wires o suffix opens) in GP.
  assert (A1 : Forall (fun w => wi_amp w = None) (given_wires o suffix opens)).
  { apply Forall_forall. intros w I. unfold given_wires in I. apply in_flat_map in I. destruct I as (p & _ & I).
    destruct (gattr o ("phase_" ++ p ++ suffix)); [| destruct I]. destruct I as [<- | []]. reflexivity. }
  assert (A2 : Forall (fun w => wi_amp w = None) (default_wires o ps)).
  { apply Forall_forall. intros w I. unfold default_wires in I. destruct (gattr o "status"); apply in_map_iff in I; destruct I as (p & <- & _); reflexivity. }
  assert (T : (exists p, In p ["A"; "B"; "C"] /\ phase_told o suffix p) <-> given_wires o suffix opens <> []).
  { split.
    - intros (p & I & H). apply said_iff in H. assert (X : In p (filter (said o suffix) ["A"; "B"; "C"])) by (apply filter_In; auto).
      rewrite <- GP in X. intros Z. rewrite Z in X. destruct X.
    - intros N. destruct (given_wires o suffix opens) as [| w ws]; [congruence |]. exists (wi_phase w).
      assert (X : In (wi_phase w) (filter (said o suffix) ["A"; "B"; "C"])) by (rewrite <- GP; cbn; tauto).
      apply filter_In in X. rewrite said_iff in X. exact X. }
  unfold wires_as_told, switch_wires. destruct (given_wires o suffix opens) as [| w0 ws0] eqn:G.
  - split; [exact A2 |]. split; [intros X; apply T in X; congruence |]. intros _. unfold default_wires. split.
    + intros st S. apply gattr_says in S. rewrite S. split; [rewrite map_map; apply map_id |]. intros w I. apply in_map_iff in I.
      destruct I as (p & <- & _). cbn. apply String.eqb_eq.
    + intros S. apply gattr_silent in S. rewrite S. split; [rewrite map_map; apply map_id |]. intros w I. apply in_map_iff in I.
      destruct I as (p & <- & _). reflexivity.
  - split; [exact A1 |]. split.
    + intros _. split; [exists (said o suffix); split; [intros; apply said_iff | exact GP] |].
      intros w I. rewrite <- G in I. unfold given_wires in I. apply in_flat_map in I. destruct I as (p & _ & I).
      destruct (gattr o ("phase_" ++ p ++ suffix)) as [st |] eqn:Gp; [| destruct I]. destruct I as [<- | []]. cbn [wi_open wi_phase].
      unfold gone. rewrite mem_iff. split.
      * intros I. exists st. split; [now apply gattr_says | exact I].
      * intros (t & S & I). apply gattr_says in S. congruence.
    + intros X. exfalso. assert (Y : exists p, In p ["A"; "B"; "C"] /\ phase_told o suffix p) by (apply T; discriminate).
      destruct Y as (p & I & Y). exact (X p I Y).
Qed.
Lemma limits_ok : forall o pre hl r, limits E o pre hl = Ok r ->
  exists h l, opt_number E o (pre ++ "_high") h /\ (h = None /\ l = None \/ h <> None /\ opt_number E o (pre ++ "_low") l) /\
    fst r = (match h with Some _ => h | None => fst hl end) /\ snd r = (match l with Some _ => l | None => snd hl end).
Proof.
  intros o pre hl r H. unfold limits in H. inv H. apply fattr_opt in Hx. destruct x as [h |].
  - inv H. injection H as <-. apply fattr_opt in Hx0. exists (Some h), x. split; [exact Hx |]. split; [right; split; [discriminate | exact Hx0] |].
    split; [reflexivity |]. destruct x; reflexivity.
  - injection H as <-. exists None, None. split; [exact Hx |]. split; [left; auto |]. split; reflexivity.
Qed.
Lemma cap_phases_ok : forall o l acc r, NoDup l ->
  mfold (fun acc p => do v <- fattr E o ("capacitor_" ++ p); Ok (match v with Some v => acc ++ [(p, v)] | None => acc end)%list) l acc = Ok r ->
  exists t, r = (acc ++ t)%list /\ map fst t = filter (has_cap o) l /\ forall p v, In (p, v) t -> number E o ("capacitor_" ++ p) v.
Proof.
  intros o l. induction l as [| p l IH]; intros acc r ND H.
  - injection H as <-. exists []. rewrite app_nil_r. split; [reflexivity |]. split; [reflexivity | intros p v []].
  - inversion ND; subst. cbn [mfold] in H. inv H. inv Hx. injection Hx as <-. cbn [filter]. unfold has_cap at 1.
    destruct (fattr_ok _ _ _ Hx0) as [[-> S] | (v & -> & N)].
    + apply IH in H; [| assumption]. apply gattr_silent in S. rewrite S. exact H.
    + apply IH in H; [| assumption]. destruct H as (t & -> & M & F). destruct N as (tx & T & Fl). pose proof T as T'. apply gattr_says in T'. rewrite T'.
      exists ((p, v) :: t). split; [rewrite <- app_assoc; reflexivity |]. split; [cbn; now rewrite M |].
      intros q w [X | X]; [injection X as <- <-; exists tx; auto | now apply F].
Qed.
Lemma cap_ok : forall o ps pi c, gattr o "phases" = Some ps -> parse_phases ps = Ok pi -> read_cap E o pi = Ok (MCap c) -> cap_matches E o c.
Proof.
  intros o ps pi c G P H. pose proof (@core_letters o ps pi G P) as PL. unfold read_cap in H. do 7 inv H. injection H as <-. unfold cap_matches.
  cbn [dc_phases dc_connected dc_high dc_low dc_control dc_parent dc_vnom dc_switch].
  split; [apply told_gattr |]. split; [apply told_gattr |]. split; [now apply fattr_opt |]. split; [intros p; apply told_gattr |].
  apply limits_ok in Hx2, Hx3. destruct Hx2 as (qh & ql & Q1 & Q2 & Q3 & Q4). destruct Hx3 as (vh & vl & V1 & V2 & V3 & V4).
  split.
  { exists qh, ql, vh, vl. split; [exact Q1 |]. split; [exact V1 |]. split; [exact Q2 |]. split; [exact V2 |]. cbn in Q3, Q4. split.
    - rewrite V3, Q3. destruct vh; [reflexivity |]. destruct qh; reflexivity.
    - rewrite V4, Q4. destruct vl; [reflexivity |]. destruct ql; reflexivity. }
  apply cap_phases_ok in Hx4; [| repeat constructor; cbn; intuition discriminate]. destruct Hx4 as (t & -> & M & F). cbn [app].
  split; [exists (has_cap o); split; [| exact M] |].
  { intros p. unfold has_cap. rewrite <- gattr_silent. destruct (gattr o ("capacitor_" ++ p)); split; congruence. }
  split; [exact F |]. split.
  - intros tx core S W. apply gattr_says in S. rewrite S in Hx. destruct (parse_phases tx) as [q | e] eqn:Q; [| discriminate Hx]. injection Hx as <-. apply (parse_phases_ok W) in Q. unfold phases_ok in Q. now apply Q.
  - intros core S Co. apply gattr_silent in S. rewrite S in Hx. injection Hx as <-. now apply (PL core Co).
Qed.
Lemma volts_ok : forall o va vb vc n, cattr E o "voltage_A" = Ok va -> cattr E o "voltage_B" = Ok vb -> cattr E o "voltage_C" = Ok vc ->
  dn_volt n = (fun p => if String.eqb p "A" then polar_of E va else if String.eqb p "B" then polar_of E vb
                        else if String.eqb p "C" then polar_of E vc else None) -> volts_like E o n.
Proof.
  intros o va vb vc n Ha Hb Hc D p. rewrite D. split.
  - intros I v V. cbn in I. destruct I as [<- | [<- | [<- | []]]]; cbn [String.eqb Ascii.eqb Bool.eqb].
    + destruct (cattr_ok _ _ _ Ha) as [[-> S] | (w & -> & W)]; [destruct V as (t & T & _); destruct (says_silent T S) |]. cbn. now rewrite (complex_fun V W).
    + destruct (cattr_ok _ _ _ Hb) as [[-> S] | (w & -> & W)]; [destruct V as (t & T & _); destruct (says_silent T S) |]. cbn. now rewrite (complex_fun V W).
    + destruct (cattr_ok _ _ _ Hc) as [[-> S] | (w & -> & W)]; [destruct V as (t & T & _); destruct (says_silent T S) |]. cbn. now rewrite (complex_fun V W).
  - intros X. destruct (String.eqb_spec p "A") as [-> |]; [| destruct (String.eqb_spec p "B") as [-> |]; [| destruct (String.eqb_spec p "C") as [-> |]; [| reflexivity]]];
    (destruct X as [X | X]; [cbn in X; tauto |]); apply gattr_silent in X; unfold cattr in *; cbn [String.append] in X; rewrite X in *;
    repeat match goal with H : Ok None = Ok _ |- _ => injection H as <- end; reflexivity.
Qed.
Lemma read_object_ok : forall s name s', read_object E sch s name = Ok s' ->
  exists o part, named (r_objs s) name o /\ contributes E sch name o part /\ step s s' part.
Proof.
  intros s name s' H. unfold read_object in H. inv H. rename x into o. apply obj_at_dget in Hx. exists o.
  pose proof (proj2 (named_dget (r_objs s) name o) Hx) as N.
  destruct (GlmText.mem (go_class o) shared_config_objects) eqn:M.
  { injection H as <-. exists []. split; [exact N |]. split; [apply c_shared; now apply mem_iff in M |].
    split; [apply all_kept_refl | rewrite app_nil_r; apply same_store_refl]. }
  cbv zeta in H. inv H. apply attr_ok in Hx0. inv H. rename x0 into pi. pose proof (@core_letters o x pi Hx0 Hx1) as PL.
  assert (NL : forall c, class_of o = c -> c <> "load" -> c <> "triplex_load" -> ~ load_object o).
  { intros c C n1 n2 L. apply load_object_iff in L. rewrite C in L. tauto. }
  destruct (String.eqb_spec (class_of o) "node") as [C | n1]; [| destruct (String.eqb_spec (class_of o) "meter") as [C | n2]]; cbn [orb] in H;
    [| | destruct (String.eqb_spec (class_of o) "triplex_node") as [C | n3]; [| destruct (String.eqb_spec (class_of o) "triplex_meter") as [C | n4]]; cbn [orb] in H].
  1, 2: apply class_other in C; [| discriminate]; destruct C as [C _]; inv H; injection H as <-;
    unfold read_node in Hx2; apply check_ok in Hx2; destruct Hx2 as [TR Hx2]; apply negb_true_iff in TR; do 4 inv Hx2; cbv zeta in Hx2; injection Hx2 as Hx2;
    eexists; (split; [exact N |]); apply and_comm;
    (split; [split; [apply all_kept_refl |]; cbn [with_store r_store]; rewrite <- Hx2; apply maybe_vnom |]);
    (eapply c_node with (ps := pi_phases pi) (par := gattr o "parent");
             [tauto | apply told_gattr
             | intros core Co; destruct (PL core Co) as (P1 & _ & P3 & _); split; [intros I; apply P3 in I; congruence | exact P1]
             | apply swing_iff | repeat split; reflexivity | eapply volts_ok; eauto]).
  1: { apply class_other in C; [| discriminate]. tauto. }
  1: { pose proof (NL _ C ltac:(discriminate) ltac:(discriminate)) as NLo. apply class_other in C; [| discriminate]. destruct C as [C _].
       inv H. injection H as <-. unfold read_triplex_meter in Hx2. apply check_ok in Hx2. destruct Hx2 as [TR Hx2]. do 3 inv Hx2. injection Hx2 as <-.
       eexists. split; [exact N |]. apply and_comm. split; [apply step_append | eapply c_meter; [exact C | exact NLo | apply told_gattr | | repeat split; reflexivity]].
       intros core Co. now apply (PL core Co). }
  destruct (String.eqb_spec (class_of o) "transformer") as [C | n5].
  { apply class_other in C; [| discriminate]. destruct C as [C _]. destruct (xfmr_adds _ _ _ _ _ H) as (x0 & A). exists [MXfmr x0].
    split; [exact N |]. split; [| now apply step_adds]. destruct A as [_ A]. unfold read_xfmr in H. inv H. injection H as <-. cbn in A.
    assert (St : r_store (fst x1) = r_store s).
    { destruct (gattr o "configuration") as [cn |]; [| now injection Hx2 as <-]. destruct (dget cn (r_objs s)); [| now injection Hx2 as <-].
      inv Hx2. injection Hx2 as <-. reflexivity. }
    rewrite St in A. apply app_inv_head in A. injection A as <-.
    apply c_xfmr; [exact C | reflexivity | apply ends_gattr; reflexivity | intros core Co; cbn; now apply (PL core Co)]. }
  destruct (String.eqb_spec (class_of o) "load") as [C | n6]; [| destruct (String.eqb_spec (class_of o) "triplex_load") as [C | n7]]; cbn [orb] in H.
  1, 2: assert (L : load_object o) by (apply load_object_iff; tauto); inv H; injection H as <-;
    destruct (read_load_ok _ _ _ _ Hx2) as (d & Sh & Ma); exists x0; (split; [exact N |]); (split; [| apply step_append]);
    destruct Sh as [(par & Sp & ->) | (Si & nn & ps & -> & Lp & Nl)]; [eapply c_load; eauto | eapply c_load_node; eauto].
  destruct (String.eqb_spec (class_of o) "fuse") as [C | n8].
  { apply class_other in C; [| discriminate]. destruct C as [C _]. inv H. injection H as <-. unfold read_fuse in Hx2. inv Hx2. injection Hx2 as <-.
    eexists. split; [exact N |]. split; [| apply step_append].
    apply c_fuse; [exact C | reflexivity | apply ends_gattr; reflexivity | | | reflexivity].
    - intros core Co. destruct (PL core Co) as (P1 & _). cbn. rewrite P1. split; [reflexivity | apply wires_told].
    - cbn. unfold fuse_limit. destruct (gattr o "current_limit") as [t |] eqn:G; [| injection Hx3 as <-; left; split; [now apply gattr_silent | reflexivity]].
      inv Hx3. injection Hx3 as <-. apply fl_ok in Hx2. right. do 3 eexists. split; [apply gattr_says; exact G |]. split; [apply only_digits |]. split; [eassumption | reflexivity]. }
  destruct (String.eqb_spec (class_of o) "switch") as [C | n9]; [| destruct (String.eqb_spec (class_of o) "recloser") as [C | n10]]; cbn [orb] in H.
  1, 2: apply class_other in C; [| discriminate]; destruct C as [C _]; injection H as <-; eexists; (split; [exact N |]); (split; [| apply step_append]);
    apply c_switch; [tauto | reflexivity | reflexivity | apply ends_gattr; reflexivity
                    | intros core Co; destruct (PL core Co) as (P1 & _); cbn; rewrite P1; split; [reflexivity | apply wires_told]].
  destruct (String.eqb_spec (class_of o) "overhead_line") as [C | n11].
  { apply class_other in C; [| discriminate]. destruct C as [C _]. destruct (overhead_line _ _ _ Hx H) as (l & A & F1 & F2 & F3 & F4).
    eexists. split; [exact N |]. split; [| apply step_adds; exact A]. apply c_line; [rewrite C; cbn; tauto | exact F1 | exact F2 | now apply ends_gattr]. }
  destruct (String.eqb_spec (class_of o) "triplex_line") as [C | n12].
  { apply class_other in C; [| discriminate]. destruct C as [C _]. destruct (triplex_line _ _ Hx H) as (l & A & F1 & F2 & F3 & F4).
    eexists. split; [exact N |]. split; [| apply step_adds; exact A]. apply c_line; [rewrite C; cbn; tauto | exact F1 | exact F2 | now apply ends_gattr]. }
  destruct (String.eqb_spec (class_of o) "underground_line") as [C | n13].
  { apply class_other in C; [| discriminate]. destruct C as [C _]. destruct (underground_line _ _ _ Hx H) as (l & A & F1 & F2 & F3 & F4).
    eexists. split; [exact N |]. split; [| apply step_adds; exact A]. apply c_line; [rewrite C; cbn; tauto | exact F1 | exact F2 | now apply ends_gattr]. }
  destruct (String.eqb_spec (class_of o) "capacitor") as [C | n14].
  { apply class_other in C; [| discriminate]. destruct C as [C _]. inv H. injection H as <-.
    assert (X : exists c, x0 = MCap c) by (unfold read_cap in Hx2; do 7 inv Hx2; injection Hx2 as <-; eexists; reflexivity).
    destruct X as (c & ->). eexists. split; [exact N |]. split; [| apply step_append]. apply c_cap; [exact C | eapply cap_ok; eauto]. }
  destruct (String.eqb_spec (class_of o) "regulator") as [C | n15]; [| discriminate].
  apply class_other in C; [| discriminate]. destruct C as [C _]. unfold read_reg in H. do 15 inv H. injection H as <-.
  eexists. split; [exact N |]. split; [| split; [apply all_kept_refl | apply same_store_refl]].
  apply c_reg; [exact C | apply ends_gattr; reflexivity].
Qed.
End Objects.
