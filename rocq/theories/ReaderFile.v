(** The whole file: what the store holds after Reader.parse. *)
From Coq Require Import Reals ZArith String Ascii List Bool Lia Lra Arith.
From Verif Require Import PyExc Components UnbalancedLine GlmText SpecGlm GlmBase LineImpedance ThreePhase GlmReader SpecReader ReaderBase ReaderLoadProofs ReaderFrame ReaderStore.
Import ListNotations.
Local Open Scope string_scope.
Set Implicit Arguments.

(** *** an object whose rewritten attributes changed still says the same *)
Definition plain (k : string) : bool := negb (GlmText.mem k rewritten).
Lemma plain_not : forall k, plain k = true -> ~ In k rewritten.
Proof. intros k H I. apply mem_iff in I. unfold plain in H. rewrite I in H. discriminate. Qed.
Section Kept.
Variables (o o' : gobj).
Hypothesis K : kept o o'.
Lemma kept_says : forall k t, plain k = true -> says o k t <-> says o' k t.
Proof. intros k t P. destruct K as (_ & K2 & _). apply K2. now apply plain_not. Qed.
Lemma kept_silent : forall k, silent o k <-> silent o' k.
Proof. destruct K as (_ & _ & K3 & _). exact K3. Qed.
Lemma kept_told : forall k x, plain k = true -> told o' k x -> told o k x.
Proof.
  intros k x P [[S ->] | (t & T & ->)]; [left; split; [now apply kept_silent | reflexivity] | right; exists t; split; [now apply kept_says | reflexivity]].
Qed.
Lemma kept_class : go_class o = go_class o'.
Proof. now destruct K. Qed.
Lemma kept_core : forall core, phase_core o core -> phase_core o' core.
Proof. intros core (t & T & W). exists t. split; [now apply kept_says | exact W]. Qed.
Lemma kept_complex : forall E k v, plain k = true -> complex E o k v -> complex E o' k v.
Proof. intros E k v P (t & T & F). exists t. split; [now apply kept_says | exact F]. Qed.
Lemma kept_complex0 : forall E k v, plain k = true -> complex0 E o k v -> complex0 E o' k v.
Proof. intros E k v P [[S ->] | C]; [left; split; [now apply kept_silent | reflexivity] | right; now apply kept_complex]. Qed.
Lemma kept_load : load_object o <-> load_object o'.
Proof.
  unfold load_object. rewrite <- kept_class.
  assert (X : (exists k, In k ["power_12"; "power_1"; "power_2"] /\ ~ silent o k) <-> exists k, In k ["power_12"; "power_1"; "power_2"] /\ ~ silent o' k).
  { split; intros (k & I & S); exists k; (split; [exact I |]); [now rewrite <- kept_silent | now rewrite kept_silent]. }
  tauto.
Qed.
Definition prefixes : list string := (six_fractions ++ direct_loads ++ ["base_power_"])%list.
Lemma plain_keys : forall p c, In p prefixes -> In c all_connections -> plain (p ++ c) = true.
Proof.
  intros p c Ip Ic.
  assert (H : forallb (fun p => forallb (fun c => plain (p ++ c)) all_connections) prefixes = true) by (vm_compute; reflexivity).
  rewrite forallb_forall in H. specialize (H p Ip). rewrite forallb_forall in H. now apply H.
Qed.
Lemma lands_conn : forall b c p, lands b c p -> In c all_connections.
Proof.
  intros b c p L. unfold lands in L. destruct b; [| tauto]. cbn in L. destruct L as [L | [L | [L | []]]]; injection L as <- <-; cbn; tauto.
Qed.
Lemma kept_zip : forall E sch c v, In c all_connections -> zip_power E sch o c v -> zip_power E sch o' c v.
Proof.
  intros E sch c v Ic [[[S | (k & I & S)] ->] | (A & s & S & B)].
  - left. split; [| reflexivity]. left. now apply kept_silent.
  - left. split; [| reflexivity]. right. exists k. split; [exact I | now apply kept_silent].
  - right. split; [intros k I; rewrite <- kept_silent; now apply A |]. exists s. split; [| exact B]. apply kept_says; [| exact S].
    apply plain_keys; [apply in_or_app; right; cbn; tauto | exact Ic].
Qed.
Lemma kept_load_matches : forall E sch name d, load_matches E sch name o' d -> load_matches E sch name o d.
Proof.
  intros E sch name d (M1 & M2 & M3). split; [| split].
  - intros par S. apply M1. now apply kept_says.
  - intros S. apply M2. now apply kept_silent.
  - intros core b C B. destruct (M3 core b (kept_core C) B) as (N1 & N2 & N3 & N4 & N5). repeat (split; [assumption |]). split; [| split; [exact N4 |]].
    + intros c p L. pose proof (lands_conn _ _ _ L) as Ic. destruct (N3 c p L) as (T1 & T2 & T3).
      assert (PK : forall p, In p prefixes -> plain (p ++ c) = true) by (intros; now apply plain_keys). split; [| split].
      * intros s1 s2 v C1 C2 Z. apply T1; [apply kept_complex0 | apply kept_complex0 | apply kept_zip]; try assumption; apply PK; cbn; tauto.
      * intros z1 z2 C1 C2. apply T2; apply kept_complex0; try assumption; apply PK; cbn; tauto.
      * intros i C1. apply T3; apply kept_complex0; try assumption; apply PK; cbn; tauto.
    + intros Eb c k v Ic Ik C'. apply (N5 Eb c k v Ic Ik). apply kept_complex; [| exact C']. apply plain_keys; [| cbn in *; tauto].
      apply in_or_app. right. apply in_or_app. now left.
Qed.
Lemma kept_ends : forall f t, ends o' f t -> ends o f t.
Proof. intros f t [H1 H2]. split; apply kept_told; auto. Qed.
Lemma kept_number : forall E k v, plain k = true -> number E o k v <-> number E o' k v.
Proof. intros E k v P. unfold number. split; intros (t & T & F); exists t; (split; [now apply kept_says | exact F]). Qed.
Lemma kept_opt : forall E k v, plain k = true -> opt_number E o' k v -> opt_number E o k v.
Proof.
  intros E k v P [[S ->] | (x & N & ->)]; [left; split; [now apply kept_silent | reflexivity] | right; exists x; split; [now apply kept_number | reflexivity]].
Qed.
Lemma kept_volts : forall E n, volts_like E o' n -> volts_like E o n.
Proof.
  intros E n V p. destruct (V p) as [V1 V2]. split.
  - intros I v C. apply V1; [exact I | now apply kept_complex].
  - intros [N | S]; apply V2; [now left | right; now apply kept_silent].
Qed.
Lemma kept_phase_told : forall suffix p, phase_told o suffix p <-> phase_told o' suffix p.
Proof. intros suffix p. unfold phase_told. split; intros (t & T); exists t; now apply kept_says. Qed.
Lemma kept_wires : forall suffix opens ps ws, wires_as_told o' suffix opens ps ws -> wires_as_told o suffix opens ps ws.
Proof.
  intros suffix opens ps ws (W1 & W2 & W3). split; [exact W1 |]. split.
  - intros (p & I & T). destruct W2 as [(f & F & M) W2]; [exists p; split; [exact I | now apply kept_phase_told] |]. split.
    + exists f. split; [intros q; rewrite F; symmetry; apply kept_phase_told | exact M].
    + intros w Iw. rewrite (W2 w Iw). split; intros (t & T' & It); exists t; (split; [now apply kept_says | exact It]).
  - intros N. destruct W3 as [W3 W4]; [intros p I T; apply (N p I); now apply kept_phase_told |]. split.
    + intros st S. apply W3. now apply kept_says.
    + intros S. apply W4. now apply kept_silent.
Qed.
Lemma kept_fuse_limit : forall E v, fuse_limit E o' v -> fuse_limit E o v.
Proof.
  intros E v [[S ->] | (t & t' & x & T & R)]; [left; split; [now apply kept_silent | reflexivity] | right; exists t, t', x; split; [now apply kept_says | exact R]].
Qed.
Lemma kept_cap : forall E c, cap_matches E o' c -> cap_matches E o c.
Proof.
  intros E c (M1 & M2 & M3 & M4 & (qh & ql & vh & vl & L1 & L2 & L3 & L4 & L5) & (f & F & MF) & M6 & M7 & M8).
  split; [now apply kept_told |]. split; [now apply kept_told |]. split; [now apply kept_opt |].
  split; [intros p; now apply kept_told |].
  split; [exists qh, ql, vh, vl; split; [now apply kept_opt |]; split; [now apply kept_opt |];
          split; [destruct L3 as [L3 | [L3 L3']]; [now left | right; split; [exact L3 | now apply kept_opt]] |];
          split; [destruct L4 as [L4 | [L4 L4']]; [now left | right; split; [exact L4 | now apply kept_opt]] | exact L5] |].
  split; [exists f; split; [intros p; rewrite F, kept_silent; reflexivity | exact MF] |].
  split; [intros p v I; apply kept_number; [reflexivity | now apply M6] |].
  split; [intros t core S W; apply (M7 t core); [now apply kept_says | exact W] |].
  intros core S Co. apply M8; [now apply kept_silent | now apply kept_core].
Qed.
Lemma kept_contributes : forall E sch name part, contributes E sch name o' part -> contributes E sch name o part.
Proof.
  intros E sch name part C. pose proof kept_class as KC. destruct C; rewrite <- ?KC in *.
  - now apply c_shared.
  - eapply c_load; [now apply kept_load | apply kept_says; eauto | now apply kept_load_matches].
  - eapply c_load_node; [now apply kept_load | now apply kept_silent | now apply kept_load_matches | | eauto].
    intros core Co. apply H2. now apply kept_core.
  - eapply c_meter; [assumption | now rewrite kept_load | apply kept_told; [reflexivity | eassumption] | | eassumption].
    intros core Co. apply H2. now apply kept_core.
  - eapply c_node; [assumption | apply kept_told; [reflexivity | eassumption] | | | eassumption | now apply kept_volts].
    + intros core Co. apply H1. now apply kept_core.
    + rewrite H2. symmetry. now apply kept_says.
  - apply c_xfmr; [assumption | assumption | now apply kept_ends |]. intros core Co. apply H2. now apply kept_core.
  - apply c_fuse; [assumption | assumption | now apply kept_ends | | now apply kept_fuse_limit | assumption].
    intros core Co. destruct (H2 core (kept_core Co)) as [P W]. split; [exact P | now apply kept_wires].
  - apply c_switch; [assumption | assumption | assumption | now apply kept_ends |].
    intros core Co. destruct (H3 core (kept_core Co)) as [P W]. split; [exact P | now apply kept_wires].
  - apply c_line; [assumption | assumption | assumption | now apply kept_ends].
  - apply c_cap; [assumption | now apply kept_cap].
  - apply c_reg; [assumption | now apply kept_ends].
Qed.
End Kept.

(** *** the loop *)
Section File.
Variables (E : prims) (sch : list (string * string)).
Lemma same_store_app : forall a b c d, same_store a b -> same_store c d -> same_store (a ++ c)%list (b ++ d)%list.
Proof. intros. now apply Forall2_app. Qed.
Lemma loop_ok : forall objs l s s', all_kept objs (r_objs s) -> (forall n o, In (n, o) l -> dget n objs = Some o) ->
  mfold (read_object E sch) (map fst l) s = Ok s' ->
  exists parts, Forall2 (fun no part => contributes E sch (fst no) (snd no) part) l parts /\
    same_store (r_store s ++ concat parts)%list (r_store s') /\ all_kept objs (r_objs s').
Proof.
  intros objs l. induction l as [| [n o] l IH]; intros s s' A D H.
  - injection H as <-. exists []. split; [constructor |]. cbn. rewrite app_nil_r. split; [apply same_store_refl | exact A].
  - cbn in H. inv H. destruct (read_object_ok _ _ _ _ Hx) as (o' & part & N & C & St & SS).
    destruct (IH x s') as (parts & F & SS' & A').
    + eapply all_kept_trans; eauto.
    + intros n' o2 I. apply D. now right.
    + exact H.
    + exists (part :: parts). split; [constructor; [| exact F] |].
      * cbn. apply named_dget in N. destruct (all_kept_dget _ A (D n o (or_introl eq_refl))) as (o2 & G & K).
        rewrite G in N. injection N as ->. eapply kept_contributes; eauto.
      * split; [| exact A']. cbn [concat]. rewrite app_assoc. eapply same_store_trans; [| exact SS']. apply same_store_app; [exact SS | apply same_store_refl].
Qed.
Lemma nodup_dget : forall (objs : objects), NoDup (map fst objs) -> forall n o, In (n, o) objs -> dget n objs = Some o.
Proof.
  induction objs as [| [k v] objs IH]; intros ND n o I; [destruct I |]. inversion ND; subst. cbn. destruct I as [I | I].
  - injection I as -> ->. now rewrite String.eqb_refl.
  - destruct (String.eqb_spec n k); [subst | now apply IH]. destruct H1. apply in_map_iff. exists (k, o). auto.
Qed.
Lemma file_ok : forall objs ms, NoDup (map fst objs) -> read_store E sch objs = Ok ms ->
  exists parts, Forall2 (fun no part => contributes E sch (fst no) (snd no) part) objs parts /\ Forall2 same_model (concat parts) ms.
Proof.
  intros objs ms ND H. unfold read_store in H. inv H. injection H as <-.
  destruct (@loop_ok objs objs (start objs) x (all_kept_refl objs) (@nodup_dget objs ND) Hx) as (parts & F & SS & _). exists parts. split; [exact F | exact SS].
Qed.
(** after the file has been read the objects are as before, up to the rewritten texts *)
Lemma file_kept : forall objs names s', NoDup (map fst objs) -> names = map fst objs -> mfold (read_object E sch) names (start objs) = Ok s' ->
  all_kept objs (r_objs s').
Proof. intros objs names s' ND -> H. destruct (@loop_ok objs objs (start objs) s' (all_kept_refl objs) (@nodup_dget objs ND) H) as (parts & _ & _ & A). exact A. Qed.
Lemma mfold_err : forall S X (f : S -> X -> pres S) x, (forall s, exists e, f s x = Err e) -> forall l, In x l -> forall s, exists e, mfold f l s = Err e.
Proof.
  intros S X f x F l. induction l as [| y l IH]; intros I s; [destruct I |]. cbn. destruct I as [-> | I].
  - destruct (F s) as (e & ->). now exists e.
  - destruct (f s y) as [s' | e]; [now apply IH | now exists e].
Qed.
Lemma strayed : forall inv cap ms d x, In (MLoad d) ms -> In x (do_loads d) -> dp_phase x = None -> exists e, parse_three inv cap ms = Err e.
Proof.
  intros inv cap ms d x I Ix N. unfold parse_three. destruct (create_buses ms) as [n | e]; [| now exists e]. cbn.
  apply mfold_err with (x := MLoad d); [| exact I]. intros s. cbn. unfold create_load. destruct (do_name d) as [nm |]; [| eauto].
  apply mfold_err with (x := x); [| exact Ix]. intros s'. unfold create_phload. rewrite N. cbn. eauto.
Qed.
Lemma same_in_load : forall a b d, Forall2 same_model a b -> In (MLoad d) a -> In (MLoad d) b.
Proof.
  intros a b d H. induction H as [| x y a b S H IH]; intros I; [destruct I |]. destruct I as [-> | I]; [| right; auto].
  left. destruct S as [<- | (n & n' & Q & _)]; [reflexivity | discriminate].
Qed.
Lemma part_in : forall objs parts no, Forall2 (fun no part => contributes E sch (fst no) (snd no) part) objs parts -> In no objs ->
  exists part, contributes E sch (fst no) (snd no) part /\ incl part (concat parts).
Proof.
  intros objs parts no F. induction F as [| x part objs parts C F IH]; intros I; [destruct I |]. destruct I as [-> | I].
  - exists part. split; [exact C |]. intros m Hm. cbn. apply in_or_app. now left.
  - destruct (IH I) as (part' & C' & I'). exists part'. split; [exact C' |]. intros m Hm. cbn. apply in_or_app. right. now apply I'.
Qed.
Lemma file_load : forall objs ms name o, NoDup (map fst objs) -> read_store E sch objs = Ok ms -> In (name, o) objs -> load_object o ->
  exists d, In (MLoad d) ms /\ load_matches E sch name o d.
Proof.
  intros objs ms name o ND H I L. destruct (@file_ok objs ms ND H) as (parts & F & SS). destruct (@part_in objs parts (name, o) F I) as (part & C & Inc). cbn in C.
  assert (X : exists d, In (MLoad d) part /\ load_matches E sch name o d).
  { apply load_object_iff in L. destruct C; try (eexists; split; [cbn; left; reflexivity | assumption]);
    exfalso; apply load_object_iff in L; try tauto; destruct L as [L | [L | [L | [L _]]]]; cbn in *; rewrite L in *; intuition discriminate. }
  destruct X as (d & Id & M). exists d. split; [| exact M]. eapply same_in_load; eauto.
Qed.
Lemma delta_stray : forall inv cap objs ms name o core c k v, NoDup (map fst objs) -> read_store E sch objs = Ok ms -> In (name, o) objs -> load_object o ->
  phase_core o core -> In "D"%char (chars core) -> ~ In "S"%char (chars core) ->
  In c ["AB"; "BC"; "CA"; "1"; "2"; "12"] -> In k direct_loads -> complex E o (k ++ c) v -> v <> (0, 0)%R ->
  exists e, parse_three inv cap ms = Err e.
Proof.
  intros inv cap objs ms name o core c k v ND H I L C D NS Ic Ik V N. destruct (@file_load objs ms name o ND H I L) as (d & Id & _ & _ & M).
  assert (B : delta_phases core true) by (split; auto). destruct (M core true C B) as (_ & _ & _ & _ & X).
  destruct (X eq_refl c k v Ic Ik V N) as (x & Ix & Nx). eapply strayed; eauto.
Qed.
(** the number of loads *)
Definition is_load (m : dmodel) : bool := match m with MLoad _ => true | _ => false end.
Lemma same_count : forall a b, Forall2 same_model a b -> List.length (filter is_load a) = List.length (filter is_load b).
Proof.
  intros a b H. induction H as [| x y a b S H IH]; [reflexivity |]. destruct S as [-> | (n & n' & -> & -> & _)]; cbn; [| exact IH].
  destruct (is_load y); cbn; now rewrite IH.
Qed.
(** *** fractions *)
Definition is_frac (k : string) : bool := existsb (fun f => existsb (fun c => String.eqb k (f ++ c)) all_connections) six_fractions.
Lemma is_frac_iff : forall k, is_frac k = true <-> exists f c, In f six_fractions /\ In c all_connections /\ k = f ++ c.
Proof.
  intros k. unfold is_frac. rewrite existsb_exists. split.
  - intros (f & If & H). apply existsb_exists in H. destruct H as (c & Ic & H). apply String.eqb_eq in H. eauto 6.
  - intros (f & c & If & Ic & ->). exists f. split; [exact If |]. apply existsb_exists. exists c. split; [exact Ic | apply String.eqb_refl].
Qed.
Section Fractions.
Variables (o o' : gobj).
Hypothesis S : same_but_fractions E o o'.
Lemma frac_same : forall k, is_frac k = false -> gattr o k = gattr o' k.
Proof.
  intros k F. destruct S as [_ H]. destruct (H k) as [H' | [X _]].
  - destruct (gattr o k) as [t |] eqn:G.
    + apply gattr_says in G. apply H' in G. apply gattr_says in G. congruence.
    + destruct (gattr o' k) as [t |] eqn:G'; [| reflexivity]. apply gattr_says in G'. apply H' in G'. apply gattr_says in G'. congruence.
  - apply is_frac_iff in X. congruence.
Qed.
Lemma frac_zip : forall c ks, In c all_connections -> incl ks six_fractions -> zip_given E o c ks = zip_given E o' c ks.
Proof.
  induction ks as [| k ks IH]; intros Ic I; [reflexivity |]. cbn. specialize (IH Ic (fun a Ha => I a (or_intror Ha))).
  destruct S as [_ H]. destruct (H (k ++ c)) as [H' | (_ & (v & t & T & F) & (v' & t' & T' & F'))].
  - destruct (gattr o (k ++ c)) as [t |] eqn:G.
    + apply gattr_says in G. apply H' in G. apply gattr_says in G. rewrite G. destruct (fl E t); [cbn; exact IH | reflexivity].
    + destruct (gattr o' (k ++ c)) as [t |] eqn:G'; [| reflexivity]. apply gattr_says in G'. apply H' in G'. apply gattr_says in G'. congruence.
  - apply gattr_says in T, T'. rewrite T, T'. unfold fl. rewrite F, F'. cbn. exact IH.
Qed.
Lemma frac_false : forall p c, In p (direct_loads ++ ["base_power_"])%list -> In c all_connections -> is_frac (p ++ c) = false.
Proof.
  intros p c Ip Ic.
  assert (H : forallb (fun p => forallb (fun c => negb (is_frac (p ++ c))) all_connections) (direct_loads ++ ["base_power_"])%list = true) by (vm_compute; reflexivity).
  rewrite forallb_forall in H. specialize (H p Ip). rewrite forallb_forall in H. apply negb_true_iff. now apply H.
Qed.
Lemma frac_phase : forall b c, In c all_connections -> phase_loads E sch o b c = phase_loads E sch o' b c.
Proof.
  intros b c Ic. unfold phase_loads, power_load, impedance_load, current_load, zip_load, cattr.

  assert (F : forall p, In p (direct_loads ++ ["base_power_"])%list -> gattr o (p ++ c) = gattr o' (p ++ c)) by (intros; apply frac_same; now apply frac_false).
  rewrite !F by (cbn; tauto). change zip_attrs with six_fractions. rewrite (frac_zip Ic (incl_refl _)). reflexivity.
Qed.
Lemma frac_all : forall b, all_phase_loads E sch o b = all_phase_loads E sch o' b.
Proof.
  intros b. unfold all_phase_loads. change load_connections with all_connections.
  assert (X : incl all_connections all_connections) by apply incl_refl. revert X. generalize (@nil dphload). generalize all_connections at 1 3 4.
  induction l as [| c l IH]; intros acc X; [reflexivity |]. cbn. rewrite frac_phase by (apply X; cbn; tauto).
  destruct (phase_loads E sch o' b c); [cbn | reflexivity]. apply IH. intros z Ha. apply X. now right.
Qed.
Lemma frac_load : forall name, read_load E sch name o = read_load E sch name o'.
Proof.
  intros name. unfold read_load, fattr, cattr. rewrite !(@frac_same "nominal_voltage"), !(@frac_same "voltage_1"), !(@frac_same "voltage_2"),
    !(@frac_same "phases"), !(@frac_same "parent") by (vm_compute; reflexivity). cbv zeta. rewrite frac_all. reflexivity.
Qed.
End Fractions.
End File.
Lemma objects_kept : forall E sch objs s, NoDup (map fst objs) ->
  mfold (read_object E sch) (map fst objs) (start objs) = Ok s -> all_kept objs (r_objs s).
Proof. intros E sch objs s ND H. exact (@file_kept E sch objs _ s ND eq_refl H). Qed.
