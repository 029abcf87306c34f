(** From the objects of a file to the network: clean files, groups of elements. *)
From Coq Require Import Reals ZArith String Ascii List Bool Lia Lra Arith.
From Verif Require Import PyExc SpecComponents SpecUnbalanced Components Devices UnbalancedLine GlmText SpecGlm GlmBase LineImpedance ThreePhase SpecThreePhase SpecThreeElems ThreePhaseBase GlmReader SpecReader ReaderBase ReaderLoadProofs ReaderFrame ReaderStore ReaderFile ReaderFrame2 ReaderVisit SpecLineZ SpecReader2 LineFile ReaderTurns OverheadFile SpecReader3 XfmrFile RegFile VnomFile ThreePhaseFinal SpecFile.
Import ListNotations.
Local Open Scope string_scope.
Set Implicit Arguments.

(** *** lists *)
Lemma forall2_split : forall A B (P : A -> B -> Prop) l m1 m2, Forall2 P l (m1 ++ m2)%list -> exists l1 l2, l = (l1 ++ l2)%list /\ Forall2 P l1 m1 /\ Forall2 P l2 m2.
Proof. intros A B P l m1 m2 H. apply Forall2_app_inv_r in H. destruct H as (l1 & l2 & H1 & H2 & ->). eauto. Qed.
Lemma regroup : forall A B M (P : A -> B -> Prop) (f : M -> list B) parts l, Forall2 P l (flat_map f (concat parts)) ->
  exists gs, l = concat gs /\ Forall2 (fun g part => Forall2 P g (flat_map f part)) gs parts.
Proof.
  intros A B M P f parts. induction parts as [| part parts IH]; intros l H.
  - cbn in H. inversion H. exists []. split; [reflexivity | constructor].
  - cbn [concat] in H. rewrite flat_map_app in H. apply forall2_split in H. destruct H as (l1 & l2 & -> & H1 & H2).
    destruct (IH l2 H2) as (gs & -> & G). exists (l1 :: gs). split; [reflexivity | now constructor].
Qed.
Lemma same_flat : forall B (f : dmodel -> list B), (forall n, f (MNode n) = []) -> forall a b, Forall2 same_model a b -> flat_map f a = flat_map f b.
Proof.
  intros B f N a b F. induction F as [| x y a b S F IH]; [reflexivity |]. cbn. rewrite IH. f_equal.
  destruct S as [-> | (n & n' & -> & -> & _)]; [reflexivity | now rewrite !N].
Qed.
Lemma forall2_nth : forall A B (P : A -> B -> Prop) l m, Forall2 P l m -> List.length l = List.length m /\
  forall i a b, nth_error l i = Some a -> nth_error m i = Some b -> P a b.
Proof.
  intros A B P l m F. induction F as [| x y l m S F IH]; [split; [reflexivity |]; intros [| i] a b H; discriminate H |].
  destruct IH as [L IH]. split; [cbn; now rewrite L |]. intros [| i] a b; cbn; [intros H1 H2; now injection H1 as <-; injection H2 as <- | apply IH].
Qed.

(** *** one kind of element *)
(** the elements of the network are grouped by the objects of the file *)
Lemma grouping : forall E sch objs parts ms A B (P : A -> B -> Prop) (f : dmodel -> list B) (ts : list A) (kind : gobj -> Prop) (ok : nat -> string -> gobj -> list A -> Prop),
  Forall2 (fun no part => contributes E sch (fst no) (snd no) part) objs parts -> Forall2 same_model (concat parts) ms -> (forall n, f (MNode n) = []) ->
  Forall2 P ts (flat_map f ms) ->
  (forall i name o part g, nth_error objs i = Some (name, o) -> nth_error parts i = Some part -> contributes E sch name o part ->
     Forall2 P g (flat_map f part) -> (kind o -> ok i name o g) /\ (~ kind o -> g = [])) ->
  grouped objs kind ok ts.
Proof.
  intros E sch objs parts ms A B P f ts kind ok F S N H K. rewrite <- (same_flat f N S) in H. apply regroup in H. destruct H as (gs & -> & G).
  apply forall2_nth in F. destruct F as [L F]. apply forall2_nth in G. destruct G as [LG G].
  exists gs. split; [reflexivity |]. split; [congruence |]. intros i name o g Ho Hg.
  destruct (nth_error parts i) as [part |] eqn:Hp; [| apply nth_error_None in Hp; assert (i < List.length objs)%nat by (apply nth_error_Some; congruence); lia].
  exact (K i name o part g Ho Hp (F _ _ _ Ho Hp) (G _ _ _ Hg Hp)).
Qed.
Lemma nil_group : forall A B (P : A -> B -> Prop) g, Forall2 P g [] -> g = [].
Proof. intros A B P g H. now inversion H. Qed.
Lemma load_classes : forall o, load_object o -> In (go_class o) ["load"; "triplex_load"; "triplex_node"; "triplex_meter"].
Proof. intros o [C | [C | [C | [C _]]]]; rewrite C; cbn; tauto. Qed.
(** by the class of the object, its contribution *)
Ltac classes H :=
  repeat match goal with
  | L : load_object _ |- _ => apply load_classes in L
  end; cbn in *; intuition congruence.

(** *** clean files *)
Section Clean.
Variables (E : prims) (sch : list (string * string)).
Lemma nodes_nnames : forall ms, map dn_name (nodes_of ms) = nnames ms.
Proof. induction ms as [| m ms IH]; [reflexivity |]. destruct m; cbn; try exact IH. now rewrite IH. Qed.
Lemma nodes_in : forall ms n, In n (nodes_of ms) <-> In (MNode n) ms.
Proof.
  induction ms as [| m ms IH]; intros n; [cbn; tauto |]. destruct m as [n0 | | | | | | |]; cbn; rewrite IH; try (split; [intros H; right; exact H | intros [H | H]; [discriminate H | exact H]]).
  split; (intros [H | H]; [left; congruence | now right]).
Qed.
Definition phases_fine (m : dmodel) : Prop :=
  Forall known (element_phases m) /\ match m with MNode n => NoDup (dn_phases n) | _ => True end.
Lemma same_fine : forall m m', same_model m m' -> phases_fine m -> phases_fine m'.
Proof. intros m m' [<- | (n & n' & -> & -> & _ & _ & _ & P & _)] F; [exact F |]. destruct F as [F1 F2]. split; [exact F1 |]. cbn in *. now rewrite <- P. Qed.
Lemma known12 : known "1" /\ known "2".
Proof. split; cbn; tauto. Qed.
Lemma knownABC : forall p, In p ["A"; "B"; "C"] -> known p.
Proof. intros p H. cbn in *. tauto. Qed.
Lemma nodup_filter : forall A (f : A -> bool) l, NoDup l -> NoDup (filter f l).
Proof. intros A f l ND. now apply NoDup_filter. Qed.
Lemma nodup_letters : forall core, NoDup (phase_letters core) ->
  NoDup (map (fun c => String c EmptyString) (filter (fun c => existsb (Ascii.eqb c) (chars "ABC12")) (chars core))).
Proof.
  intros core. unfold phase_letters. induction (chars core) as [| c l IH]; intros ND; [constructor |]. cbn [filter] in *.
  destruct (existsb (Ascii.eqb c) (chars "ABC12")) eqn:X.
  - assert (M : marker c = false).
    { apply existsb_exists in X. destruct X as (d & I & Q). apply Ascii.eqb_eq in Q. subst d. cbn in I. destruct I as [<- | [<- | [<- | [<- | [<- | []]]]]]; reflexivity. }
    rewrite M in ND. cbn [negb map] in *. inversion ND as [| ? ? N1 N2]. constructor; [| now apply IH]. intros I. apply N1.
    apply in_map_iff in I. destruct I as (d & Q & I). apply in_map_iff. exists d. split; [exact Q |]. apply filter_In in I. destruct I as [I1 I2].
    injection Q as ->. apply filter_In. split; [exact I1 |]. now rewrite M.
  - apply IH. destruct (marker c); cbn [negb map] in ND; [exact ND | now inversion ND].
Qed.
Lemma known_letters : forall cs, Forall known (map (fun c => String c EmptyString) (filter (fun c => existsb (Ascii.eqb c) (chars "ABC12")) cs)).
Proof.
  intros cs. apply Forall_forall. intros p I. apply in_map_iff in I. destruct I as (c & <- & I). apply filter_In in I. destruct I as [_ X].
  apply existsb_exists in X. destruct X as (d & I & Q). apply Ascii.eqb_eq in Q. subst d. cbn in I. destruct I as [<- | [<- | [<- | [<- | [<- | []]]]]]; cbn; tauto.
Qed.
Lemma wires_known : forall o suffix opens ps ws, wires_as_told o suffix opens ps ws -> Forall known ps -> Forall known (map wi_phase ws).
Proof.
  intros o suffix opens ps ws (_ & W1 & W2) K.
  destruct (gattr o ("phase_A" ++ suffix)) as [t |] eqn:GA; [| destruct (gattr o ("phase_B" ++ suffix)) as [t |] eqn:GB; [| destruct (gattr o ("phase_C" ++ suffix)) as [t |] eqn:GC]].
  4:{ destruct W2 as [W3 W4].
      - intros p I (t & S). cbn in I. apply gattr_says in S. destruct I as [<- | [<- | [<- | []]]]; cbn in S, GA, GB, GC; congruence.
      - destruct (gattr o "status") as [st |] eqn:GS.
        + apply gattr_says in GS. destruct (W3 _ GS) as [-> _]. exact K.
        + apply gattr_silent in GS. destruct (W4 GS) as [-> _]. destruct ps as [| p ps]; [constructor |]. inversion K. cbn. constructor; [assumption | constructor]. }
  all: destruct W1 as [(f & _ & ->) _]; [| apply Forall_forall; intros p I; apply filter_In in I; now apply knownABC].
  - exists "A". split; [cbn; tauto |]. exists t. now apply gattr_says.
  - exists "B". split; [cbn; tauto |]. exists t. now apply gattr_says.
  - exists "C". split; [cbn; tauto |]. exists t. now apply gattr_says.
Qed.
Lemma extended_known : forall c ks ps qs, extended c ks ps qs -> Forall known ps -> Forall known qs.
Proof.
  intros c ks ps qs X. induction X as [ps | k ks p ps qs _ I _ _ X IH | k ks p ps qs _ I _ X IH]; intros K; [exact K | | now apply IH].
  apply IH. apply Forall_app. split; [exact K |]. constructor; [| constructor]. now apply knownABC.
Qed.
(** the phases of a transformer's windings *)
Lemma xfmr_shape : forall objs pre name o part s1 s2 o1, at_turn E sch objs pre name o part s1 s2 o1 -> go_class o = "transformer" ->
  forall core, phase_core o core -> exists x, part = [MXfmr x] /\ dx_phases x = phase_letters core /\
    forall w, In w (dx_windings x) -> dw_phases w = phase_letters core \/ dw_phases w = "1" :: tl (phase_letters core) \/ dw_phases w = ["2"].
Proof.
  intros objs pre name o part s1 s2 o1 (H1 & H2 & D1 & R & UB & AK & SS) C core PC.
  assert (C1 : go_class o1 = "transformer") by (destruct R as [Q _]; congruence).
  destruct (@xfmr_turn E sch s1 s2 name o1 H2 D1 C1) as (pt & pi & Gp & Pp & RX). destruct (@core_letters o1 pt pi Gp Pp core (rw_core R PC)) as (P1 & _).
  unfold read_xfmr in RX. inv RX. cbv zeta in RX. injection RX as <-.
  assert (ST : r_store (fst x) = r_store s1).
  { destruct (gattr o1 "configuration") as [n |]; [| injection Hx as <-; reflexivity]. destruct (dget n (r_objs s1)) as [c |]; [| injection Hx as <-; reflexivity].
    inv Hx. injection Hx as <-. reflexivity. }
  cbn [r_store GlmReader.append with_store] in SS. rewrite ST in SS. apply part_one in SS; [| discriminate].
  eexists. split; [exact SS |]. cbn [dx_phases dx_windings]. split; [exact P1 |]. intros w I. unfold windings_of in I. rewrite P1 in I.
  destruct (xc_r (snd x)) as [[r1 r2] r3]. destruct (is_tap (xc_conn (snd x))); cbn in I.
  - destruct I as [<- | [<- | [<- | []]]]; cbn; tauto.
  - destruct I as [<- | [<- | []]]; cbn; tauto.
Qed.
Lemma part_fine : forall objs pre name o part s1 s2 o1, at_turn E sch objs pre name o part s1 s2 o1 -> contributes E sch name o part -> clean_object o ->
  Forall phases_fine part.
Proof.
  intros objs pre name o part s1 s2 o1 A K [C | (core & PC & ND & KN)].
  - inversion K; subst; try constructor; exfalso; classes K.
  - inversion K as [C | d par L SP LM | d n ps L SI LM NP NL | n par C NLo T CS NL | n ps b par C T P BT NL V | x C Q EN P | l C F EN P FL ST | l C F SW EN P | l C F SW EN | c C M | r C EN]; subst part.
    + constructor.
    + repeat constructor.
    + assert (N : Forall known ps /\ NoDup ps).
      { destruct (NP core PC) as [P1 P2]. destruct (in_dec Ascii.ascii_dec "S"%char (chars core)) as [I | I].
        - rewrite (P1 I). split; [constructor; [apply known12 | constructor; [apply known12 | constructor]] |]. repeat constructor; cbn; intuition discriminate.
        - rewrite (P2 I). split; [apply known_letters | now apply nodup_letters]. }
      destruct NL as (_ & NL & _). constructor; [now repeat constructor |]. constructor; [| constructor]. split; [constructor | now rewrite NL].
    + destruct NL as (_ & NL & _). constructor; [| constructor]. split; [constructor |]. rewrite NL. repeat constructor; cbn; intuition discriminate.
    + destruct NL as (_ & NL & _). destruct (P core PC) as [_ ->]. constructor; [| constructor]. split; [constructor | now rewrite NL].
    + destruct (@xfmr_shape _ _ _ _ _ _ _ _ A C core PC) as (x' & Q' & P1 & W). injection Q' as <-. constructor; [| constructor]. split; [| exact I].
      cbn [element_phases]. rewrite P1. apply Forall_app. split; [exact KN |]. apply Forall_flat_map. apply Forall_forall. intros w Iw. destruct known12 as [k1 k2].
      destruct (W w Iw) as [-> | [-> | ->]]; [exact KN | | constructor; [exact k2 | constructor]]. constructor; [exact k1 |]. destruct (phase_letters core); [constructor | now inversion KN].
    + constructor; [| constructor]. split; [| exact I]. cbn [element_phases]. rewrite F. cbn [orb]. destruct (P core PC) as [_ W]. exact (wires_known W KN).
    + constructor; [| constructor]. split; [| exact I]. cbn [element_phases]. rewrite F, SW. cbn [orb]. destruct (P core PC) as [_ W]. exact (wires_known W KN).
    + constructor; [| constructor]. split; [| exact I]. cbn [element_phases]. rewrite F, SW. constructor.
    + repeat constructor.
    + destruct (@reg_part E sch _ _ _ _ _ _ _ _ A C) as (c & r' & _ & Q' & _ & _ & X & _). injection Q' as <-. constructor; [| constructor]. split; [| exact I].
      cbn [element_phases]. destruct (X core PC) as [X1 _]. exact (extended_known X1 KN).
Qed.
Lemma clean_fine : forall objs ms, clean_file objs -> read_store E sch objs = Ok ms -> Forall phases_fine ms.
Proof.
  intros objs ms [ND CL] H. destruct (@file_turns E sch objs ms ND H) as (parts & F & S & T).
  assert (Q : Forall phases_fine (concat parts)).
  { apply Forall_concat. apply Forall_forall. intros part I. apply In_nth_error in I. destruct I as (i & Hp). apply forall2_nth in F. destruct F as [L F].
    destruct (nth_error objs i) as [[name o] |] eqn:Ho; [| apply nth_error_None in Ho; assert (i < List.length parts)%nat by (apply nth_error_Some; congruence); lia].
    destruct (T i name o Ho) as (part' & s1 & s2 & o1 & Hp' & A). assert (part' = part) as -> by congruence.
    apply (part_fine A); [exact (F _ _ _ Ho Hp) |]. rewrite Forall_forall in CL. exact (CL (name, o) (nth_error_In _ _ Ho)). }
  clear - S Q. induction S as [| x y l m S1 S IH]; [constructor |]. inversion Q; subst. constructor; [eapply same_fine; eauto | now apply IH].
Qed.
Lemma clean_ok : forall objs ms, clean_file objs -> read_store E sch objs = Ok ms -> tidy ms /\ known_elements ms.
Proof.
  intros objs ms CL H. pose proof (clean_fine CL H) as F. destruct CL as [ND _]. split; [split |].
  - rewrite nodes_nnames. unfold read_store in H. inv H. injection H as <-. destruct (@inv_loop E sch objs ND objs [] x (eq_sym (app_nil_r objs)) Hx) as [V _]. exact V.
  - apply Forall_forall. intros n I. apply nodes_in in I. rewrite Forall_forall in F. exact (proj2 (F _ I)).
  - eapply Forall_impl; [| exact F]. intros m [K _]. exact K.
Qed.
End Clean.
