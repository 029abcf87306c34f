(** Lines, from the file to the store. *)
From Coq Require Import Reals ZArith String Ascii List Bool Lia Lra Arith.
From Verif Require Import PyExc SpecComponents SpecUnbalanced Components UnbalancedLine GlmText SpecGlm GlmBase LineImpedance ThreePhase GlmReader SpecReader ReaderBase ReaderLoadProofs ReaderFrame ReaderStore ReaderFile ReaderFrame2 ReaderVisit SpecLineZ KronProofs CarsonProofs SpacingProofs LineZFinal TriplexProofs SpecReader2.
Import ListNotations.
Local Open Scope string_scope.
Set Implicit Arguments.

(** *** parts of strings *)
Lemma prefix_iff : forall u t, String.prefix u t = true <-> exists b, t = u ++ b.
Proof.
  induction u as [| c u IH]; intros t; [split; [exists t; reflexivity | intros _; destruct t; reflexivity] |]. destruct t as [| d t]; cbn.
  - split; [discriminate | intros (b & H); discriminate H].
  - destruct (ascii_dec c d) as [-> | n].
    + rewrite IH. split; intros (b & H); exists b; [now rewrite H | now injection H].
    + split; [discriminate | intros (b & H); injection H as H _; congruence].
Qed.
Lemma contains_part : forall u t, contains u t = true <-> part_of u t.
Proof.
  intros u t. unfold contains, part_of. induction t as [| c t IH].
  - cbn. destruct u as [| d u]; split; try discriminate; try reflexivity.
    + intros _. exists "", "". reflexivity.
    + intros (a & b & H). destruct a; discriminate H.
  - cbn [index]. destruct (String.prefix u (String c t)) eqn:P.
    + split; [intros _ | reflexivity]. apply prefix_iff in P. destruct P as (b & P). exists "", b. exact P.
    + destruct (index 0 u t); (split; [intros H | intros (a & b & H)]).
      * destruct (proj1 IH eq_refl) as (a & b & ->). exists (String c a), b. reflexivity.
      * reflexivity.
      * discriminate H.
      * destruct a as [| d a].
        -- assert (X : String.prefix u (String c t) = true) by (apply prefix_iff; exists b; exact H). congruence.
        -- injection H as -> ->. apply IH. exists a, b. reflexivity.
Qed.
Lemma contains_not : forall u t, contains u t = false <-> ~ part_of u t.
Proof. intros u t. rewrite <- contains_part. destruct (contains u t); split; congruence. Qed.
Lemma among_digits : forall E t x, among E t x <-> p_float E (digits t) = Some x.
Proof.
  intros E t x. split; [intros (t' & O & F); now rewrite (only_number_digits O) in F | intros F; exists (digits t); split; [apply only_digits | exact F]].
Qed.

(** *** what rewriting leaves *)
Lemma rwl_says : forall o o' k t, rwl o o' -> k <> "length" -> ~ allowed k t -> says o k t -> says o' k t.
Proof.
  intros o o' k t [_ R] N A S. apply gattr_says in S. apply gattr_says. destruct (R k N) as [_ R2]. destruct (R2 t S) as [G | [A' _]]; [exact G | tauto].
Qed.
Lemma rwl_plain : forall o o' k, rwl o o' -> ~ In k rewritten -> gattr o' k = gattr o k.
Proof.
  intros o o' k [_ R] N. assert (L : k <> "length") by (intros ->; apply N; cbn; tauto). destruct (R k L) as [R1 R2].
  destruct (gattr o k) as [t |]; [| now apply R1]. destruct (R2 t eq_refl) as [G | [[A _] _]]; [exact G | tauto].
Qed.
Lemma rwl_bare : forall E o o' k u x, rwl o o' -> k <> "length" -> unit_of k = Some u -> bare E o k u x -> bare E o' k u x.
Proof.
  intros E o o' k u x R N U (t & S & P & F). exists t. split; [| split; assumption]. apply (rwl_says R N); [| exact S].
  intros (_ & _ & A). apply P. apply contains_part. now apply A.
Qed.
Lemma dist_key : forall p q, In p spots -> In q spots -> ("distance_" ++ p ++ q) <> "length" /\ unit_of ("distance_" ++ p ++ q) = None.
Proof.
  intros p q Hp Hq. cbn in Hp, Hq. split; [discriminate |].
  destruct Hp as [<- | [<- | [<- | [<- | [<- | []]]]]]; destruct Hq as [<- | [<- | [<- | [<- | [<- | []]]]]]; reflexivity.
Qed.
Lemma apart_rwl : forall E o o' p q x, rwl o o' -> apart E o p q x <-> apart E o' p q x.
Proof.
  intros E o o' p q x [_ R]. unfold apart.
  assert (K : "distance_" ++ p ++ q <> "length") by discriminate. destruct (R _ K) as [R1 R2]. split.
  - intros (B & t & t' & S & O & F). split; [exact B |]. apply gattr_says in S. destruct (R2 t S) as [G | [_ G]].
    + exists t, t'. split; [now apply gattr_says |]. tauto.
    + exists (digits t), t'. split; [now apply gattr_says |]. split; [| exact F]. apply only_number_digits in O. subst t'.
      pose proof (only_digits (digits t)) as X. now rewrite digits_idem in X.
  - intros (B & t & t' & S & O & F). split; [exact B |]. apply gattr_says in S. destruct (gattr o ("distance_" ++ p ++ q)) as [t0 |] eqn:G; [| rewrite (R1 eq_refl) in S; discriminate].
    exists t0, t'. split; [now apply gattr_says |]. split; [| exact F]. destruct (R2 t0 eq_refl) as [G' | [_ G']]; [assert (t = t0) by congruence; now subst |].
    assert (t = digits t0) by congruence. subst t. apply only_number_digits in O. subst t'. rewrite digits_idem. apply only_digits.
Qed.
Lemma gap_rwl : forall E o o' p q x, rwl o o' -> gap E o p q x <-> gap E o' p q x.
Proof. intros E o o' p q x R. unfold gap. now rewrite !(apart_rwl E _ _ _ R). Qed.
Lemma places_rwl : forall E o o' l, rwl o o' -> places E o l -> places E o' l.
Proof.
  intros E o o' l R (f & F & ->). exists f. split; [| reflexivity]. intros p I. rewrite (F p I). unfold placed.
  split; intros (q & x & G); exists q, x; now apply (gap_rwl E p q x R).
Qed.

(** *** lengths *)
Lemma length_metres : forall E o r, line_length E o = Ok r -> metres E o (snd r).
Proof.
  intros E o r H. unfold line_length in H. destruct (gattr o "length") as [t |] eqn:G; [| discriminate]. exists t. split; [now apply gattr_says |].
  destruct (contains "km" t) eqn:C; inv H; injection H as <-; apply fl_ok in Hx; cbn.
  - left. split; [now apply contains_part |]. exists x. split; [now apply among_digits | reflexivity].
  - right. split; [now apply contains_not |]. exists x. split; [exact Hx |]. reflexivity.
Qed.
Lemma rw_metres : forall E o o' v, rw o o' -> metres E o' v -> metres E o v.
Proof.
  intros E o o' v [_ R] (t & S & M). destruct (R "length") as [R1 R2]. apply gattr_says in S. exists t. split; [| exact M]. apply gattr_says.
  destruct (gattr o "length") as [t0 |]; [| rewrite (R1 eq_refl) in S; discriminate].
  destruct (R2 t0 eq_refl) as [G | [(_ & A & _) _]]; [congruence | now destruct A].
Qed.

(** *** the conductors *)
Definition named_all (objs objs1 : objects) : Prop := untouched_before objs objs1.
Section Lines.
Variable E : prims.
Lemma unit_bare : forall c k u f r x, unit_attr E c k u f = Ok r -> bare E c k u x -> r = (c, Some x).
Proof.
  intros c k u f r x H (t & S & P & F). unfold unit_attr, fl in H. apply gattr_says in S. rewrite S in H. apply contains_not in P. rewrite P, F in H.
  cbn in H. now injection H as <-.
Qed.
Lemma oh_wire_bare : forall w c r x g, oh_wire E w c = Ok r -> bare E c "resistance" "Ohm/km" x -> bare E c "geometric_mean_radius" "cm" g ->
  w_phase (snd r) = w_phase w /\ w_res (snd r) = Some x /\ w_gmr (snd r) = Some g.
Proof.
  intros w c r x g H Bx Bg. unfold oh_wire in H. do 5 inv H. injection H as <-. cbn.
  rewrite (unit_bare _ Hx0 Bg) in *. cbn [fst snd] in *. rewrite (unit_bare _ Hx1 Bx). cbn. repeat split; reflexivity.
Qed.
Lemma tp_wire_bare : forall w c r x g, tp_wire E w c = Ok r -> bare E c "resistance" "Ohm/km" x -> bare E c "geometric_mean_radius" "cm" g ->
  w_phase (snd r) = w_phase w /\ w_res (snd r) = Some x /\ w_gmr (snd r) = Some g /\ w_diam (snd r) = w_diam w /\ w_ins (snd r) = w_ins w.
Proof.
  intros w c r x g H (t & S & _ & F) (t2 & S2 & _ & F2). unfold tp_wire in H. do 4 inv H. injection H as <-. cbn.
  apply gattr_says in S, S2. unfold fattr, fl in Hx, Hx0. rewrite S2, F2 in Hx. rewrite S, F in Hx0. cbn in Hx, Hx0.
  injection Hx as <-. injection Hx0 as <-. repeat split; reflexivity.
Qed.
Lemma fill_ok : forall (f : wire -> gobj -> pres (gobj * wire)) (Q : string * wire -> wire -> Prop) (P : string * wire -> gobj -> Prop),
  wire_frame f -> (forall cw c c', P cw c -> rw c c' -> P cw c') -> (forall cw c r, P cw c -> f (snd cw) c = Ok r -> Q cw (snd r)) ->
  forall cws objs ws0 objs' ws', (forall cw, In cw cws -> exists c, dget (fst cw) objs = Some c /\ P cw c) ->
  mfold (fill f) cws (objs, ws0) = Ok (objs', ws') -> exists t, ws' = (ws0 ++ t)%list /\ Forall2 Q cws t.
Proof.
  intros f Q P F PR PQ cws. induction cws as [| cw cws IH]; intros objs ws0 objs' ws' D H.
  - injection H as <- <-. exists []. rewrite app_nil_r. split; [reflexivity | constructor].
  - cbn [mfold] in H. inv H. unfold fill in Hx. inv Hx. inv Hx. injection Hx as <-.
    destruct (D cw (or_introl eq_refl)) as (c & Dc & Pc). apply obj_at_dget in Hx0. assert (x0 = c) as -> by congruence.
    assert (A : all_rw objs (dset (fst cw) (fst x1) objs)) by (eapply all_rw_dset; [exact Dc | eapply F; eauto]).
    destruct (IH (dset (fst cw) (fst x1) objs) (ws0 ++ [snd x1])%list objs' ws') as (t & -> & T).
    + intros cw' I. destruct (D cw' (or_intror I)) as (c' & Dc' & Pc'). destruct (all_rw_dget _ A Dc') as (c2 & D2 & R2). exists c2. split; [exact D2 | eapply PR; eauto].
    + exact H.
    + exists (snd x1 :: t). rewrite <- app_assoc. split; [reflexivity |]. constructor; [| exact T]. eapply PQ; eauto.
Qed.
Definition has_cond (c : gobj) (p : string) : bool := match gattr c ("conductor_" ++ p) with Some _ => true | None => false end.
Lemma wires_for_phases : forall c l, map (fun cw => w_phase (snd cw)) (wires_for c l) = filter (has_cond c) l.
Proof.
  intros c l. unfold wires_for. induction l as [| p l IH]; [reflexivity |]. cbn [flat_map filter]. unfold has_cond at 1.
  destruct (gattr c ("conductor_" ++ p)); cbn [List.app map snd new_wire w_phase]; now rewrite IH.
Qed.
Lemma wires_for_in : forall c l cw, In cw (wires_for c l) -> In (w_phase (snd cw)) l /\ gattr c ("conductor_" ++ w_phase (snd cw)) = Some (fst cw) /\ snd cw = new_wire (w_phase (snd cw)).
Proof.
  intros c l cw I. unfold wires_for in I. apply in_flat_map in I. destruct I as (p & Ip & I). destruct (gattr c ("conductor_" ++ p)) eqn:G; [| destruct I].
  destruct I as [<- | []]. cbn [fst snd new_wire w_phase]. auto.
Qed.
Lemma conductors_filter : forall c l ps, conductors_of c l ps -> ps = filter (has_cond c) l.
Proof.
  intros c l ps (f & F & ->). apply filter_ext. intros p. specialize (F p). unfold has_cond. rewrite <- gattr_silent in F.
  destruct (f p), (gattr c ("conductor_" ++ p)); try reflexivity; intuition congruence.
Qed.
Lemma cond_plain : forall p, ~ In ("conductor_" ++ p) rewritten \/ "conductor_" ++ p = "conductor_resistance".
Proof.
  intros p. destruct (string_dec ("conductor_" ++ p) "conductor_resistance") as [e | n]; [now right | left].
  intros I. cbn [In rewritten] in I. repeat (destruct I as [I | I]; [first [discriminate I | apply n; symmetry; exact I] |]). destruct I.
Qed.
End Lines.
