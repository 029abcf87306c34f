(** Transformers, from the file to the store. *)
From Coq Require Import Reals ZArith String Ascii List Bool Lia Lra Arith.
From Verif Require Import PyExc SpecComponents SpecUnbalanced Components UnbalancedLine GlmText SpecGlm GlmBase LineImpedance ThreePhase GlmReader SpecReader ReaderBase ReaderLoadProofs ReaderFrame ReaderStore ReaderFile ReaderFrame2 ReaderVisit SpecLineZ SpecReader2 LineFile ReaderTurns OverheadFile SpecReader3.
Import ListNotations.
Local Open Scope string_scope.
Set Implicit Arguments.

Ltac key := let Z := fresh in intros Z; cbn in Z; repeat (destruct Z as [Z | Z]; [discriminate Z |]); destruct Z.
(** *** what rewriting leaves *)
Lemma plain_says : forall o o' k t, rwl o o' -> ~ In k rewritten -> says o k t -> says o' k t.
Proof. intros o o' k t R N S. apply gattr_says. rewrite (rwl_plain R N). now apply gattr_says. Qed.
Lemma rwl_silent : forall o o' k, rwl o o' -> k <> "length" -> silent o k -> silent o' k.
Proof. intros o o' k [_ R] N S. apply gattr_silent. apply (R k N). now apply gattr_silent. Qed.
Lemma says_back : forall o o' k t, rwl o o' -> ~ In k rewritten -> says o' k t -> says o k t.
Proof. intros o o' k t R N S. apply gattr_says. rewrite <- (rwl_plain R N). now apply gattr_says. Qed.
Lemma silent_back : forall o o' k, rwl o o' -> ~ In k rewritten -> silent o' k -> silent o k.
Proof. intros o o' k R N S. apply gattr_silent. rewrite <- (rwl_plain R N). now apply gattr_silent. Qed.
Lemma not_length : forall k, ~ In k rewritten -> k <> "length".
Proof. intros k N ->. apply N. now left. Qed.
Section Transfer.
Variables (E : prims) (c c' : gobj).
Hypothesis R : rwl c c'.
Lemma connect_rwl : forall l, connect_is c l <-> connect_is c' l.
Proof. intros l. split; intros (t & S & I); exists t; (split; [| exact I]); [apply (plain_says R) | apply (says_back R)]; try exact S; key. Qed.
Lemma wiring_rwl : forall a b tap, wiring c a b tap -> wiring c' a b tap.
Proof. intros a b tap. unfold wiring. rewrite !connect_rwl. tauto. Qed.
Lemma complex_rwl : forall k v, ~ In k rewritten -> complex E c k v -> complex E c' k v.
Proof. intros k v N (t & S & F). exists t. split; [now apply (plain_says R) | exact F]. Qed.
Lemma number_rwl : forall k v, ~ In k rewritten -> number E c k v -> number E c' k v.
Proof. intros k v N (t & S & F). exists t. split; [now apply (plain_says R) | exact F]. Qed.
Lemma opt_complex_rwl : forall k v, ~ In k rewritten -> opt_complex E c k v -> opt_complex E c' k v.
Proof.
  intros k v N [[S ->] | (x & X & ->)]; [left; split; [apply (rwl_silent R); [now apply not_length | exact S] | reflexivity] | right; exists x; split; [now apply complex_rwl | reflexivity]].
Qed.
Lemma opt_bare_rwl : forall k u v, k <> "length" -> unit_of k = Some u -> opt_bare E c k u v -> opt_bare E c' k u v.
Proof.
  intros k u v N U [[S ->] | (x & X & ->)]; [left; split; [now apply (rwl_silent R) | reflexivity] | right; exists x; split; [exact (rwl_bare R N U X) | reflexivity]].
Qed.
Lemma volts_rwl : forall k v raw, ~ In k rewritten -> winding_volts E c k v raw -> winding_volts E c' k v raw.
Proof.
  intros k v raw N [(S & Q1 & Q2) | (t & x & S & X)]; [left; split; [apply (rwl_silent R); [now apply not_length | exact S] | tauto] | right; exists t, x].
  split; [now apply (plain_says R) | exact X].
Qed.
Lemma ohms_rwl : forall tap r xs, ohms E c tap r xs -> ohms E c' tap r xs.
Proof.
  intros tap r xs. unfold ohms. assert (SI : forall k, ~ In k rewritten -> silent c k -> silent c' k) by (intros k N; apply (rwl_silent R); now apply not_length).
  assert (RB : opt_bare E c "resistance" "Ohm/km" r -> opt_bare E c' "resistance" "Ohm/km" r) by (apply opt_bare_rwl; [discriminate | reflexivity]).
  intros [(x & X & B & K) | [(S & z & Z & Q & K) | (S & S2 & B & Q)]].
  - left. exists x. split; [apply number_rwl; [key | exact X] |]. split; [now apply RB |].
    destruct K as [K | [(T & S & Q) | (T & z1 & Z1 & K)]]; [now left | right; left | right; right].
    + split; [exact T |]. split; [apply SI; [key | exact S] | exact Q].
    + split; [exact T |]. exists z1. split; [apply complex_rwl; [key | exact Z1] |]. destruct K as [[S Q] | (z2 & Z2 & Q)].
      * left. split; [apply SI; [key | exact S] | exact Q].
      * right. exists z2. split; [apply complex_rwl; [key | exact Z2] | exact Q].
  - right. left. split; [apply SI; [key | exact S] |]. exists z. split; [apply complex_rwl; [key | exact Z] |]. tauto.
  - right. right. split; [apply SI; [key | exact S] |]. split; [apply SI; [key | exact S2] |]. split; [now apply RB | exact Q].
Qed.
Definition three_keys := ["powerA_rating"; "powerB_rating"; "powerC_rating"].
Lemma rating_rwl : forall k v, In k three_keys -> one_rating E c k v -> one_rating E c' k v.
Proof.
  intros k v I. assert (N : k <> "length") by (intros ->; cbn in I; intuition discriminate). intros [[S ->] | (t & x & S & X & ->)].
  - left. split; [now apply (rwl_silent R) | reflexivity].
  - right. apply gattr_says in S. destruct R as [_ R']. destruct (R' k N) as [_ R2]. destruct (R2 t S) as [G | [A G]].
    + exists t, x. split; [now apply gattr_says |]. tauto.
    + assert (U : unit_of k = Some "kVA") by (cbn in I; destruct I as [<- | [<- | [<- | []]]]; reflexivity).
      destruct A as (_ & _ & A). specialize (A _ U). exists (digits t), x. split; [now apply gattr_says |]. split; [| reflexivity].
      destruct X as [[_ X] | [X _]]; [| now apply contains_part in A]. right. split; [| now apply among_digits].
      apply contains_not. now apply contains_digits.
Qed.
Lemma rated_rwl : forall p, rated_power E c p -> rated_power E c' p.
Proof.
  intros p [(t & x & S & X & Q) | (S & a & b & d & A & B & D & Q)].
  - left. apply gattr_says in S. destruct R as [_ R']. destruct (R' "power_rating") as [_ R2]; [discriminate |]. destruct (R2 t S) as [G | [A G]].
    + exists t, x. split; [now apply gattr_says |]. tauto.
    + exists (digits t), x. split; [now apply gattr_says |]. split; [| exact Q]. apply among_digits in X. apply among_digits. now rewrite digits_idem.
  - right. split; [apply (rwl_silent R); [discriminate | exact S] |]. exists a, b, d.
    split; [apply rating_rwl; [cbn; tauto | exact A] |]. split; [apply rating_rwl; [cbn; tauto | exact B] |]. split; [apply rating_rwl; [cbn; tauto | exact D] | exact Q].
Qed.
End Transfer.

(** *** reading a configuration *)
Section Conf.
Variables (E : prims) (sch : list (string * string)).
Lemma wiring_conn : forall c a b tap, wiring c a b tap -> is_tap (conn_of c) = tap /\ conn1 (conn_of c) = a /\ conn2 (conn_of c) = b.
Proof.
  intros c a b tap W. unfold conn_of. unfold wiring, connect_is in W. 
  assert (X : forall l, (exists t, says c "connect_type" t /\ In t l) -> exists t, gattr c "connect_type" = Some t /\ In t l) by (intros l (t & S & I); exists t; split; [now apply gattr_says | exact I]).
  destruct W as [[W Q] | [[W Q] | [[W Q] | [[W Q] | [W Q]]]]]; try (apply X in W; destruct W as (t & G & I); rewrite G; injection Q as -> -> ->;
    destruct I as [<- | [<- | []]]; cbn; auto; fail).
  injection Q as -> -> ->. destruct (gattr c "connect_type") as [t |] eqn:G; [| cbn; auto]. apply gattr_says in G.
  assert (Y : forall u, In u ["1"; "WYE_WYE"; "2"; "DELTA_DELTA"; "3"; "DELTA_GWYE"; "5"; "SINGLE_PHASE_CENTER_TAPPED"] -> String.eqb t u = false).
  { intros u I. apply String.eqb_neq. intros ->. apply W. eauto. }
  rewrite !Y by (cbn; tauto). cbn. auto.
Qed.
Lemma opt_complex_cattr : forall c k v r, opt_complex E c k v -> cattr E c k = Ok r -> r = v.
Proof.
  intros c k v r [[S ->] | (x & X & ->)] H; apply cattr_ok in H; destruct H as [[-> S'] | (y & -> & Y)]; try reflexivity.
  - destruct Y as (t & T & _). now destruct (says_silent T S).
  - destruct X as (t & T & _). now destruct (says_silent T S').
  - now rewrite (complex_fun X Y).
Qed.
Lemma opt_bare_fattr : forall c k u v r, opt_bare E c k u v -> fattr E c k = Ok r -> r = v.
Proof.
  intros c k u v r [[S ->] | (x & (t & T & _ & F) & ->)] H; apply fattr_ok in H; destruct H as [[-> S'] | (y & -> & t' & T' & Y)]; try reflexivity.
  - now destruct (says_silent T' S).
  - now destruct (says_silent T S').
  - rewrite (says_fun T T') in F. congruence.
Qed.
Lemma winding_volts_ok : forall c k v raw r, winding_volts E c k v raw -> volts E c k = Ok r -> option_map fst r = v /\ option_map snd r = raw.
Proof.
  intros c k v raw r W H. unfold volts in H. destruct W as [(S & -> & ->) | (t & x & S & X & -> & K)].
  - apply gattr_silent in S. rewrite S in H. injection H as <-. auto.
  - apply gattr_says in S. rewrite S in H. inv H. apply fl_ok in Hx. apply among_digits in X. assert (x0 = x) as -> by congruence. injection H as <-. cbn.
    split; [| reflexivity]. destruct K as [[P ->] | [P ->]]; [apply contains_part in P | apply contains_not in P]; now rewrite P.
Qed.
Lemma eight : (8 / 10 = 0.8)%R. Proof. lra. Qed.
Lemma four : (4 / 10 = 0.4)%R. Proof. lra. Qed.
Lemma split_ok : forall tap r, split_res tap r = (times (1 / 2) (Some r), times (if tap then 1 else 1 / 2) (Some r), if tap then Some r else None).
Proof.
  intros tap r. unfold split_res, times, option_map. assert (X : (r / 2 = 1 / 2 * r)%R) by lra. rewrite X. destruct tap; [| reflexivity].
  now rewrite Rmult_1_l.
Qed.
Lemma cattr_complex : forall c k z r, complex E c k z -> cattr E c k = Ok r -> r = Some z.
Proof. intros c k z r X H. apply (@opt_complex_cattr c k (Some z) r); [right; eauto | exact H]. Qed.
Lemma cattr_silent : forall c k r, silent c k -> cattr E c k = Ok r -> r = None.
Proof. intros c k r X H. apply (@opt_complex_cattr c k None r); [left; auto | exact H]. Qed.
Lemma ohms_ok : forall c tap r xs z, ohms E c tap r xs -> impedances_of E tap c = Ok z ->
  z = ((times (1 / 2) r, times (if tap then 1 else 1 / 2) r, if tap then r else None), xs).
Proof.
  intros c tap r xs z O H. unfold impedances_of in H. inv H. cbv zeta in H. inv H. destruct O as [(x1 & X & B & K) | [(S & z1 & Z & -> & K) | (S & S2 & B & ->)]].
  - apply fattr_ok in Hx0. destruct Hx0 as [[_ S] | (y & -> & Y)]; [destruct X as (t & T & _); now destruct (says_silent T S) |].
    rewrite <- (number_fun X Y) in H. clear y Y. inv H. injection H as <-. rewrite (opt_bare_fattr B Hx). f_equal.
    + destruct r as [r |]; [apply split_ok |]. cbn. now destruct tap.
    + unfold reactances_of in Hx0. unfold tap_reactances in K. rewrite eight, four in Hx0. destruct K as [[-> ->] | [(-> & S & ->) | (-> & z1 & Z1 & K)]].
      * now injection Hx0.
      * inv Hx0. rewrite (cattr_silent S Hx1) in Hx0. now injection Hx0.
      * inv Hx0. rewrite (cattr_complex Z1 Hx1) in Hx0. inv Hx0. injection Hx0 as <-. destruct K as [[S2 ->] | (z2 & Z2 & ->)].
        -- now rewrite (cattr_silent S2 Hx2).
        -- now rewrite (cattr_complex Z2 Hx2).
  - apply fattr_ok in Hx0. destruct Hx0 as [[-> _] | (y & -> & t & T & _)]; [| now destruct (says_silent T S)].
    inv H. rewrite (cattr_complex Z Hx0) in H. injection H as <-. rewrite split_ok, eight, four. f_equal. unfold tap_reactances in K. destruct K as [[-> ->] | [-> ->]]; reflexivity.
  - apply fattr_ok in Hx0. destruct Hx0 as [[-> _] | (y & -> & t & T & _)]; [| now destruct (says_silent T S)].
    inv H. rewrite (cattr_silent S2 Hx0) in H. injection H as <-. rewrite (opt_bare_fattr B Hx). f_equal.
    destruct r as [r |]; [apply split_ok |]. cbn. now destruct tap.
Qed.
Lemma rating_ok : forall c k v r, one_rating E c k v -> rating E c k = Ok r -> snd r = v.
Proof.
  intros c k v r [[S ->] | (t & x & S & X & ->)] H; unfold rating in H.
  - apply gattr_silent in S. rewrite S in H. now injection H as <-.
  - apply gattr_says in S. rewrite S in H. destruct X as [[P X] | [P X]].
    + apply contains_part in P. rewrite P in H. inv H. apply fl_ok in Hx. apply among_digits in X. injection H as <-. cbn. congruence.
    + apply contains_not in P. rewrite P in H. inv H. apply fl_ok in Hx. injection H as <-. cbn. congruence.
Qed.
Lemma sum_oplus : forall a b d, oplus (oplus a b) d = sum_given [a; b; d].
Proof. intros [a |] [b |] [d |]; cbn; try reflexivity; f_equal; ring. Qed.
Lemma three_ok : forall c a b d r, one_rating E c "powerA_rating" a -> one_rating E c "powerB_rating" b -> one_rating E c "powerC_rating" d ->
  three_ratings E c = Ok r -> snd r = sum_given [a; b; d].
Proof.
  intros c a b d r A B D H. unfold three_ratings in H. do 3 inv H. injection H as <-. cbn [snd].
  assert (R1 : rw c (fst x)) by (eapply rating_rw; [| exact Hx]; cbn; tauto).
  assert (R2 : rw (fst x) (fst x0)) by (eapply rating_rw; [| exact Hx0]; cbn; tauto).
  assert (R3 : rwl c (fst x0)) by (apply rw_rwl; eapply rw_trans; eauto). apply rw_rwl in R1.
  rewrite (rating_ok A Hx). rewrite (rating_ok (rating_rwl R1 (k := "powerB_rating") ltac:(cbn; tauto) B) Hx0).
  rewrite (rating_ok (rating_rwl R3 (k := "powerC_rating") ltac:(cbn; tauto) D) Hx1). apply sum_oplus.
Qed.
Lemma rated_ok : forall c tap p r, rated_power E c p -> rated E tap c = Ok r -> snd r = p.
Proof.
  intros c tap p r P H. unfold rated in H. inv H. inv H.
  assert (R1 : rwl c x). { apply rw_rwl. destruct tap; [inv Hx; injection Hx as <-; eapply three_rw; eauto | injection Hx as <-; apply rw_refl]. }
  apply (rated_rwl R1) in P. assert (R2 : rwl x (fst x0)) by (apply rw_rwl; eapply total_rw; eauto).
  unfold total_rating in Hx0. destruct P as [(t & y & S & X & ->) | (S & a & b & d & A & B & D & ->)].
  - apply gattr_says in S. rewrite S in Hx0. inv Hx0. apply fl_ok in Hx1. apply among_digits in X. assert (x1 = y) as -> by congruence. injection Hx0 as <-. cbn [snd fst] in H. injection H as <-. reflexivity.
  - apply gattr_silent in S. rewrite S in Hx0. injection Hx0 as <-. cbn [snd fst] in H. eapply three_ok; eauto.
Qed.
Lemma half_times : forall p, half p = times (1 / 2) p.
Proof. intros [p |]; cbn; [f_equal; lra | reflexivity]. Qed.
Lemma conf_ok : forall c a b tap sh v1 raw1 v2 raw2 r xs p x ps, wiring c a b tap -> opt_complex E c "shunt_impedance" sh ->
  winding_volts E c "primary_voltage" v1 raw1 -> winding_volts E c "secondary_voltage" v2 raw2 -> ohms E c tap r xs -> rated_power E c p ->
  read_xconf E c = Ok x -> is_tap (xc_conn (snd x)) = tap /\ xc_shunt (snd x) = sh /\ xc_x (snd x) = xs /\ windings_of (snd x) ps = three_windings a b tap v1 v2 raw2 r p ps.
Proof.
  intros c a b tap sh v1 raw1 v2 raw2 r xs p x ps W SH V1 V2 O P H. unfold read_xconf in H. cbv zeta in H. do 6 inv H. injection H as <-. cbn [snd xc_conn xc_shunt xc_x].
  destruct (wiring_conn W) as (T & Ca & Cb). rewrite T in *. split; [reflexivity |]. split; [exact (opt_complex_cattr SH Hx0) |].
  rewrite (ohms_ok O Hx3). split; [reflexivity |]. unfold windings_of. cbn [xc_r xc_conn xc_v1 xc_v2 xc_v3 xc_rated fst]. rewrite T, Ca, Cb.
  destruct (winding_volts_ok V1 Hx1) as [-> _]. destruct (winding_volts_ok V2 Hx2) as [-> Q]. rewrite (@rated_ok c tap p x5 P Hx4). unfold three_windings. rewrite half_times.
  destruct tap; [| reflexivity]. assert (Y : option_map (fun v : R * R => (- snd v)%R) x3 = times (-1) raw2) by (subst raw2; destruct x3 as [v |]; cbn; [f_equal; ring | reflexivity]).
  now rewrite Y.
Qed.

(** *** the turn of a transformer or regulator *)
Lemma xfmr_turn : forall s1 s2 name o1, read_object E sch s1 name = Ok s2 -> dget name (r_objs s1) = Some o1 -> go_class o1 = "transformer" ->
  exists ps pi, gattr o1 "phases" = Some ps /\ parse_phases ps = Ok pi /\ read_xfmr E name o1 pi s1 = Ok s2.
Proof.
  intros s1 s2 name o1 H D C. unfold read_object in H. inv H. apply obj_at_dget in Hx. assert (x = o1) as -> by congruence.
  unfold class_of in H. rewrite C in H. cbn [GlmText.mem existsb shared_config_objects String.eqb Ascii.eqb Bool.eqb orb andb] in H; cbv zeta in H; do 2 inv H.
  cbn [String.eqb Ascii.eqb Bool.eqb orb] in H; apply attr_ok in Hx0; exists x, x0. auto.
Qed.
Lemma reg_turn : forall s1 s2 name o1, read_object E sch s1 name = Ok s2 -> dget name (r_objs s1) = Some o1 -> go_class o1 = "regulator" ->
  exists ps pi, gattr o1 "phases" = Some ps /\ parse_phases ps = Ok pi /\ read_reg E o1 pi s1 = Ok s2.
Proof.
  intros s1 s2 name o1 H D C. unfold read_object in H. inv H. apply obj_at_dget in Hx. assert (x = o1) as -> by congruence.
  unfold class_of in H. rewrite C in H. cbn [GlmText.mem existsb shared_config_objects String.eqb Ascii.eqb Bool.eqb orb andb] in H; cbv zeta in H; do 2 inv H.
  cbn [String.eqb Ascii.eqb Bool.eqb orb] in H; apply attr_ok in Hx0; exists x, x0. auto.
Qed.
Lemma config_turn : forall objs (s1 : rstate) o o1, rwl o o1 -> untouched_before objs (r_objs s1) -> all_kept objs (r_objs s1) ->
  (forall c, configured objs o c -> exists n c1, gattr o1 "configuration" = Some n /\ dget n (r_objs s1) = Some c1 /\ rwl c c1) /\
  (forall n c1, gattr o1 "configuration" = Some n -> dget n (r_objs s1) = Some c1 -> exists c, configured objs o c /\ rwl c c1).
Proof.
  intros objs s1 o o1 R UB AK. assert (G : gattr o1 "configuration" = gattr o "configuration") by (apply (rwl_plain R); key). rewrite G. split.
  - intros c (n & S & N). apply gattr_says in S. apply named_dget in N. destruct (UB _ _ N) as (c1 & D & Rc). eauto.
  - intros n c1 S D. destruct (kept_back _ AK D) as (c & Dc). destruct (UB _ _ Dc) as (c2 & D2 & Rc). assert (c2 = c1) as -> by congruence.
    exists c. split; [| exact Rc]. exists n. split; [now apply gattr_says | now apply named_dget].
Qed.
Lemma xfmr_part : forall objs pre name o part s1 s2 o1, at_turn E sch objs pre name o part s1 s2 o1 -> go_class o = "transformer" -> xfmr_ok E objs o part.
Proof.
  intros objs pre name o part s1 s2 o1 (H1 & H2 & D1 & R & UB & AK & SS) C core PC.
  assert (C1 : go_class o1 = "transformer") by (destruct R as [Q _]; congruence).
  destruct (@xfmr_turn s1 s2 name o1 H2 D1 C1) as (pt & pi & Gp & Pp & RX). destruct (@core_letters o1 pt pi Gp Pp core (rw_core R PC)) as (P1 & _).
  apply rw_rwl in R. destruct (config_turn s1 R UB AK) as [F B]. unfold read_xfmr in RX. inv RX. cbv zeta in RX. injection RX as <-.
  assert (ST : r_store (fst x) = r_store s1).
  { destruct (gattr o1 "configuration") as [n |]; [| injection Hx as <-; reflexivity]. destruct (dget n (r_objs s1)) as [c |]; [| injection Hx as <-; reflexivity].
    inv Hx. injection Hx as <-. reflexivity. }
  cbn [GlmReader.append with_store r_store] in SS. rewrite ST in SS. apply part_one in SS; [| discriminate]. eexists. split; [exact SS |]. cbn [dx_shift dx_tap dx_shunt dx_reactances dx_windings].
  split; [reflexivity |]. rewrite P1. split.
  - intros c a b tap sh v1 raw1 v2 raw2 r xs p K W SH V1 V2 O P. destruct (F c K) as (n & c1 & G & D & Rc). rewrite G, D in Hx. inv Hx. injection Hx as <-. cbn [snd].
    eapply (@conf_ok c1 a b tap sh v1 raw1 v2 raw2 r xs p); [now apply (wiring_rwl Rc) | apply (opt_complex_rwl Rc); [key | exact SH] | apply (volts_rwl Rc); [key | exact V1] |
      apply (volts_rwl Rc); [key | exact V2] | now apply (ohms_rwl Rc) | now apply (rated_rwl Rc) | exact Hx0].
  - intros K. assert (X : snd x = no_xconf).
    { destruct (gattr o1 "configuration") as [n |] eqn:G; [| injection Hx as <-; reflexivity]. destruct (dget n (r_objs s1)) as [c |] eqn:D; [| injection Hx as <-; reflexivity].
      destruct (B n c eq_refl D) as (c0 & K0 & _). now destruct (K c0). }
    rewrite X. cbn. auto.
Qed.
End Conf.
