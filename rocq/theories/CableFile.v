(** Underground lines, from the file to the store. *)
From Coq Require Import Reals ZArith String Ascii List Bool Lia Lra Arith.
From Verif Require Import PyExc SpecComponents SpecUnbalanced Components UnbalancedLine GlmText SpecGlm GlmBase LineImpedance ThreePhase GlmReader SpecReader ReaderBase ReaderLoadProofs ReaderFrame ReaderStore ReaderFile ReaderFrame2 ReaderVisit SpecLineZ KronProofs CarsonProofs SpacingProofs LineZFinal SpecReader2 LineFile ReaderKeep ReaderWires ReaderTurns LineProofs OverheadFile Cables SpecCables ShuntProofs ChargeProofs RingProofs CableZProofs CableFinal CableKeep CableWires SpecCableFile CableTurns.
Import ListNotations.
Local Open Scope string_scope.
Set Implicit Arguments.
Ltac plain := let Z := fresh in intros Z; cbn in Z; repeat (destruct Z as [Z | Z]; [discriminate Z |]); destruct Z.

(** *** distances *)
Section Table.
Variables (E : prims) (o : gobj).
Lemma ug_given : forall outer l o' d s, NoDup l -> incl l pairs5 ->
  (forall ij, In ij l -> gattr o' (dname (fst ij) (snd ij)) = gattr o (dname (fst ij) (snd ij))) ->
  (forall ij t, In ij l -> gattr o (dname (fst ij) (snd ij)) = Some t -> p_float E (digits t) <> Some 0%R) ->
  mfold (ug_pair E outer) l (o', d) = Ok s -> snd s = fold_left (put_given E o) l d.
Proof.
  intros outer. induction l as [| [i j] l IH]; intros o' d s N I H Z R.
  - injection R as <-. reflexivity.
  - inversion N as [| ? ? N1 N2]; subst. cbn [mfold] in R. apply bind_ok in R. destruct R as ([o2 d2] & R1 & R).
    assert (S : d2 = put_given E o d (i, j) /\ forall ij, In ij l -> gattr o2 (dname (fst ij) (snd ij)) = gattr o (dname (fst ij) (snd ij))).
    { unfold ug_pair in R1. pose proof (H (i, j) ltac:(cbn; tauto)) as G. pose proof (Z (i, j)) as Zij. cbn [fst snd] in G, Zij. unfold put_given, given. cbn [fst snd].
      unfold gattr in G at 1. destruct (dget (dname i j) (go_attrs o')) as [t |] eqn:D.
      - rewrite <- G. apply bind_ok in R1. destruct R1 as (x & Fx & R1). apply fl_ok in Fx. rewrite Fx.
        assert (NZ : reqb x 0 = false). { destruct (reqb x 0) eqn:Q; [| reflexivity]. apply reqb_iff in Q. subst x. exfalso. apply (Zij t); [cbn; tauto | now symmetry | exact Fx]. }
        rewrite NZ in *. cbn [pbind] in R1. injection R1 as <- <-. split; [reflexivity |].
        intros ij Hij. rewrite gattr_set. destruct (String.eqb_spec (dname (fst ij) (snd ij)) (dname i j)) as [e |].
        + exfalso. apply (@dname_inj ij (i, j)) in e; [subst; contradiction | apply I; cbn; tauto | apply I; cbn; tauto].
        + apply H. cbn. tauto.
      - rewrite <- G. injection R1 as <- <-. split; [reflexivity |]. intros ij Hij. apply H. cbn. tauto. }
    destruct S as (-> & S). cbn [fold_left]. apply (IH o2 (put_given E o d (i, j)) s N2); [| exact S | | exact R].
    + intros ij Hij. apply I. cbn. tauto.
    + intros ij t Hij. apply Z. cbn. tauto.
Qed.
Lemma ug_table : forall outer o' d, no_zero E o -> underground_spacing E outer o = Ok (o', d) -> d = table5 E o.
Proof.
  intros outer o' d NZ H. unfold underground_spacing in H. change d with (snd (o', d)).
  apply (@ug_given outer pairs5 o no_dist (o', d)); [exact pairs_nodup | apply incl_refl | reflexivity | | exact H].
  intros [i j] t Hij G. pose proof (proj1 (Forall_forall _ _) pairs_ok _ Hij) as (L & B). cbn [fst snd] in *.
  apply (NZ (spot i) (spot j) t); [apply before_iff; exists i, j; auto | apply gattr_says; exact G | apply only_digits].
Qed.
Lemma table_tabled : exists l, places E o l /\ tabled E o l (strip_dist (table5 E o)).
Proof.
  exists (map spot (filter (touched E o) (seq 0 5))). split; [| apply strip_tabled].
  exists (fun p => touched E o (if String.eqb p "A" then 0 else if String.eqb p "B" then 1 else if String.eqb p "C" then 2 else if String.eqb p "N" then 3 else 4))%nat.
  split.
  - intros p Hp. cbn in Hp. destruct Hp as [<- | [<- | [<- | [<- | [<- | []]]]]]; cbn [String.eqb Ascii.eqb Bool.eqb];
    symmetry; [apply (placed_iff E o (i := 0)) | apply (placed_iff E o (i := 1)) | apply (placed_iff E o (i := 2)) | apply (placed_iff E o (i := 3)) | apply (placed_iff E o (i := 4))]; lia.
  - unfold spots. cbn [filter seq String.eqb Ascii.eqb Bool.eqb].
    destruct (touched E o 0), (touched E o 1), (touched E o 2), (touched E o 3), (touched E o 4); reflexivity.
Qed.
End Table.
Lemma no_zero_rwl : forall E o o1, rwl o o1 -> no_zero E o -> no_zero E o1.
Proof.
  intros E o o1 [_ R] Z p q t t' B S O. assert (K : "distance_" ++ p ++ q <> "length") by discriminate. destruct (R _ K) as [R1 R2]. apply gattr_says in S.
  destruct (gattr o ("distance_" ++ p ++ q)) as [t0 |] eqn:G; [| rewrite (R1 eq_refl) in S; discriminate].
  apply (Z p q t0 t' B); [now apply gattr_says |]. destruct (R2 t0 eq_refl) as [G' | [_ G']]; [assert (t = t0) by congruence; now subst |].
  assert (t = digits t0) by congruence. subst t. apply only_number_digits in O. subst t'. rewrite digits_idem. apply only_digits.
Qed.
(** *** numbers *)
Lemma whole_trunc : forall x k, whole x k -> trunc x = k.
Proof.
  intros x k (K & L & U). apply IZR_lt in K. unfold trunc. assert (rltb x 0 = false) as ->.
  { unfold rltb. destruct (Rlt_dec x 0); [lra | reflexivity]. }
  destruct (base_Int_part x) as (B1 & B2). assert (A : (IZR (Int_part x) < IZR k + 1)%R) by lra. assert (B : (IZR k < IZR (Int_part x) + 1)%R) by lra.
  rewrite <- plus_IZR in A, B. apply lt_IZR in A, B. lia.
Qed.
Lemma cmeasured : forall E cd (u : bool) used x, (u = true <-> used) -> SpecReader2.measured E cd "conductor_resistance" "Ohm/km" per_mile used x ->
  cvalued E u (gattr cd "conductor_resistance") = Some x.
Proof.
  intros E cd u used x U (t & S & M). apply gattr_says in S. rewrite S. cbn [cvalued]. destruct M as [[N F] | [P (y & A & M)]].
  - apply contains_not in N. now rewrite N.
  - apply contains_part in P. rewrite P. apply among_digits in A. rewrite A. cbn [option_map]. destruct M as [[H ->] | [H ->]].
    + apply U in H. now rewrite H.
    + destruct u; [tauto | reflexivity].
Qed.
Lemma all_some_ok : forall ws, (forall w, In w ws -> exists od, w_outer w = Some od) -> exists outer, all_some (map w_outer ws) = Some outer.
Proof.
  induction ws as [| w ws IH]; intros H; [exists []; reflexivity |]. destruct (H w (or_introl eq_refl)) as (od & Q). destruct IH as (l & L); [intros v I; apply H; now right |].
  exists (od :: l). cbn. now rewrite Q, L.
Qed.
Lemma f2_index : forall A B (P Q : A -> B -> Prop) l m, Forall2 P l m ->
  (forall i a b, nth_error l i = Some a -> nth_error m i = Some b -> P a b -> Q a b) -> Forall2 Q l m.
Proof.
  intros A B P Q l m H. induction H as [| a b l m Pab H IH]; intros K; constructor; [apply (K 0 a b); auto |].
  apply IH. intros i x y Hx Hy. exact (K (S i) x y Hx Hy).
Qed.
Lemma f2_join : forall A B D (P : A -> B -> Prop) (Q : A -> D -> Prop) (T : B -> D -> Prop) l m k, Forall2 P l m -> Forall2 Q l k ->
  (forall a b d, In a l -> P a b -> Q a d -> T b d) -> Forall2 T m k.
Proof.
  intros A B D P Q T l m k H. revert k. induction H as [| a b l m Pab H IH]; intros k H2 K; inversion H2; subst; constructor.
  - eapply K; [now left | eassumption | eassumption].
  - apply IH; [assumption |]. intros xx1 xx2 xx3 I. apply K. now right.
Qed.
Lemma f2_in_l : forall A B (P : A -> B -> Prop) l m, Forall2 P l m -> forall i a, nth_error l i = Some a -> exists b, nth_error m i = Some b /\ P a b.
Proof. intros A B P l m H. induction H as [| a b l m Pab H IH]; intros [| i] x Hx; try discriminate; [injection Hx as <-; exists b; auto | now apply IH]. Qed.

Section File.
Variables (E : prims) (sch : list (string * string)).
(** a wire of phase p *)
Definition wire_of (objs pre : objects) (o c : gobj) (p : string) (w : wire) : Prop :=
  w_phase w = p /\ exists n cd, says c ("conductor_" ++ p) n /\ named objs n cd /\ cable_numbers E cd w /\
    exists u : bool, (u = true <-> buried_before objs pre c p n) /\ w_res w = cvalued E u (gattr cd "conductor_resistance").
Lemma named_fun : forall objs n a b, named objs n a -> named objs n b -> a = b.
Proof. intros objs n a b H K. apply named_dget in H, K. congruence. Qed.
Lemma says_fun : forall o k a b, says o k a -> says o k b -> a = b.
Proof. intros o k a b H K. apply gattr_says in H, K. congruence. Qed.
Lemma wire_cable : forall objs pre o c p w cab, p <> "N" -> wire_of objs pre o c p w ->
  (exists n cd, says c ("conductor_" ++ p) n /\ named objs n cd /\ cable_object E cd (buried_before objs pre c p n) cab) -> has_data w cab.
Proof.
  intros objs pre o c p w cab NP (Q & n & cd & S & N & (A1 & A2 & (x & A3 & K) & A4 & A5 & A6 & A7 & A8) & u & U & Rs) (n' & cd' & S' & N' & C).
  rewrite (says_fun S' S) in N', C. rewrite (named_fun N' N) in C.
  destruct C as ((od & nd & O1 & O2 & O3) & (y & Y & W) & M & G & Sr & Sg & P1 & P2 & P3).
  pose proof (opt_is A3 Y) as XY. split; [congruence |]. split; [exists od, nd; split; [exact (opt_is A1 O1) |]; split; [exact (opt_is A2 O2) | exact O3] |].
  split; [rewrite K, XY; cbn; now rewrite (whole_trunc W) |]. split; [rewrite Rs; eapply cmeasured; eauto |]. split; [exact (opt_is A5 G) |].
  split; [exact (opt_is A7 Sr) |]. split; [exact (opt_is A6 Sg) |]. split; [exact P1 |]. split; [apply W |]. auto.
Qed.
Lemma ug_wires : forall objs pre o o1 s s' ps cs neutral D, cstate (cusedb objs pre) objs (r_objs s) -> untouched_before objs (r_objs s) -> all_kept objs (r_objs s) ->
  rwl o o1 -> ug_config E o1 s = Ok s' -> underground_data E objs pre o ps cs neutral D ->
  exists ws d c, r_conds s' = Some ws /\ r_dist s' = Some d /\ laid ws cs neutral /\ configured objs o c /\
    surveyed (List.length ws) cs (strip_dist d) (by_place (with_neutral ps neutral) D) /\ Forall2 (wire_of objs pre o c) (with_neutral ps neutral) ws.
Proof.
  intros objs pre o o1 s s' ps cs neutral D S UB AK R H (c & so & m & (cn & Scn & Ncn) & CO & NN & NE & (sn & Ssn & Nsn) & CD & CN & PL & NZ & GP).
  unfold ug_config in H. rewrite (@says_rwl o o1 "configuration" cn R ltac:(plain) Scn) in H. pose proof Ncn as Ncn0. apply named_dget in Ncn, Nsn.
  destruct (UB _ _ Ncn) as (c1 & Dc1 & Rc). unfold obj_at in H at 1. rewrite Dc1 in H. cbn [pbind] in H. inv H. destruct x as [objs2 ws].
  unfold fill_all in Hx. change ["A"; "B"; "C"; "N"] with line_phases in Hx. rewrite (@wires_rwl c c1 line_phases Rc (or_introl (incl_refl _))) in Hx.
  rewrite (@says_rwl c c1 "spacing" sn Rc ltac:(plain) Ssn) in H. inv H.
  pose proof (conductors_filter CO) as PS. pose proof (wires_for_phases c line_phases) as WP. rewrite <- PS in WP.
  destruct (@ug_fill_state E (wires_for c line_phases) (cusedb objs pre) objs (r_objs s) [] objs2 ws (new_wires c line_phases) S Hx) as (_ & t & Qt & PT & V).
  cbn [List.app] in Qt. subst t. set (l := with_neutral ps neutral) in *.
  assert (HC : forall cw, In cw (wires_for c line_phases) -> snd cw = new_wire (w_phase (snd cw)) /\ exists cd, dget (fst cw) objs = Some cd).
  { intros cw I. destruct (wires_for_in _ _ _ I) as (_ & Gc & Q). split; [exact Q |].
    assert (Ip : In (w_phase (snd cw)) l) by (rewrite <- WP; apply in_map_iff; exists cw; auto).
    apply in_app_or in Ip. destruct Ip as [Ip | Ip].
    - apply In_nth_error in Ip. destruct Ip as (i & Hi). destruct (f2_in_l CD _ Hi) as (cab & _ & n & cd & Sn & Nn & _). apply gattr_says in Sn.
      assert (n = fst cw) as -> by congruence. apply named_dget in Nn. eauto.
    - destruct neutral as [[r g] |]; [| destruct Ip]. destruct Ip as [Ip | []]. destruct (CN r g eq_refl) as (_ & n & cd & od & Sn & Nn & _). apply gattr_says in Sn.
      rewrite <- Ip in Gc. change ("conductor_" ++ "N") with "conductor_N" in Gc. assert (n = fst cw) as -> by congruence. apply named_dget in Nn. eauto. }
  pose proof (@ug_fill_numbers E objs (r_objs s) (wires_for c line_phases) objs2 ws UB HC Hx) as F.
  assert (W : Forall2 (wire_of objs pre o c) l ws).
  { rewrite <- WP. apply Forall2_map_l. eapply f2_index; [exact F |]. intros i cw w Hc Hw (Q & cd & Nn & CN0). split; [exact Q |].
    destruct (wires_for_in _ _ _ (nth_error_In _ _ Hc)) as (_ & Gc & _). exists (fst cw), cd. split; [now apply gattr_says |]. split; [exact Nn |]. split; [exact CN0 |].
    eexists. split; [exact (cused_match objs pre c i Hc) |]. apply named_dget in Nn. exact (V i cw w cd Hc Hw Nn). }
  assert (OUT : forall w, In w ws -> exists od, w_outer w = Some od).
  { intros w Iw. destruct (Forall2_in_r W _ Iw) as (p & Ip & (Q & n & cd & Sn & Nn & (A1 & _) & _)). apply in_app_or in Ip. destruct Ip as [Ip | Ip].
    - apply In_nth_error in Ip. destruct Ip as (i & Hi). destruct (f2_in_l CD _ Hi) as (cab & _ & n' & cd' & Sn' & Nn' & ((od & nd & O1 & _) & _)).
      rewrite (says_fun Sn' Sn) in Nn'. rewrite (named_fun Nn' Nn) in O1. exists od. exact (opt_is A1 O1).
    - destruct neutral as [[r g] |]; [| destruct Ip]. destruct Ip as [<- | []]. destruct (CN r g eq_refl) as (_ & n' & cd' & od & Sn' & Nn' & O1 & _).
      change ("conductor_" ++ "N") with "conductor_N" in Sn. rewrite (says_fun Sn' Sn) in Nn'. rewrite (named_fun Nn' Nn) in O1. exists od. exact (opt_is A1 O1). }
  destruct (all_some_ok _ OUT) as (outer & AO). rewrite AO in H. inv H. injection H as <-. cbn [set_vars r_conds r_dist].
  apply obj_at_dget in Hx0.
  assert (Rs : rwl so x).
  { destruct (UB _ _ Nsn) as (so1 & Ds1 & Rs1). apply fill_rw in Hx; [| apply ug_wire_rw]. cbn [fst] in Hx. destruct (all_rw_dget _ Hx Ds1) as (so2 & Ds2 & Rs2).
    assert (so2 = x) as -> by congruence. eapply rwl_trans; [exact Rs1 | now apply rw_rwl]. }
  destruct x0 as [so' d]. cbn [snd]. pose proof (@ug_table E x outer so' d (no_zero_rwl Rs NZ) Hx1) as TD.
  assert (LEN : List.length ws = List.length l) by (symmetry; eapply f2_length; exact W).
  exists ws, d, c. split; [reflexivity |]. split; [reflexivity |]. split; [| split; [exists cn; auto | split; [| exact W]]].
  - unfold l, with_neutral in W. apply Forall2_app_inv_l in W. destruct W as (pw & nw & W1 & W2 & ->). exists pw, nw. split; [reflexivity |].
    split; [| split].
    + eapply f2_join; [exact W1 | exact CD |]. intros p w cab Ip Wp Cp. eapply wire_cable; [| exact Wp | exact Cp]. intros ->. now apply NN.
    + intros ->. inversion CD. now apply NE.
    + destruct neutral as [[r g] |]; [| now inversion W2]. inversion W2 as [| ? w ? ? Wn W3]; subst. inversion W3; subst. exists w. split; [reflexivity |].
      destruct Wn as (Q & n & cd & Sn & Nn & (A1 & _ & _ & _ & A5 & _) & u & U & Rw). destruct (CN r g eq_refl) as (G0 & n' & cd' & od & Sn' & Nn' & _ & M & G).
      change ("conductor_" ++ "N") with "conductor_N" in Sn. rewrite (says_fun Sn' Sn) in Nn', M. rewrite (named_fun Nn' Nn) in M, G. split; [exact Q |].
      split; [rewrite Rw; eapply cmeasured; eauto |]. split; [exact (opt_is A5 G) | exact G0].
  - intros i j Hi Hj. rewrite LEN in Hi, Hj.
    destruct (nth_error l i) as [p |] eqn:Np; [| apply nth_error_None in Np; lia]. destruct (nth_error l j) as [q |] eqn:Nq; [| apply nth_error_None in Nq; lia].
    destruct (table_tabled E x) as (l' & P' & T). assert (PL' : places E x (l ++ m)%list) by (eapply places_rwl; [exact Rs | exact PL]).
    rewrite <- (places_unique PL' P') in T. pose proof (places_nodup PL') as NDl. rewrite <- TD in T. destruct T as [T1 T2].
    assert (Np' : nth_error (l ++ m)%list i = Some p) by (rewrite nth_error_app1 by exact Hi; exact Np).
    assert (Nq' : nth_error (l ++ m)%list j = Some q) by (rewrite nth_error_app1 by exact Hj; exact Nq).
    destruct (T2 i p Np') as (row & R1 & R2 & R3). destruct (R3 j q Nq') as (v & X1 & X0 & X2 & _).
    unfold by_place. destruct (Nat.eqb_spec i j) as [<- | NEij].
    + split; [| intros Z; now elim Z]. exists row. split; [exact R1 |]. rewrite X1. f_equal. apply X0. congruence.
    + destruct (GP i j p q Np Nq NEij) as (Ga & Po & Ri). rewrite (nth_error_nth _ _ "" Np), (nth_error_nth _ _ "" Nq).
      split; [| auto]. exists row. split; [exact R1 |]. rewrite X1. f_equal. apply X2; [exact (@nodup_nth _ i j p q NDl Np' Nq' NEij) |].
      now apply (gap_rwl E _ _ _ Rs).
Qed.
End File.

Section Cable.
Variables (E0 : prims) (side : R) (sch : list (string * string)).
Let E := with_cables E0 side.
Lemma wires_shunts : forall objs pre o c ps (cs : list cdata) neutral ws y, configured objs o c -> ~ In "N" ps -> incl ps line_phases -> NoDup ps -> List.length cs = List.length ps ->
  Forall2 (wire_of E objs pre o c) (with_neutral ps neutral) ws -> shunt_objects E objs o ps y ->
  half_shunts ws (fun i => if Nat.ltb i (List.length cs) then y i else 0%R).
Proof.
  intros objs pre o c ps cs neutral ws y CF NN INC ND LC W SH i w Hw.
  assert (X : exists p, nth_error (with_neutral ps neutral) i = Some p /\ wire_of E objs pre o c p w).
  { clear - W Hw. revert i Hw. induction W as [| p v l m Wp W IH]; intros [| i] Hw; try discriminate; [injection Hw as <-; exists p; auto |]. exact (IH i Hw). }
  destruct X as (p & Hp & (Q & n & cd & Sn & Nn & (A1 & A2 & (x & A3 & K) & A4 & _) & _)). unfold with_neutral in Hp.
  destruct (Nat.ltb_spec i (List.length cs)) as [L | L].
  - rewrite LC in L. rewrite nth_error_app1 in Hp by exact L. right. split; [rewrite Q; intros ->; apply NN; now apply nth_error_In in Hp |]. split.
    + assert (LP : (List.length ps <= 3)%nat); [| lia].
      apply (@NoDup_incl_length _ ps ["A"; "B"; "C"] ND). intros a Ia. specialize (INC a Ia). cbn in INC. cbn. destruct INC as [<- | [<- | [<- | [<- | []]]]]; auto.
    + destruct (SH i p Hp) as (c' & n' & cdo & od & nd & dm & xx & k & CF' & Sn' & Nn' & O1 & O2 & O3 & O4 & Wk & SO & RF & Y).
      assert (c' = c) as ->. { destruct CF as (cn & Sc & Nc), CF' as (cn' & Sc' & Nc'). rewrite (says_fun Sc' Sc) in Nc'. eapply named_fun; eauto. }
      rewrite (says_fun Sn' Sn) in Nn'. rewrite (named_fun Nn' Nn) in O1, O2, O3, O4. exists od, nd, dm, k. split; [| auto].
      split; [exact (opt_is A1 O1) |]. split; [exact (opt_is A2 O2) |]. split; [exact (opt_is A4 O3) |]. rewrite K, (opt_is A3 O4). cbn. now rewrite (whole_trunc Wk).
  - rewrite LC in L. rewrite nth_error_app2 in Hp by exact L. left. left. split; [| reflexivity]. rewrite Q. destruct neutral as [rg |].
    + destruct (i - List.length ps) as [| [| k]]; try discriminate Hp. now injection Hp as <-.
    + destruct (i - List.length ps); discriminate Hp.
Qed.
Lemma underground_part : forall objs pre name o part s1 s2 o1, NoDup (map fst objs) -> incl pre objs -> at_turn E sch objs pre name o part s1 s2 o1 ->
  go_class o = "underground_line" -> underground_ok E objs pre o part.
Proof.
  intros objs pre name o part s1 s2 o1 ND IP (H1 & H2 & D1 & R & UB & AK & SS) C ps cs neutral D z UD ws' n b PR INV.
  assert (C1 : go_class o1 = "underground_line") by (destruct R as [Q _]; congruence).
  destruct (@line_turn E sch s1 s2 name o1 "underground_line" H2 D1 C1 ltac:(cbn; tauto)) as (pt & pi & Gp & Pp & (_ & _ & RU)). specialize (RU eq_refl).
  unfold read_underground in RU. do 3 inv RU. unfold bound in Hx1.
  pose proof (@cable_loop E sch objs (@nodup_dget objs ND) pre s1 IP H1) as S1.
  assert (S1' : cstate (cusedb objs pre) objs (r_objs (set_length name (fst x) s1))) by exact (cstate_keep S1 (length_ckeep E name s1 D1 Hx)).
  destruct (@ug_wires E objs pre o o1 (set_length name (fst x) s1) x0 ps cs neutral D S1' (@set_length_untouched E objs name o1 s1 x UB D1 Hx) (@set_length_kept E objs name o1 s1 x AK D1 Hx)
    (rw_rwl R) Hx0 UD) as (ws & d & c & Qw & Qd & LA & CF & SU & W).
  rewrite Qw in Hx1. injection Hx1 as <-. inv RU. inv RU. rewrite direct_never in Hx2 by (left; reflexivity). injection Hx2 as <-.
  inv RU. rewrite Qd in Hx2. cbn [bound pbind] in Hx2. change (p_ugz E ws (strip_dist d)) with (underground_z E0 ws (strip_dist d)) in Hx2.
  assert (LEN : List.length ws = b) by (unfold b, ws'; symmetry; eapply f2_length; exact W).
  rewrite <- LEN in PR. assert (INV' : inverts E0 (List.length ws) (fun i j => z (List.length cs + i)%nat (List.length cs + j)%nat)) by (rewrite LEN; exact INV).
  destruct (cable_line LA SU PR INV') as (m & fk & Z & Hm & GL & SY). rewrite Z in Hx2. injection Hx2 as <-.
  inv RU. rewrite direct_never in Hx2 by (right; reflexivity). injection Hx2 as <-. inv RU. injection RU as <-.
  change (p_ucap E ws) with (underground_cap ws) in Hx2.
  cbn [GlmReader.append with_store r_store set_vars] in SS. rewrite (@config_store E o1 (set_length name (fst x) s1) x0 (or_intror (or_intror Hx0))) in SS. cbn [set_length set_objs r_store] in SS.
  apply part_one in SS; [| discriminate]. eexists. exists fk. split; [exact SS |]. cbn [dl_wires dl_z dl_shunt].
  split; [| split; [rewrite <- LEN; exact GL |]; split; [now apply per_meter_holds |]; split].
  - unfold closed_wires, line_wires. apply Forall2_map_r. eapply Forall2_imp; [| exact W]. intros p w _ (Qp & nn & cd & Sn & Nn & (_ & _ & _ & _ & _ & _ & _ & A8) & _). cbn.
    split; [exact Qp |]. split; [reflexivity |]. exists c, nn, cd. auto.
  - intros DS. apply SY. intros i j. unfold by_place. rewrite Nat.eqb_sym. destruct (Nat.eqb j i); [reflexivity | apply DS].
  - intros y SH. destruct UD as (c0 & so & mm & CF0 & CO & NN & NE & _ & CD & _).
    assert (FI : incl (with_neutral ps neutral) line_phases /\ NoDup (with_neutral ps neutral)).
    { rewrite (conductors_filter CO). split; [intros a Ia; apply filter_In in Ia; tauto |]. apply NoDup_filter. unfold line_phases. repeat constructor; cbn; intuition discriminate. }
    destruct FI as (INC & NDl).
    assert (HS : half_shunts ws (fun i => if Nat.ltb i (List.length cs) then y i else 0%R)).
    { eapply wires_shunts; [exact CF | exact NN | | | symmetry; eapply f2_length; exact CD | exact W | exact SH].
      - intros a Ia. apply INC. apply in_or_app. now left.
      - eapply nodup_prefix. exact NDl. }
    destruct (cable_shunts HS) as (sh & Q & Hs). rewrite Q in Hx2. injection Hx2 as <-. eexists. split; [reflexivity |].
    apply per_meter_holds in Hs. eapply holds_ext; [| exact Hs]. intros i j Hi Hj. cbn beta. destruct (Nat.eqb_spec i j) as [<- | NEij]; cbn [andb].
    + fold n. destruct (Nat.ltb_spec i n) as [L | L].
      * assert (Nat.ltb i (List.length ws) = true) as ->; [| reflexivity]. apply Nat.ltb_lt. rewrite LEN. unfold b, ws', with_neutral. rewrite app_length, (f2_length CD). fold n. lia.
      * destruct (Nat.ltb i (List.length ws)); unfold to_metre, C0; cbn; f_equal; lra.
    + unfold to_metre, C0. cbn. f_equal; lra.
Qed.
Lemma lines_underground : forall objs ms, NoDup (map fst objs) -> read_store E sch objs = Ok ms ->
  exists parts, Forall2 (fun no part => contributes E sch (fst no) (snd no) part) objs parts /\ Forall2 same_model (concat parts) ms /\
    forall i name o part, nth_error objs i = Some (name, o) -> nth_error parts i = Some part -> go_class o = "underground_line" -> underground_ok E objs (firstn i objs) o part.
Proof.
  intros objs ms ND H. destruct (@file_turns E sch objs ms ND H) as (parts & F & S & T). exists parts. split; [exact F |]. split; [exact S |].
  intros i name o part Ho Hp C. destruct (T i name o Ho) as (part' & t1 & t2 & o1 & Hp' & A). assert (part' = part) as -> by congruence.
  eapply underground_part; [exact ND | | exact A | exact C]. intros a Ha. rewrite <- (firstn_skipn i objs). apply in_or_app. now left.
Qed.
End Cable.
