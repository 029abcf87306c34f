(** Transformers and lines, from the file to the network. *)
From Coq Require Import Reals ZArith String Ascii List Bool Lia Lra Arith.
From Verif Require Import PyExc SpecComponents SpecUnbalanced Components Devices UnbalancedLine GlmText SpecGlm GlmBase LineImpedance ThreePhase SpecThreePhase SpecThreeElems ThreePhaseBase GlmReader SpecReader ReaderBase ReaderLoadProofs ReaderFrame ReaderStore ReaderFile ReaderFrame2 ReaderVisit SpecLineZ SpecReader2 LineFile ReaderTurns OverheadFile LineFinal SpecReader3 XfmrFile RegFile VnomFile ThreePhaseFinal SpecFile FileNet FileElems.
Import ListNotations.
Local Open Scope string_scope.
Set Implicit Arguments.

Lemma concat_concat : forall A (g : list (list (list A))), concat (concat g) = concat (map (@concat A) g).
Proof. intros A g. induction g as [| x g IH]; [reflexivity |]. cbn. now rewrite concat_app, IH. Qed.
Lemma grouped_concat : forall T objs kind (ok : nat -> string -> gobj -> list T -> Prop) ts,
  grouped objs kind (fun i name o gg => ok i name o (concat gg)) ts -> grouped objs kind ok (concat ts).
Proof.
  intros T objs kind ok ts (gs & -> & L & H). exists (map (@concat T) gs). split; [apply concat_concat |]. split; [now rewrite map_length |].
  intros i name o g Ho Hg. rewrite nth_error_map in Hg. destruct (nth_error gs i) as [gg |] eqn:Q; [| discriminate Hg]. injection Hg as <-.
  destruct (H i name o gg Ho Q) as [H1 H2]. split; [exact H1 |]. intros K. now rewrite (H2 K).
Qed.
Lemma metres_fun : forall E o a b, metres E o a -> metres E o b -> a = b.
Proof.
  intros E o a b (t & S & A) (t' & S' & B). assert (t' = t) as -> by (eapply says_fun; eauto).
  destruct A as [[P (x & X & ->)] | [P (x & X & ->)]]; destruct B as [[Q (y & Y & ->)] | [Q (y & Y & ->)]]; try contradiction.
  - now rewrite (among_fun X Y).
  - congruence.
Qed.
Lemma delta_conn : forall w, is_delta w <-> dw_conn w = Some "D".
Proof. reflexivity. Qed.
Lemma coil_back : forall w v, coil_voltage w v -> exists u, dw_nom w = Some u /\ coil_volts (dw_conn w) u v.
Proof. intros w v (u & Q & A & B). exists u. split; [exact Q |]. split; assumption. Qed.
Lemma times_some : forall k x y, times k x = Some y -> exists z, x = Some z /\ y = (k * z)%R.
Proof. intros k [z |] y Q; [| discriminate Q]. injection Q as <-. eauto. Qed.
Lemma coil_sign : forall g b res rea u s, coil_made g b res rea (-1 * u) s -> coil_made g b res rea u s.
Proof.
  intros g b res rea u s [A B]. split.
  - intros [H | H]; apply A; [now left | right; rewrite H; lra].
  - intros H U. replace (u * u)%R with (-1 * u * (-1 * u))%R by lra. apply B; [exact H | lra].
Qed.

Section Units.
Variables (E : prims) (sch : list (string * string)) (inv : matrix -> option matrix) (cap : bool).
Variables (objs : list (string * gobj)) (ms : list dmodel) (n : net).
Hypothesis clean : clean_file objs.
Hypothesis reads : read_store E sch objs = Ok ms.
Hypothesis parses : parse_three inv cap ms = Ok n.
Lemma second_other : forall o k x name w ps i t, told o k name -> second_terminal n w name ps i t -> dw_conn w = x -> other_end n o k x ps i t.
Proof.
  intros o k x name w ps i t T [A B] <-. split.
  - intros D. destruct (A D) as (q & b & S & Q & L). exists q, b. split; [exact S |]. split; [exact Q |]. exact (told_end T L).
  - intros D. apply B. exact D.
Qed.
Lemma xfmr_units : forall name o x us, ends o (dx_from x) (dx_to x) -> dx_name x = name -> (forall core, phase_core o core -> dx_phases x = phase_letters core) ->
  xfmr_ok E objs o [MXfmr x] -> xfmr_made n x us -> xfmr_group E objs n name o us.
Proof.
  intros name o x us [Tf Tt] NM PH OK M. split; [| split].
  - intros core c a b sh v1 raw1 v2 raw2 r xs p PC CF WI SH W1 W2 OH RP.
    destruct (OK core PC) as (x' & Q & SF & OK1 & _). injection Q as <-.
    destruct (OK1 c a b false sh v1 raw1 v2 raw2 r xs p CF WI SH W1 W2 OH RP) as (T & S & X & W). unfold three_windings in W. cbn [SpecFile.two_coils] in W.
    unfold xfmr_made in M. rewrite T in M. destruct M as (w1 & w2 & QW & L & M). rewrite W in QW. injection QW as <- <-. cbn [dw_phases] in *.
    split; [exact L |]. intros i ph Hi. destruct (M i ph Hi) as (u & Hu & fp & fn & tp & tn & d & g & bb & -> & E1 & E2 & E3 & E4 & vp & vs & s & r2 & V1 & V2 & R1 & R2 & N1 & N2 & TR & AN & IN & SU).
    cbn [dw_rated dw_res dw_phases] in *. apply coil_back in V1, V2. destruct V1 as (u1 & U1 & V1), V2 as (u2 & U2 & V2). cbn [dw_nom dw_conn] in *.
    apply times_some in R2. destruct R2 as (rr & -> & ->).
    exists fp, fn, tp, tn, d, g, bb, u1, u2, vp, vs, s, rr. split; [exact Hu |]. split; [exact (told_end Tf E1) |]. split; [exact (second_other Tf E2 eq_refl) |].
    split; [exact (told_end Tt E3) |]. split; [exact (second_other Tt E4 eq_refl) |].
    split; [exact U1 |]. split; [exact U2 |]. split; [exact V1 |]. split; [exact V2 |]. split; [exact R1 |]. split; [reflexivity |]. split; [exact N1 |]. split; [exact N2 |].
    split; [exact TR |]. split; [rewrite AN, SF; field |]. split.
    + rewrite X in IN. replace (rr * (vs * vs / s))%R with (2 * (1 / 2 * rr) * (vs * vs / s))%R by lra. exact IN.
    + unfold shunt_unit in SU. rewrite S in SU. exact SU.
  - intros core c a b sh v1 raw1 v2 raw2 r xs p PC CF WI SH W1 W2 OH RP.
    destruct (OK core PC) as (x' & Q & SF & OK1 & _). injection Q as <-.
    destruct (OK1 c a b true sh v1 raw1 v2 raw2 r xs p CF WI SH W1 W2 OH RP) as (T & S & X & W). unfold three_windings in W.
    unfold xfmr_made in M. rewrite T in M. destruct M as (u & -> & ph & from & pri & s1 & t1 & s2 & t2 & d & g & bb & -> & HP & E1 & E2 & E3 & I1 & I2 & I3 & _ & M).
    destruct M as (w0 & w1 & w2 & ws & x0 & x1 & x2 & more & V0 & V1 & V2 & r0 & r1 & r2 & s & QW & QX & N0 & N1 & N2 & R0 & R1 & R2 & RS & Z1 & Z2 & RA & C0 & C1 & C2 & ST).
    rewrite W in QW. injection QW as <- <- <- <-. cbn [dw_nom dw_rated dw_res] in *. rewrite (PH core PC) in HP.
    apply times_some in R0. destruct R0 as (rr & -> & ->). cbn [times option_map] in R1. injection R1 as <-. injection R2 as <-. apply times_some in N2. destruct N2 as (uu & -> & ->).
    destruct (phase_letters core) as [| ph0 rest] eqn:PL; [discriminate HP |]. injection HP as ->.
    exists ph, rest, from, pri, s1, t1, s2, t2, d, g, bb, V0, V1, uu, rr, s, x0, x1, x2, more.
    split; [reflexivity |]. split; [reflexivity |]. split; [exact (told_end Tf E1) |]. split; [exact (told_end Tt E2) |]. split; [exact (told_end Tt E3) |].
    rewrite NM in I1, I2, I3. split; [exact I1 |]. split; [exact I2 |]. split; [exact I3 |]. split; [exact N0 |]. split; [exact N1 |]. split; [reflexivity |]. split; [reflexivity |].
    split; [exact RS |]. split; [congruence |]. split; [exact Z1 |]. split; [exact Z2 |]. split; [exact RA |].
    split; [replace (rr / 2)%R with (1 / 2 * rr)%R by lra; exact C0 |]. split; [replace rr with (1 * rr)%R by lra; exact C1 |]. split; [exact (coil_sign C2) |].
    unfold shunt_tap in ST. rewrite S in ST. destruct sh as [[sr sx] |]; [| exact ST]. destruct ST as [ST1 ST2]. split; [exact ST1 |]. intros NZ. destruct (ST2 NZ) as (s2' & Q2 & Z3 & IV).
    cbn [dw_rated] in Q2. rewrite RS in Q2. cbn in Q2. injection Q2 as <-. replace (s / 2)%R with (1 / 2 * s)%R by lra. exact IV.
  - intros core PC NE. destruct (gattr o "configuration") as [cn |] eqn:G.
    + destruct (dget cn objs) as [c |] eqn:D.
      * exists c, cn. split; [now apply gattr_says | now apply named_dget].
      * exfalso. destruct (OK core PC) as (x' & Q & _ & _ & OK2). injection Q as <-.
        assert (NC : forall c, ~ configured objs o c) by (intros c (m & Sm & Nm); apply gattr_says in Sm; apply named_dget in Nm; congruence).
        destruct (OK2 NC) as (T & _ & _ & W). unfold xfmr_made in M. rewrite T in M. destruct M as (w1 & w2 & QW & L & M). rewrite W in QW. injection QW as <- <-. cbn [dw_phases] in *.
        destruct (phase_letters core) as [| ph l]; [now apply NE |]. destruct (M 0%nat ph eq_refl) as (u & _ & _ & _ & _ & _ & _ & _ & _ & _ & _ & _ & _ & _ & vp & vs & s & r2 & (u1 & U1 & _) & _). discriminate U1.
    + exfalso. destruct (OK core PC) as (x' & Q & _ & _ & OK2). injection Q as <-.
      assert (NC : forall c, ~ configured objs o c) by (intros c (m & Sm & Nm); apply gattr_says in Sm; congruence).
      destruct (OK2 NC) as (T & _ & _ & W). unfold xfmr_made in M. rewrite T in M. destruct M as (w1 & w2 & QW & L & M). rewrite W in QW. injection QW as <- <-. cbn [dw_phases] in *.
      destruct (phase_letters core) as [| ph l]; [now apply NE |]. destruct (M 0%nat ph eq_refl) as (u & _ & _ & _ & _ & _ & _ & _ & _ & _ & _ & _ & _ & _ & vp & vs & s & r2 & (u1 & U1 & _) & _). discriminate U1.
Qed.
Lemma file_transformers : grouped objs (fun o => go_class o = "transformer") (fun _ name o g => xfmr_group E objs n name o g) (nt_xfmrs n).
Proof.
  destruct (@file_turns E sch objs ms (proj1 clean) reads) as (parts & F & S & T).
  destruct (@p_xfmrs inv cap ms n (@kn E sch objs ms clean reads) parses) as (gs & -> & PF). apply grouped_concat.
  refine (@grouping E sch objs parts ms _ _ _ _ _ _ _ F S _ PF _); [reflexivity |]. clear F S PF.
  intros i name o part g Ho Hp K H. split; intros C; inversion K; subst part; cbn [flat_map xfmrs_of List.app] in H;
    try (exact (nil_group H)); try (exfalso; clear H; classes K).
  destruct (T i name o Ho) as (part' & s1 & s2 & o1 & Hp' & A). assert (part' = [MXfmr x]) as -> by congruence.
  pose proof (@xfmr_part E sch _ _ _ _ _ _ _ _ A C) as OK. inversion H as [| us ? l ? M H' QA QB]; subst. inversion H'; subst. cbn [concat]. rewrite app_nil_r.
  eapply xfmr_units; eauto.
Qed.
Lemma holds_filled : forall m a b k f, holds m m a f -> scaled k a b -> filled m b (fun i j => ctimes k (f i j)).
Proof.
  intros m a b k f [_ H] S i j Hi Hj. unfold ctimes. apply S. exists (fst (f i j)), (snd (f i j)). split; [| auto]. destruct (H i Hi) as [_ H2]. unfold entry.
  rewrite (nth_error_nth _ _ _ (H2 j Hj)). now destruct (f i j).
Qed.
Lemma line_units : forall i o l g, In (go_class o) line_classes -> ends o (dl_from l) (dl_to l) -> length_ok E o [MLine l] ->
  (go_class o = "overhead_line" -> overhead_ok E objs (firstn i objs) o [MLine l]) -> (go_class o = "triplex_line" -> triplex_ok E objs o [MLine l]) ->
  Forall2 (fun t l => line_made cap l t) g [l] -> line_group E objs i o g.
Proof.
  intros i o l g C EN (l' & Q & ML) OV TR H. injection Q as <-. inversion H as [| t ? g' ? M H' QA QB]; subst. inversion H'; subst. clear H H'.
  destruct M as (M1 & M2 & M3 & M4 & M5 & M6 & M7 & M8 & _).
  assert (LE : line_ends o t) by (destruct EN as [Tf Tt]; split; [now rewrite M1 | now rewrite M2]).
  assert (WR : forall ps, closed_wires E objs o ps (dl_wires l) -> tn_phases t = filter (fun p => negb (String.eqb p "N")) ps /\ Forall2 (amps E objs o) ps (tn_amps t)).
  { intros ps W. rewrite M3, M6. clear - W. induction W as [| p w ps ws (P1 & P2 & P3) W [IH1 IH2]]; [split; constructor |]. cbn [map filter]. rewrite P1. split.
    - destruct (negb (String.eqb p "N")); [now rewrite IH1 | exact IH1].
    - now constructor. }
  split; [eauto |]. split.
  - intros CO core ps r gm D z neutral len PC OD PZ NE IN ME. destruct (OV CO core ps r gm D z neutral PC OD PZ NE IN) as (l0 & Q & W & HO). injection Q as <-.
    rewrite (metres_fun ME ML). exists t. split; [reflexivity |]. split; [exact LE |]. destruct (WR ps W) as [W1 W2]. split; [exact W1 |]. split; [exact W2 |].
    assert (LL : List.length (tn_phases t) = List.length (abc_of (phase_letters core))) by (destruct HO as [HO _]; congruence).
    split; [exact LL |]. split; [rewrite LL; eapply holds_filled; eauto | exact M8].
  - intros CT ps r gm d12 d1n z len TD PZ IN ME. destruct (TR CT ps r gm d12 d1n z TD PZ IN) as (l0 & Q & W & HO). injection Q as <-.
    rewrite (metres_fun ME ML). exists t. split; [reflexivity |]. split; [exact LE |]. destruct (WR ps W) as [W1 W2]. split; [exact W1 |]. split; [exact W2 |].
    assert (LL : List.length (tn_phases t) = 2%nat) by (destruct HO as [HO _]; congruence).
    split; [exact LL |]. split; [eapply holds_filled; eauto | rewrite <- LL; exact M8].
Qed.
Lemma file_netlines : grouped objs (fun o => In (go_class o) line_classes) (fun i _ o g => line_group E objs i o g) (nt_lines n).
Proof.
  destruct (@file_lines E sch objs ms (proj1 clean) reads) as (parts & F & S & T).
  pose proof (@p_lines inv cap ms n (@kn E sch objs ms clean reads) parses) as PF.
  refine (@grouping E sch objs parts ms _ _ _ _ _ _ _ F S _ PF _); [reflexivity |]. clear F S PF.
  intros i name o part g Ho Hp K H. destruct (T i name o part Ho Hp) as (T1 & T2 & T3).
  split; intros C; inversion K; subst part; cbn [flat_map lines_of List.app] in H; rewrite ?app_nil_r in H;
    try (exact (nil_group H)); try (exfalso; clear H; classes K).
  all: unfold plain_line in H; rewrite ?H1, ?H2, ?andb_false_r in H; cbn [negb andb] in H; try (exact (nil_group H)).
  eapply line_units; eauto.
Qed.
End Units.
