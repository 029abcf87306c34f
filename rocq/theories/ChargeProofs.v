(** Shunt admittance of overhead lines. *)
From Coq Require Import Reals ZArith String Ascii List Bool Lia Lra Arith.
From Verif Require Import PyExc SpecComponents SpecUnbalanced Components UnbalancedLine GlmText LineImpedance SpecReader SpecLineZ KronProofs CarsonProofs Cables SpecCables ShuntProofs.
Import ListNotations.
Local Open Scope R_scope.
Set Implicit Arguments.

Lemma row_spot : forall p, In p line_phases -> nth_error spots (row_of p) = Some p.
Proof. intros p H. cbn in H. destruct H as [<- | [<- | [<- | [<- | []]]]]; reflexivity. Qed.
Lemma row_N : forall p, In p line_phases -> (row_of p = 3%nat <-> p = "N"%string).
Proof. intros p H. cbn in H. destruct H as [<- | [<- | [<- | [<- | []]]]]; cbn; split; congruence. Qed.
Lemma four_ok : forall w, In (w_phase w) line_phases -> in_four w = Ok (row_of (w_phase w)).
Proof.
  intros w H. destruct (row_spec H) as (R & L & _). unfold in_four, index_of. rewrite R. cbn [pbind].
  now rewrite (proj2 (Nat.ltb_lt _ _) L).
Qed.
Lemma all_four : forall all, incl (map w_phase all) line_phases -> mfold (fun _ v => do _ <- in_four v; Ok tt) all tt = Ok tt.
Proof.
  induction all as [| w all IH]; intros H; [reflexivity |]. cbn [mfold]. rewrite four_ok by (apply H; cbn; tauto). cbn [pbind].
  apply IH. intros x Hx. apply H. cbn. tauto.
Qed.
Lemma scan_ok : forall all todo rd, incl (map w_phase all) line_phases -> incl (map w_phase todo) line_phases ->
  (forall w, In w todo -> exists dm, w_diam w = Some dm) -> NoDup (map w_phase todo) -> List.length rd = 4%nat ->
  exists rd', oc_scan all todo rd = Ok (Some (map (fun w => row_of (w_phase w)) todo, rd')) /\
    (forall w dm, In w todo -> w_diam w = Some dm -> nth (row_of (w_phase w)) rd' 0 = dm / 2) /\
    (forall a, ~ In a (map (fun w => row_of (w_phase w)) todo) -> nth a rd' 0 = nth a rd 0).
Proof.
  intros all todo. induction todo as [| w todo IH]; intros rd HA HT HD ND L.
  - exists rd. repeat split; auto. intros w dm [].
  - cbn [oc_scan]. destruct (HD w) as (dm & D); [cbn; tauto |]. rewrite D.
    assert (Pw : In (w_phase w) line_phases) by (apply HT; cbn; tauto).
    rewrite (four_ok w Pw). cbn [pbind]. rewrite all_four by exact HA. cbn [pbind].
    inversion ND as [| p l NI ND']; subst.
    destruct (IH (upd rd (row_of (w_phase w)) (dm / 2))) as (rd' & S & A & B).
    + exact HA.
    + intros x Hx. apply HT. cbn. tauto.
    + intros v Hv. apply HD. cbn. tauto.
    + exact ND'.
    + now rewrite upd_length.
    + rewrite S. cbn [pbind map]. exists rd'. split; [reflexivity |].
      assert (Lw : (row_of (w_phase w) < List.length rd)%nat) by (rewrite L; apply (row_spec Pw)).
      split.
      * intros v dv [<- | Hv] Dv; [| now apply A]. replace dv with dm by congruence. rewrite B.
        -- rewrite nth_upd by exact Lw. now rewrite Nat.eqb_refl.
        -- intros Hin. apply in_map_iff in Hin as (v & Ev & Hv). apply NI. rewrite <- (row_inj (p := w_phase v) (q := w_phase w)); auto.
           ++ now apply in_map.
           ++ apply HT. cbn. right. now apply in_map.
      * intros a Ha. cbn in Ha. rewrite B by tauto. rewrite nth_upd by exact Lw. rewrite (proj2 (Nat.eqb_neq a _)); [reflexivity |]. intros ->. tauto.
Qed.
Lemma sqrt_ok : forall x, 0 <= x -> np_sqrt x = Some (sqrt x).
Proof. intros x H. unfold np_sqrt. now rewrite (proj2 (rltb_false _ _) H). Qed.

Section Wires.
Variables (X : string -> string -> R) (h rad : string -> R) (ws : list wire) (d : dmat).
Hypothesis M : measured X h rad ws d.
Lemma image_ok : forall v w, In v ws -> In w ws ->
  image d (row_of (w_phase v)) (row_of (w_phase w)) = Some (used_mirror X h (w_phase v) (w_phase w)) /\ 0 < used_mirror X h (w_phase v) (w_phase w).
Proof.
  intros v w Hv Hw. destruct M as (ND & INC & HD & HH & HX & HN).
  assert (Pv : In (w_phase v) line_phases) by (apply INC; now apply in_map).
  assert (Pw : In (w_phase w) line_phases) by (apply INC; now apply in_map).
  destruct (HH v _ Hv (row_spot Pv)) as (Dv & Ev & Hv0). destruct (HH w _ Hw (row_spot Pw)) as (Dw & Ew & Hw0).
  unfold image, used_mirror. destruct (String.eqb_spec (w_phase v) (w_phase w)) as [Q | Q].
  - rewrite Q, Nat.eqb_refl. rewrite <- Q, Ev. rewrite sqrt_ok by nra. replace (0 * 0 + _) with (2 * h (w_phase v) * (2 * h (w_phase v))) by ring.
    rewrite sqrt_square by lra. split; [reflexivity | lra].
  - assert (NR : row_of (w_phase v) <> row_of (w_phase w)) by (intros R; apply Q; now apply row_inj).
    apply Nat.eqb_neq in NR. rewrite NR. destruct (HX v w _ _ Hv Hw Q (row_spot Pv) (row_spot Pw)) as (Xe & X0).
    destruct (String.eqb_spec (w_phase v) "N") as [Nv | Nv].
    + rewrite (proj2 (row_N Pv) Nv) in *. rewrite Nat.eqb_refl. cbn [orb]. rewrite Dv, Ev.
      replace (0 * 0 - _) with 0 by ring. rewrite sqrt_ok by lra. rewrite sqrt_0.
      rewrite sqrt_ok by nra. replace (0 * 0 + _) with (2 * h (w_phase v) * (2 * h (w_phase v))) by ring.
      rewrite sqrt_square by lra. split; [reflexivity | lra].
    + assert (N3 : Nat.eqb (row_of (w_phase v)) 3 = false) by (apply Nat.eqb_neq; intros R; apply Nv; now apply row_N). rewrite N3. cbn [orb].
      destruct (String.eqb_spec (w_phase w) "N") as [Nw | Nw].
      * rewrite (proj2 (row_N Pw) Nw) in *. rewrite Nat.eqb_refl, Xe, Ev, Ew.
        assert (G : (h (w_phase v) - h (w_phase w)) * (h (w_phase v) - h (w_phase w)) <= X (w_phase v) (w_phase w) * X (w_phase v) (w_phase w)).
        { rewrite Nw. apply HN; auto. rewrite <- Nw. now apply in_map. }
        rewrite sqrt_ok by lra. rewrite sqrt_def by lra. rewrite sqrt_ok by nra. split; [do 2 f_equal; ring |].
        apply sqrt_lt_R0. nra.
      * assert (N3' : Nat.eqb (row_of (w_phase w)) 3 = false) by (apply Nat.eqb_neq; intros R; apply Nw; now apply row_N). rewrite N3', Xe, Ev.
        rewrite sqrt_ok by nra. split; [do 2 f_equal; ring |]. apply sqrt_lt_R0. nra.
Qed.
Definition phs (i : nat) : string := nth i (map w_phase ws) ""%string.
Definition pot (i j : nat) : R := coeff X rad (used_mirror X h) (phs i) (phs j).
Lemma phs_nth : forall i w, nth_error ws i = Some w -> phs i = w_phase w.
Proof. intros i w H. unfold phs. apply nth_error_nth. now rewrite nth_error_map, H. Qed.
Lemma ws_nth : forall i, (i < List.length ws)%nat -> exists w, nth_error ws i = Some w /\ In w ws.
Proof. intros i H. destruct (nth_error ws i) as [w |] eqn:E; [exists w; split; [reflexivity | now apply nth_error_In in E] |]. apply nth_error_None in E. lia. Qed.
Lemma coefficient_ok : forall side rd i j, (forall w dm, In w ws -> w_diam w = Some dm -> nth (row_of (w_phase w)) rd 0 = dm / 2) ->
  (i < List.length ws)%nat -> (j < List.length ws)%nat ->
  coefficient side d rd (map (fun w => row_of (w_phase w)) ws) i j = Some (pot i j, 0).
Proof.
  intros side rd i j HR Hi Hj. destruct (ws_nth Hi) as (v & Vi & Hv). destruct (ws_nth Hj) as (w & Wj & Hw).
  unfold coefficient, pot. rewrite (phs_nth _ Vi), (phs_nth _ Wj).
  rewrite (nth_error_nth (map (fun w => row_of (w_phase w)) ws) i 0%nat (x := row_of (w_phase v))) by (rewrite nth_error_map, Vi; reflexivity).
  rewrite (nth_error_nth (map (fun w => row_of (w_phase w)) ws) j 0%nat (x := row_of (w_phase w))) by (rewrite nth_error_map, Wj; reflexivity).
  destruct (image_ok _ _ Hv Hw) as (-> & S0). destruct M as (ND & INC & HD & HH & HX & HN).
  assert (Pv : In (w_phase v) line_phases) by (apply INC; now apply in_map).
  assert (Pw : In (w_phase w) line_phases) by (apply INC; now apply in_map).
  assert (Den : 0 < (if Nat.eqb i j then nth (row_of (w_phase v)) rd 0 else 0) + at2 d (row_of (w_phase v)) (row_of (w_phase w)) /\
    (if Nat.eqb i j then nth (row_of (w_phase v)) rd 0 else 0) + at2 d (row_of (w_phase v)) (row_of (w_phase w)) =
    (if String.eqb (w_phase v) (w_phase w) then rad (w_phase v) else X (w_phase v) (w_phase w))).
  { destruct (Nat.eqb_spec i j) as [<- | NE].
    - replace w with v in * by congruence. rewrite String.eqb_refl. destruct (HD v Hv) as (dm & D & D0 & Rd). rewrite (HR v dm Hv D), Rd.
      destruct (HH v _ Hv (row_spot Pv)) as (-> & _). split; lra.
    - assert (Q : w_phase v <> w_phase w).
      { intros Q. apply NE. eapply (proj1 (NoDup_nth_error _) ND); [now rewrite map_length |]. now rewrite !nth_error_map, Vi, Wj; cbn; rewrite Q. }
      apply String.eqb_neq in Q as Q'. rewrite Q'. destruct (HX v w _ _ Hv Hw Q (row_spot Pv) (row_spot Pw)) as (-> & X0). split; lra. }
  destruct Den as (D0 & Den). rewrite Den in *. unfold coeff.
  match goal with |- context [used_mirror X h ?p ?q / ?e] => set (den := e) in * end.
  rewrite (proj2 (reqb_false den 0)) by lra. rewrite (proj2 (reqb_false (used_mirror X h _ _) 0)) by lra. cbn [orb].
  assert (Q0 : 0 < used_mirror X h (w_phase v) (w_phase w) / den) by (apply Rdiv_lt_0_compat; lra).
  unfold np_clog. rewrite (proj2 (rltb_true _ _) Q0). unfold xmul. cbn [fst snd]. do 2 f_equal; [| ring].
  replace (11.17689) with (1117689 / 100000) by lra. ring.
Qed.
End Wires.

(** *** eliminating the neutral *)
Lemma times_S : forall n f v i, times (S n) f v i = Cadd (times n f v i) (Cmul (f i n) (v n)).
Proof.
  intros n f v i. unfold times. rewrite !Csum_lsum, seq_S. unfold lsum. rewrite fold_right_app. cbn [fold_right Nat.add].
  set (h := fun j => Cmul (f i j) (v j)). change (Cmul (f i n) (v n)) with (h n). generalize (seq 0 n). intros l.
  induction l as [| a l IH]; cbn [fold_right]; [cring |]. rewrite IH. rewrite <- !Cadd_assoc. f_equal.
Qed.
Lemma earthed_law : forall n P q, P n n <> 0 -> times (S n) (real P) q n = C0 ->
  forall i, times (S n) (real P) q i = times n (real (earthed n P)) q i.
Proof.
  intros n P q NZ Z i. rewrite times_S in Z. rewrite times_S.
  assert (E1 : times n (real (earthed n P)) q i = Csub (times n (real P) q i) (Cmul (P i n / P n n, 0) (times n (real P) q n))).
  { unfold times. rewrite !Csum_lsum, lsum_mul. generalize (seq 0 n). intros l.
    induction l as [| a l IH]; [cbn; cring |]. rewrite !lsum_cons, IH. unfold real, earthed, Cadd, Csub, Cmul. cbn [fst snd].
    destruct (q a) as [q1 q2]. cbn [fst snd]. f_equal; unfold Rdiv; ring. }
  rewrite E1. revert Z. generalize (times n (real P) q n), (times n (real P) q i). destruct (q n) as [q1 q2]. intros [a1 a2] [b1 b2] Z.
  unfold real, Cadd, Cmul, C0 in Z. cbn [fst snd] in Z. injection Z as Z1 Z2.
  assert (A1 : a1 = - (P n n * q1)) by lra. assert (A2 : a2 = - (P n n * q2)) by lra. subst a1 a2.
  unfold real, Cadd, Csub, Cmul. cbn [fst snd]. f_equal; field; exact NZ.
Qed.
Lemma shunt_holds : forall r c m f, holds r c m f -> holds r c (to_shunt m) (fun i j => half_charging (f i j)).
Proof.
  intros r c m f H. apply holds_intro; [unfold to_shunt; rewrite map_length; apply H |]. intros i row N. unfold to_shunt in N.
  rewrite nth_error_map in N. match type of N with option_map _ ?x = _ => destruct x as [row0 |] eqn:N0; cbn [option_map] in N; [| discriminate N] end. injection N as <-.
  destruct (holds_row _ H N0) as (_ & L1 & H1). split; [now rewrite map_length |].
  intros j Hj. rewrite nth_error_map. etransitivity; [apply f_equal, (H1 j Hj) |]. reflexivity.
Qed.
Lemma times_half : forall c f v i, times c (fun i j => half_charging (f i j)) v i = half_charging (times c f v i).
Proof. intros. unfold times, half_charging. rewrite !Csum_lsum, lsum_mul. apply lsum_ext. intros. now rewrite Cmul_assoc. Qed.
Lemma holds_ext : forall r c m f g, (forall i j, (i < r)%nat -> (j < c)%nat -> f i j = g i j) -> holds r c m f -> holds r c m g.
Proof.
  intros r c m f g H (L & F). split; [exact L |]. intros i Hi. destruct (F i Hi) as (L1 & F1). split; [exact L1 |]. intros j Hj. rewrite (F1 j Hj), H; auto.
Qed.
Lemma table_holds : forall n (g : nat -> nat -> xnum) f, (forall i j, (i < n)%nat -> (j < n)%nat -> g i j = Some (f i j)) ->
  holds n n (map (fun i => map (g i) (seq 0 n)) (seq 0 n)) f.
Proof.
  intros n g f H. apply holds_intro; [now rewrite map_length, seq_length |]. intros i row N. rewrite nth_error_map in N.
  assert (Hi : (i < n)%nat). { destruct (Nat.lt_ge_cases i n) as [L | L]; [exact L |]. rewrite (proj2 (nth_error_None (seq 0 n) i)) in N by (rewrite seq_length; exact L). discriminate N. }
  rewrite seq_nth_error in N by exact Hi. injection N as <-. split; [now rewrite map_length, seq_length |]. intros j Hj.
  rewrite nth_error_map, seq_nth_error by exact Hj. cbn. f_equal. now apply H.
Qed.
Lemma law_core : forall E c y fy f (r : matrix) m, p_inv E r = Some y -> holds c c y fy -> left_inverse c fy f -> m = to_shunt y ->
  exists fm, holds c c m fm /\ forall q v, (forall i, (i < c)%nat -> v i = times c f q i) ->
    forall i, (i < c)%nat -> times c fm v i = half_charging (q i).
Proof.
  intros E c y fy f r m P Hy L ->. eexists. split; [apply shunt_holds; exact Hy |]. intros q v Hv i Hi. rewrite times_half. f_equal.
  rewrite (times_ext fy v (times c f q) i Hv). now apply L.
Qed.
Lemma charge_law : forall E side X h rad ps ns d, measured X h rad (ps ++ ns) d -> (forall w, In w ps -> w_phase w <> "N"%string) ->
  ns = [] \/ (exists w, ns = [w] /\ w_phase w = "N"%string /\ coeff X rad (used_mirror X h) "N"%string "N"%string <> 0) ->
  let c := List.length ps in let n := List.length (ps ++ ns) in
  let P i j := coeff X rad (used_mirror X h) (nth i (map w_phase (ps ++ ns)) ""%string) (nth j (map w_phase (ps ++ ns)) ""%string) in
  inverts E c (real (match ns with [] => P | _ => earthed c P end)) ->
  exists m fm, overhead_cap E side (ps ++ ns) d = Ok (Some m) /\ holds c c m fm /\
    forall q, (ns <> [] -> times n (real P) q c = C0) -> forall i, (i < c)%nat -> times c fm (times n (real P) q) i = half_charging (q i).
Proof.
  intros E side X h rad ps ns d M NP HN c n P INV. set (ws := (ps ++ ns)%list) in *.
  destruct (@scan_ok ws ws (repeat 0 4)) as (rd & SC & A & _).
  - apply M.
  - apply M.
  - intros w Hw. destruct M as (_ & _ & HD & _). destruct (HD w Hw) as (dm & D & _). eauto.
  - apply M.
  - reflexivity.
  - unfold overhead_cap. rewrite SC. cbn [pbind]. rewrite map_length. fold n.
    assert (Hp : holds n n (map (fun i => map (coefficient side d rd (map (fun w => row_of (w_phase w)) ws) i) (seq 0 n)) (seq 0 n)) (real P)).
    { apply table_holds. intros i j Hi Hj. now apply coefficient_ok with (1 := M). }
    set (p := map _ (seq 0 n)) in *.
    destruct HN as [-> | (w & -> & Nw & NZ)].
    + assert (existsb is_neutral ws = false) as ->.
      { apply not_true_is_false. intros T. apply existsb_exists in T as (w & Hw & Nw). apply neutral_true in Nw. apply (NP w); [| exact Nw].
        subst ws. now rewrite app_nil_r in Hw. }
      assert (NC : n = c) by (subst n c ws; now rewrite app_nil_r). rewrite NC in *.
      destruct (INV p Hp) as (y & fy & Py & Hy & L & _). rewrite Py.
      destruct (law_core _ _ Py Hy L eq_refl) as (fm & Hm & Law). exists (to_shunt y), fm. split; [reflexivity |]. split; [exact Hm |].
      intros q _ i Hi. apply Law; auto.
    + assert (existsb is_neutral ws = true) as ->.
      { apply existsb_exists. exists w. split; [subst ws; apply in_or_app; cbn; tauto | now apply neutral_true]. }
      assert (NC : n = S c) by (subst n c ws; rewrite app_length; cbn; lia). rewrite NC in *. replace (S c - 1)%nat with c by lia.
      assert (PN : P c c <> 0).
      { subst P. cbn beta. assert (nth c (map w_phase ws) ""%string = "N"%string) as ->; [| exact NZ]. subst ws c. rewrite map_app.
        rewrite app_nth2 by (rewrite map_length; lia). rewrite map_length, Nat.sub_diag. cbn. exact Nw. }
      assert (Ecc : entry p c c = Some (P c c, 0)) by (apply (holds_entry Hp); lia). rewrite Ecc.
      set (r := mat_sub _ _).
      assert (Hr : holds c c r (real (earthed c P))).
      { assert (Hl : forall i, In i (seq 0 c) -> (i < S c)%nat) by (intros i Hi; apply in_seq in Hi; lia).
        assert (Hc : forall i, In i [c] -> (i < S c)%nat) by (intros i [<- | []]; lia).
        assert (B1 : holds c c (block p (seq 0 c) (seq 0 c)) (real P)).
        { pose proof (block_holds _ _ Hp Hl Hl) as B. rewrite !seq_length in B. eapply holds_ext; [| exact B]. intros i j Hi Hj. cbn beta. rewrite !seq_nth by assumption. reflexivity. }
        assert (B2 : holds c 1 (block p (seq 0 c) [c]) (fun i _ => real P i c)).
        { pose proof (block_holds _ _ Hp Hl Hc) as B. rewrite !seq_length in B. eapply holds_ext; [| exact B]. intros i j Hi Hj. cbn beta. rewrite seq_nth by exact Hi.
          now assert (j = 0)%nat as -> by (cbn in Hj; lia). }
        assert (B3 : holds 1 c (block p [c] (seq 0 c)) (fun _ j => real P c j)).
        { pose proof (block_holds _ _ Hp Hc Hl) as B. rewrite !seq_length in B. eapply holds_ext; [| exact B]. intros i j Hi Hj. cbn beta. rewrite seq_nth by exact Hj.
          now assert (i = 0)%nat as -> by (cbn in Hi; lia). }
        assert (B4 : holds 1 1 [[reciprocal (Some (P c c, 0))]] (fun _ _ => (/ P c c, 0))).
        { split; [reflexivity |]. intros i Hi. assert (i = 0)%nat as -> by lia. split; [reflexivity |]. intros j Hj. assert (j = 0)%nat as -> by lia.
          cbn. unfold cis0, both0, is0. cbn [fst snd]. destruct (Req_EM_T (P c c) 0) as [Z0 | _]; [now elim PN |]. cbn [andb]. apply f_equal, f_equal, f_equal2; field; exact PN. }
        eapply holds_ext; [| apply (mat_sub_holds B1 (mat_mul_holds Nat.lt_0_1 (mat_mul_holds Nat.lt_0_1 B2 B4) B3))].
        intros i j Hi Hj. cbn [Csum]. unfold Csum. cbn [seq fold_right]. unfold real, earthed, Csub, Cadd, Cmul, C0. cbn [fst snd].
        f_equal; [field; exact PN | ring]. }
      destruct (INV r Hr) as (y & fy & Py & Hy & L & _). rewrite Py.
      destruct (law_core _ _ Py Hy L eq_refl) as (fm & Hm & Law). exists (to_shunt y), fm. split; [reflexivity |]. split; [exact Hm |].
      intros q Hq i Hi. apply Law; [| exact Hi]. intros k Hk. apply earthed_law; [exact PN |]. apply Hq. discriminate.
Qed.
