(** A concrete file with an overhead line that is read and parsed. *)
From Coq Require Import Reals ZArith String Ascii List Bool Lia Lra Arith.
From Verif Require Import PyExc SpecComponents SpecUnbalanced Components UnbalancedLine GlmText SpecGlm GlmBase LineImpedance ThreePhase GlmReader SpecReader ReaderBase ReaderLoadProofs ReaderFrame ReaderStore ReaderFile ReaderWitness SpecLineZ KronProofs CarsonProofs SpacingProofs LineZFinal TriplexProofs LineZWitness SpecReader2 OverheadFile ReaderBare ReaderWitness2 SpecFile FileWitness.
Import ListNotations.
Local Open Scope string_scope.
Set Implicit Arguments.

(** *** inverting a 2 x 2 matrix *)
Definition crecip (c : cnum) : cnum := (fst c / (fst c * fst c + snd c * snd c), - snd c / (fst c * fst c + snd c * snd c))%R.
Definition cneg (c : cnum) : cnum := (- fst c, - snd c)%R.
Definition det2 (a b c d : cnum) : cnum := Csub (Cmul a d) (Cmul b c).
Definition inv2 (m : matrix) : option matrix :=
  match m with
  | [[Some a; Some b]; [Some c; Some d]] =>
      let k := crecip (det2 a b c d) in Some [[Some (Cmul d k); Some (Cmul (cneg b) k)]; [Some (Cmul (cneg c) k); Some (Cmul a k)]]
  | _ => None
  end.
Lemma close_exact : forall x d, x = Some (d, 0%R) -> (0 <= d)%R -> close_to x d = true.
Proof.
  intros x d -> P. unfold close_to. cbn [fst snd]. destruct (Rle_dec _ _) as [L | L]; [reflexivity |]. exfalso. apply L.
  replace ((d - d) * (d - d) + 0 * 0)%R with 0%R by ring. apply Rle_0_sqr.
Qed.
Lemma xnum_eq : forall a b c d : R, a = c -> b = d -> Some (a, b) = Some (c, d).
Proof. intros; subst; reflexivity. Qed.
Lemma two_accepted : forall a b c d len, both0 (len * fst a) (len * snd a) = false -> both0 (len * fst b) (len * snd b) = false -> both0 (len * fst c) (len * snd c) = false ->
  both0 (len * fst d) (len * snd d) = false -> (len <> 0)%R -> det2 a b c d <> C0 ->
  exists z y, new_unbalanced inv2 [[Some a; Some b]; [Some c; Some d]] len 2 = Some (z, y).
Proof.
  intros [ar ai] [br bi] [cr ci] [dr di] len A B C D L DT. cbn [fst snd] in *.
  unfold new_unbalanced. cbn [List.length square Nat.leb forallb Nat.eqb andb scale map fst snd].
  unfold calc_inverse, count_nonzero. cbn [concat List.app filter xis0]. unfold cis0. cbn [fst snd]. rewrite A, B, C, D. cbn [negb List.length Nat.eqb].
  unfold calc_inverse_rest. cbn [map filter zero_row forallb xis0]. unfold cis0. cbn [fst snd]. rewrite A, B, C, D. cbn [andb negb zero_col forallb seq filter nth xis0].
  unfold cis0. cbn [fst snd]. rewrite A, B, C, D. cbn [andb negb map nth index_true]. unfold inv2 at 1. cbn [List.length Nat.eqb].
  cbn [map nth]. unfold inv2. cbv beta iota zeta. cbn [square List.length forallb Nat.eqb andb].
  set (q := ((ar * dr - ai * di - (br * cr - bi * ci)) * (ar * dr - ai * di - (br * cr - bi * ci)) + (ar * di + ai * dr - (br * ci + bi * cr)) * (ar * di + ai * dr - (br * ci + bi * cr)))%R).
  assert (Q : q <> 0%R).
  { unfold q. intros X. apply DT. unfold det2, Csub, Cmul, C0. cbn [fst snd]. destruct (Rplus_sqr_eq_0 _ _ X) as [H1 H2]. now rewrite H1, H2. }
  assert (NI : near_identity 2 [[Some (len * ar, len * ai); Some (len * br, len * bi)]; [Some (len * cr, len * ci); Some (len * dr, len * di)]]%R
     (match inv2 [[Some (len * ar, len * ai); Some (len * br, len * bi)]; [Some (len * cr, len * ci); Some (len * dr, len * di)]]%R with Some y => y | None => [] end) = true).
  { unfold near_identity, mdot, entry. cbn [seq forallb fold_right nth xmul xadd Nat.eqb fst snd inv2].
    rewrite !andb_true_r. repeat rewrite andb_true_iff. 
    assert (QQ : ((len * ar * (len * dr) - len * ai * (len * di) - (len * br * (len * cr) - len * bi * (len * ci))) * (len * ar * (len * dr) - len * ai * (len * di) - (len * br * (len * cr) - len * bi * (len * ci))) +
       (len * ar * (len * di) + len * ai * (len * dr) - (len * br * (len * ci) + len * bi * (len * cr))) * (len * ar * (len * di) + len * ai * (len * dr) - (len * br * (len * ci) + len * bi * (len * cr))) <> 0)%R).
    { match goal with |- (?e <> 0)%R => replace e with (len * len * (len * len) * q)%R by (unfold q; ring) end. repeat apply Rmult_integral_contrapositive_currified; assumption. }
    unfold crecip, det2, Csub, Cmul, cneg. cbn [fst snd].
    repeat split; apply close_exact; try lra; apply xnum_eq; field; exact QQ. }
  cbn [inv2] in NI. unfold scale in *. cbn [map fst snd] in *. eexists. eexists. rewrite NI. reflexivity.
Qed.

(** *** the file *)
Definition wire_objs : list (string * gobj) := [("cdA", cdA'); ("cdB", cdA'); ("sp", ab_spacing); ("cfg", ab_cfg); ("l1", l_obj)].
Lemma wire_clean : clean_file wire_objs.
Proof. apply clean_run. reflexivity. Qed.
Lemma wire_turn : exists l ws, read_object line_prims [] (start wire_objs) "l1" = Ok {| r_objs := wire_objs; r_store := [MLine l]; r_config := Some "cfg"; r_conds := Some ws; r_dist := Some ab_dist |}.
Proof.
  assert (X : read_object line_prims [] (start wire_objs) "l1" =
    read_overhead line_prims "l1" l_obj {| pi_phases := ["A"; "B"]; pi_delta := false; pi_triplex := false; pi_neutral := false |} (start wire_objs)) by reflexivity.
  rewrite X. unfold read_overhead.
  change (line_length line_prims l_obj) with (Ok (l_obj, (3 * (3048 / 10000))%R)). cbn [pbind fst snd].
  change (set_length "l1" l_obj (start wire_objs)) with (start wire_objs).
  assert (Y : oh_config line_prims l_obj (start wire_objs) =
    Ok {| r_objs := wire_objs; r_store := []; r_config := Some "cfg"; r_conds := Some [ab_wire "A" 1; ab_wire "B" 1]; r_dist := Some ab_dist |}).
  { unfold oh_config. change (gattr l_obj "configuration") with (Some "cfg"). cbv beta iota. change (obj_at (r_objs (start wire_objs)) "cfg") with (Ok ab_cfg). cbn [pbind].
    change (wires_for ab_cfg ["A"; "B"; "C"; "N"]) with [("cdA", new_wire "A"); ("cdB", new_wire "B")].
    change (fill_all (oh_wire line_prims) (r_objs (start wire_objs)) [("cdA", new_wire "A"); ("cdB", new_wire "B")]) with (Ok (wire_objs, [ab_wire "A" 1; ab_wire "B" 1])).
    cbn [pbind]. change (gattr ab_cfg "spacing") with (Some "sp"). cbv beta iota. change (obj_at wire_objs "sp") with (Ok ab_spacing).
    cbn [pbind map ab_wire w_phase]. rewrite ab_reads. cbn [pbind fst snd]. reflexivity. }
  rewrite Y. cbn [pbind bound r_conds r_dist]. change (the_config _) with (Ok ab_cfg). cbn [pbind].
  rewrite direct_never by (left; reflexivity). cbn [pbind]. destruct (ab_z 1 1) as (m & Hm). cbn [pi_phases pi_neutral]. rewrite Hm. cbn [pbind].
  rewrite direct_never by (right; reflexivity). cbn [pbind p_ocap line_prims]. do 2 eexists. reflexivity.
Qed.
Lemma wire_reads : exists l, read_store line_prims [] wire_objs = Ok [MLine l].
Proof.
  unfold read_store. change (map fst wire_objs) with ["cdA"; "cdB"; "sp"; "cfg"; "l1"].
  do 4 (rewrite mfold_cons; cbn [pbind]; match goal with |- context [read_object ?E ?s ?st ?n] => change (read_object E s st n) with (Ok st) end; cbn [pbind]).
  rewrite mfold_cons. destruct wire_turn as (l & ws & ->). cbn. exists l. reflexivity.
Qed.
Lemma wire_keys : NoDup (map fst wire_objs).
Proof. repeat constructor; cbn; intuition discriminate. Qed.
Ltac at_hand := apply named_in; [cbn; tauto | exact wire_keys].
Lemma wire_data : overhead_data line_prims wire_objs (firstn 4 wire_objs) l_obj ["A"; "B"] (fun _ => 1%R) (fun _ => 1%R) (fun _ _ => 2%R).
Proof.
  exists ab_cfg, ab_spacing, []. split; [exists "cfg"; split; [now apply says_dget | at_hand] |]. split; [now apply conductors_mem |].
  split; [exists "sp"; split; [now apply says_dget | at_hand] |]. split; [| split; [exact ab_places |]].
  - assert (X : forall n, In n ["cdA"; "cdB"] -> named wire_objs n cdA') by (intros n [<- | [<- | []]]; at_hand).
    intros p [<- | [<- | []]]; [exists "cdA", cdA' | exists "cdB", cdA'].
    all: split; [now apply says_dget |]; split; [apply X; cbn; tauto |]; split; [| split; [| lra]].
    all: exists "1"; (split; [now apply says_dget |]); left; (split; [now apply not_part | reflexivity]).
  - intros p q [<- | [<- | []]] [<- | [<- | []]] N; try congruence; (split; [| lra]); [exact ab_gap |]. destruct ab_gap as [X | X]; [now right | now left].
Qed.
Lemma wire_metres : forall v, metres line_prims l_obj v -> v = (3 * 0.3048)%R.
Proof.
  intros v (t & St & K). apply gattr_says in St. cbn in St. injection St as <-. destruct K as [[K _] | [_ (x & Fx & ->)]]; [exfalso; revert K; now apply not_part |].
  cbn in Fx. now injection Fx as <-.
Qed.
Lemma ln_half : (ln (1 / 2) < 0)%R.
Proof. rewrite <- ln_1. apply ln_increasing; lra. Qed.
Lemma wire_loads : loads line_prims inv2 wire_objs (fun n => exists t, nt_lines n = [t] /\ tn_phases t = ["A"; "B"] /\ tn_from t = Some "x" /\ tn_to t = Some "y").
Proof.
  destruct wire_reads as (l0 & H). exists [MLine l0]. split; [exact H |].
  destruct (@file_lines line_prims [] wire_objs _ wire_keys H) as (parts & F & S & T).
  unfold wire_objs in F at 1. do 4 (next F Q; apply shared_part in Q; [subst | cbn; tauto]). next F Q. inversion F. subst. clear F.
  destruct (T 4%nat _ _ _ eq_refl eq_refl) as (L1 & O1 & _). specialize (L1 ltac:(cbn; tauto)). specialize (O1 eq_refl).
  destruct (O1 "AB" _ _ _ _ _ false ab_core wire_data (pz_ok _ _ _)) as (l1 & -> & W1 & Z1);
    [split; [discriminate | cbn; intuition discriminate] | discriminate |].
  destruct L1 as (l1' & Q1 & M1). injection Q1 as <-. apply wire_metres in M1.
  apply (@same_line [l1]) in S. cbn in S. injection S as ->.
  assert (EN : dl_fuse l1 = false /\ dl_switch l1 = false /\ dl_from l1 = Some "x" /\ dl_to l1 = Some "y").
  { inversion Q as [| | | | | | ? C | ? [C | C] | ? C F1 F2 [E1 E2] | |]; subst; try discriminate.
    split; [exact F1 |]. split; [exact F2 |]. split; [destruct E1 as [[X _] | (t & X & ->)] | destruct E2 as [[X _] | (t & X & ->)]].
    1,3: exfalso; apply gattr_silent in X; discriminate X.
    all: apply gattr_says in X; cbn in X; injection X as <-; reflexivity. }
  destruct EN as (F1 & F2 & E1 & E2).
  assert (PW : map wi_phase (dl_wires l1) = ["A"; "B"]).
  { next W1 P. next W1 P0. inversion W1. cbn. destruct P as (-> & _), P0 as (-> & _). reflexivity. }
  assert (ZZ : dl_z l1 = [[Some (to_metre (carson_self 1 1)); Some (to_metre (carson_mutual 2))]; [Some (to_metre (carson_mutual 2)); Some (to_metre (carson_self 1 1))]]).
  { destruct Z1 as [Z0 Z1]. change (abc_of (phase_letters "AB")) with ["A"; "B"] in *. cbn [List.length] in *.
    destruct (Z1 0%nat ltac:(lia)) as [A0 A1]. destruct (Z1 1%nat ltac:(lia)) as [B0 B1].
    pose proof (A1 0%nat ltac:(lia)) as A2. pose proof (A1 1%nat ltac:(lia)) as A3. pose proof (B1 0%nat ltac:(lia)) as B2. pose proof (B1 1%nat ltac:(lia)) as B3. clear A1 B1 Z1.
    destruct (dl_z l1) as [| r0 [| r1 [| r2 rest]]]; try discriminate Z0. cbn [nth] in *.
    destruct r0 as [| x0 [| x1 [| x2 r0]]]; try discriminate A0. destruct r1 as [| y0 [| y1 [| y2 r1]]]; try discriminate B0.
    cbn in A2, A3, B2, B3. injection A2 as ->. injection A3 as ->. injection B2 as ->. injection B3 as ->. reflexivity. }
  pose proof ln_half as LH. assert (L1 : ln (1 / 1) = 0%R) by (replace (1 / 1)%R with 1%R by field; exact ln_1).
  assert (LP : (0 < dl_len l1)%R) by (rewrite M1; lra).
  assert (NB : forall a b, (0 < a)%R -> both0 (dl_len l1 * a) b = false).
  { intros a b P. apply ThreeWitness.both0_false. left. apply Rgt_not_eq. now apply Rmult_lt_0_compat. }
  destruct (@two_accepted (to_metre (carson_self 1 1)) (to_metre (carson_mutual 2)) (to_metre (carson_mutual 2)) (to_metre (carson_self 1 1)) (dl_len l1)) as (z & y & Hy).
  1-4: apply NB; unfold to_metre, carson_self, carson_mutual; cbn [fst snd]; lra.
  { lra. }
  { unfold det2, Csub, Cmul, to_metre, carson_self, carson_mutual, C0. cbn [fst snd]. rewrite L1. intros X. apply (f_equal snd) in X. cbn [snd] in X. lra. }
  unfold parse_three. change (create_buses [MLine l1]) with (Ok empty_net). cbn [pbind mfold create_element]. unfold create_line. rewrite F1, F2, PW. cbn [filter String.eqb Ascii.eqb Bool.eqb negb List.length].
  rewrite ZZ. match goal with |- context [new_unbalanced _ _ _ ?k] => change k with 2%nat end. match goal with |- context [new_unbalanced inv2 ?b ?c ?d] => replace (new_unbalanced inv2 b c d) with (Some (z, y)) by (symmetry; exact Hy) end. cbn [pbind]. eexists. split; [reflexivity |]. eexists. split; [reflexivity |]. cbn [tn_phases tn_from tn_to]. repeat split; assumption.
Qed.
