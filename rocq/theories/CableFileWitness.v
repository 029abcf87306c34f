(** Concrete files with underground lines. *)
From Coq Require Import Reals ZArith String Ascii List Bool Lia Lra Arith.
From Verif Require Import PyExc SpecComponents SpecUnbalanced Components UnbalancedLine GlmText SpecGlm GlmBase LineImpedance ThreePhase GlmReader SpecReader ReaderBase ReaderLoadProofs ReaderFrame ReaderStore ReaderFile ReaderWitness SpecLineZ KronProofs CarsonProofs SpacingProofs LineZFinal LineZWitness SpecReader2 OverheadFile ReaderWitness2 Cables SpecCables ShuntProofs ChargeProofs RingProofs CableZProofs CableFinal CableWitness SpecCableFile CableTurns CableFile.
Import ListNotations.
Local Open Scope string_scope.
Set Implicit Arguments.

(** two underground lines with one configuration, the conductor in ohms per kilometre *)
Definition cdu (r : string) : gobj := obj "underground_line_conductor"
  [("outer_diameter", "3"); ("neutral_diameter", "1"); ("neutral_strands", "2.5"); ("conductor_diameter", "1"); ("conductor_gmr", "1");
   ("conductor_resistance", r); ("neutral_resistance", "2"); ("neutral_gmr", "2")].
Definition u_cfg : gobj := obj "line_configuration" [("conductor_A", "cdu"); ("spacing", "sp")].
Definition u_obj : gobj := the_line "underground_line" "A" "3" "ucfg".
Definition u_objs (r : string) : list (string * gobj) := [("cdu", cdu r); ("sp", ab_spacing); ("ucfg", u_cfg); ("u1", u_obj); ("u2", u_obj)].
Definition u_prims : prims := with_cables line_prims 1.
Definition u_cable (r : R) : cdata := {| c_radius := (3 - 1) / 24; c_k := 2; c_r := r; c_g := 1; c_sr := 2; c_sg := 2 |}.
Lemma u_reads : underground_spacing u_prims [3%R] ab_spacing = Ok (ab_spacing, ab_dist).
Proof.
  unfold underground_spacing. change pairs5 with [(0, 1); (0, 2); (0, 3); (0, 4); (1, 2); (1, 3); (1, 4); (2, 3); (2, 4); (3, 4)]%nat.
  rewrite mfold_cons. assert (X : ug_pair u_prims [3%R] (ab_spacing, no_dist) (0, 1)%nat = Ok (ab_spacing, ab_dist)).
  { unfold ug_pair. cbn [dget dname ab_spacing obj go_attrs nth lookup5 append String.eqb Ascii.eqb Bool.eqb]. unfold fl. cbn [digits numchar].
    cbv -[IZR Rdiv Ropp reqb rltb]. decide_reals. reflexivity. }
  rewrite X. reflexivity.
Qed.
Definition u_wire (r : R) : wire :=
  {| w_phase := "A"; w_diam := None; w_gmr := Some 1%R; w_res := Some r; w_ins := None; w_emerg := None; w_outer := Some 3%R;
     w_cnd := Some 1%R; w_k := Some (trunc (5 / 2)); w_cdiam := Some 1%R; w_cgmr := Some 2%R; w_cres := Some 2%R |}.
Lemma half_five : whole (5 / 2) 2.
Proof. split; [lia | cbn; lra]. Qed.
Lemma u_laid : forall r, laid [u_wire r] [u_cable r] None.
Proof.
  intros r. exists [u_wire r], []. split; [reflexivity |]. split; [| split; [discriminate | reflexivity]]. constructor; [| constructor].
  split; [discriminate |]. split; [exists 3%R, 1%R; repeat split |]. split; [cbn [w_k u_wire]; now rewrite (whole_trunc half_five) |]. cbn. repeat split; lra || lia.
Qed.
Lemma u_surveyed : forall r D, D 0%nat 0%nat = 0%R -> surveyed 1 [u_cable r] (strip_dist ab_dist) D.
Proof.
  intros r D Z i j Hi Hj. replace i with 0%nat by lia. replace j with 0%nat by lia. split; [| intros X; now elim X]. exists [0; 2]%R. rewrite ab_strip, Z. now split.
Qed.
Definition u_z (r : R) (i j : nat) : C :=
  if Nat.eqb i j then if Nat.eqb i 0 then cable_self r 1 else cable_self (2 / IZR 2) (sqrt (1 / 3)) else cable_mutual ((3 - 1) / 24).
Lemma u_primitive : forall r D, cable_primitive [u_cable r] None 1 D (u_z r).
Proof.
  intros r D. split; [| split; [| split; [| split]]]; cbn [List.length].
  - intros [| [| i]] c H; try discriminate. injection H as <-. split; [reflexivity |]. split; [exists (sqrt (1 / 3)); split; [| reflexivity] | split; reflexivity].
    split; [apply sqrt_lt_R0; lra |]. cbn [c_k c_sg c_radius u_cable]. replace (Z.to_nat 2) with 2%nat by reflexivity. cbn [pow Nat.sub].
    rewrite Rmult_1_r, sqrt_sqrt by lra. cbn. lra.
  - discriminate.
  - intros. lia.
  - intros. lia.
  - intros. lia.
Qed.
Lemma u_nz : forall r, u_z r 1 1 <> C0.
Proof. intros r. cbn. unfold cable_self, C0. intros H. injection H as H _. lra. Qed.
Lemma u_inverts : forall r, inverts u_prims 1 (fun i j => u_z r (1 + i) (1 + j)).
Proof. intros r. apply inverts_one. apply u_nz. Qed.
Lemma u_imp : forall r, exists m fk, underground_z line_prims [u_wire r] (strip_dist ab_dist) = Ok m /\ holds 1 1 m fk /\ grounded_law 1 1 (u_z r) fk.
Proof.
  intros r. destruct (@cable_line line_prims [u_wire r] [u_cable r] None (strip_dist ab_dist) (fun _ _ => 0%R) (u_z r)) as (m & fk & H & K & G & _).
  - apply u_laid.
  - now apply u_surveyed.
  - apply u_primitive.
  - apply u_inverts.
  - now exists m, fk.
Qed.
Definition u_y (i : nat) : R := match i with O => 77.3619 / 1000000 / ln 2 / 2 | _ => 0 end.
Lemma u_half : forall r, half_shunts [u_wire r] u_y.
Proof.
  intros r [| [| i]] w W; try discriminate. injection W as <-. right. split; [discriminate |]. split; [lia |]. exists 3%R, 1%R, 1%R, 2%Z.
  split; [repeat split; cbn [w_k u_wire]; now rewrite (whole_trunc half_five) |]. split; [unfold sound; repeat split; try lra; lia |].
  unfold ring_shunt. rewrite thick_factor. split; [pose proof ln2; lra | reflexivity].
Qed.
Lemma u_charge : forall r, exists m, underground_cap [u_wire r] = Ok m.
Proof. intros r. destruct (cable_shunts (u_half r)) as (m & H & _). now exists m. Qed.

Definition u_state (r : string) st c w d : rstate := {| r_objs := u_objs r; r_store := st; r_config := c; r_conds := w; r_dist := d |}.
Lemma u_conf : forall t r st c w d, t = "1 Ohm/km" /\ r = (1 * (1609344 / 1000000))%R \/ t = "1" /\ r = 1%R ->
  ug_config u_prims u_obj (u_state t st c w d) = Ok (u_state "1" st (Some "ucfg") (Some [u_wire r]) (Some ab_dist)).
Proof.
  intros t r st c w d H. unfold ug_config. change (gattr u_obj "configuration") with (Some "ucfg").
  cbv beta iota. change (obj_at (r_objs (u_state t st c w d)) "ucfg") with (Ok u_cfg). cbn [pbind].
  change (wires_for u_cfg ["A"; "B"; "C"; "N"]) with [("cdu", new_wire "A")].
  assert (F : fill_all (ug_wire u_prims) (u_objs t) [("cdu", new_wire "A")] = Ok (u_objs "1", [u_wire r])).
  { destruct H as [[-> ->] | [-> ->]]; reflexivity. }
  change (r_objs (u_state t st c w d)) with (u_objs t). rewrite F. cbn [pbind]. change (gattr u_cfg "spacing") with (Some "sp"). cbv beta iota.
  change (obj_at (u_objs "1") "sp") with (Ok ab_spacing). cbn [pbind map u_wire w_outer all_some]. rewrite u_reads. cbn [pbind fst snd]. reflexivity.
Qed.
Lemma u_turn : forall t r n st c w d, t = "1 Ohm/km" /\ r = (1 * (1609344 / 1000000))%R \/ t = "1" /\ r = 1%R -> n = "u1" \/ n = "u2" ->
  exists l ws, read_object u_prims [] (u_state t st c w d) n = Ok (u_state "1" (st ++ [MLine l])%list (Some "ucfg") (Some ws) (Some ab_dist)) /\
    dl_wires l = line_wires [u_wire 1] /\ dl_len l = (3 * (3048 / 10000))%R /\ (exists sh, underground_cap [u_wire 1] = Ok sh /\ dl_shunt l = Some (per_meter sh)) /\
    exists fk, holds 1 1 (dl_z l) (fun i j => to_metre (fk i j)) /\ grounded_law 1 1 (u_z r) fk.
Proof.
  intros t r n st c w d H N.
  assert (X : read_object u_prims [] (u_state t st c w d) n =
    read_underground u_prims n u_obj {| pi_phases := ["A"]; pi_delta := false; pi_triplex := false; pi_neutral := false |} (u_state t st c w d)).
  { destruct N as [-> | ->]; reflexivity. }
  rewrite X. unfold read_underground.
  change (line_length u_prims u_obj) with (Ok (u_obj, (3 * (3048 / 10000))%R)). cbn [pbind fst snd].
  assert (Y : set_length n u_obj (u_state t st c w d) = u_state t st c w d) by (destruct N as [-> | ->]; reflexivity).
  rewrite Y, (@u_conf t r st c w d H). cbn [pbind bound r_conds u_state r_dist]. change (the_config _) with (Ok u_cfg). cbn [pbind].
  rewrite direct_never by (left; reflexivity). cbn [pbind]. destruct (u_imp r) as (m & fk & Hm & Ho & G).
  change (p_ugz u_prims [u_wire r] (strip_dist ab_dist)) with (underground_z line_prims [u_wire r] (strip_dist ab_dist)). rewrite Hm. cbn [pbind].
  rewrite direct_never by (right; reflexivity). cbn [pbind]. change (p_ucap u_prims [u_wire r]) with (underground_cap [u_wire r]). destruct (u_charge r) as (y & Hy). rewrite Hy. cbn [pbind].
  do 2 eexists. split; [reflexivity |]. split; [reflexivity |]. split; [reflexivity |]. split; [exists y; split; [exact Hy | reflexivity] |]. exists fk. split; [now apply per_meter_holds | exact G].
Qed.
Lemma u_file : exists l1 l2, read_store u_prims [] (u_objs "1 Ohm/km") = Ok [MLine l1; MLine l2] /\ dl_wires l1 = dl_wires l2 /\ dl_len l1 = dl_len l2 /\ dl_shunt l1 = dl_shunt l2 /\
  (exists fk, holds 1 1 (dl_z l1) (fun i j => to_metre (fk i j)) /\ grounded_law 1 1 (u_z (per_mile 1)) fk) /\
  (exists fk, holds 1 1 (dl_z l2) (fun i j => to_metre (fk i j)) /\ grounded_law 1 1 (u_z 1) fk).
Proof.
  unfold read_store. change (map fst (u_objs "1 Ohm/km")) with ["cdu"; "sp"; "ucfg"; "u1"; "u2"].
  change (start (u_objs "1 Ohm/km")) with (u_state "1 Ohm/km" [] None None None).
  do 3 (rewrite mfold_cons; cbn [pbind]; match goal with |- context [read_object ?E ?s ?st ?n] => change (read_object E s st n) with (Ok st) end; cbn [pbind]).
  rewrite mfold_cons. destruct (@u_turn "1 Ohm/km" _ "u1" [] None None None (or_introl (conj eq_refl eq_refl)) ltac:(auto)) as (l1 & w1 & -> & A1 & A2 & (sh1 & A3 & A4) & A5). cbn [pbind].
  rewrite mfold_cons. match goal with |- context [read_object _ _ (u_state _ ?st ?c ?w ?d) _] => destruct (@u_turn "1" _ "u2" st c w d (or_intror (conj eq_refl eq_refl)) ltac:(auto)) as (l2 & w2 & -> & B1 & B2 & (sh2 & B3 & B4) & B5) end. cbn [pbind].
  cbn. exists l1, l2. split; [reflexivity |]. split; [congruence |]. split; [congruence |]. split; [congruence |]. split; [exact A5 | exact B5].
Qed.
Lemma u_keys : NoDup (map fst (u_objs "1 Ohm/km")).
Proof. repeat constructor; cbn; intuition discriminate. Qed.
Ltac there := apply named_in; [cbn; tauto | exact u_keys].
Lemma u_configured : configured (u_objs "1 Ohm/km") u_obj u_cfg.
Proof. exists "ucfg". split; [now apply says_dget | there]. Qed.
Ltac num := eexists; split; [now apply says_dget | reflexivity].
Lemma u_data : forall pre r, (pre = firstn 3 (u_objs "1 Ohm/km") /\ r = per_mile 1 \/ pre = firstn 4 (u_objs "1 Ohm/km") /\ r = 1%R) ->
  underground_data u_prims (u_objs "1 Ohm/km") pre u_obj ["A"] [u_cable r] None (fun _ _ => 2%R).
Proof.
  intros pre r H. exists u_cfg, ab_spacing, ["B"]. split; [exact u_configured |]. split; [now apply conductors_mem |]. split; [cbn; intuition discriminate |]. split; [discriminate |].
  split; [exists "sp"; split; [now apply says_dget | there] |]. split; [| split; [discriminate |]; split; [exact ab_places |]; split].
  - constructor; [| constructor]. exists "cdu", (cdu "1 Ohm/km"). split; [now apply says_dget |]. split; [there |].
    split; [exists 3%R, 1%R; split; [num |]; split; [num | reflexivity] |]. split; [exists (5 / 2)%R; split; [num | exact half_five] |].
    split; [| repeat (split; [num |]); cbn; lra].
    exists "1 Ohm/km". split; [now apply says_dget |]. right. split; [exists "1 ", ""; reflexivity |]. exists 1%R. split; [exists "1"; split; reflexivity |].
    destruct H as [[-> ->] | [-> ->]]; [right | left]; (split; [| reflexivity]).
    + intros [(m & o & I & (C & _)) | (q & I & (l & m & x & B) & _)].
      * cbn in I. repeat (destruct I as [I | I]; [injection I as <- <-; discriminate C |]). destruct I.
      * apply (f_equal (@tl string)) in B. assert (X : In "A" (tl spots)) by (rewrite B; destruct l; cbn; rewrite ?in_app_iff; cbn; rewrite ?in_app_iff; cbn; tauto).
        cbn in X. intuition discriminate.
    + left. exists "u1", u_obj. split; [cbn; tauto |]. split; [reflexivity |]. exists u_cfg, "A". split; [exact u_configured |]. split; [cbn; tauto |]. now apply says_dget.
  - intros p q t t' B S O Z. assert (A : apart u_prims ab_spacing p q 0 \/ True) by now right. clear A.
    apply gattr_says in S. destruct (before_in B) as [Hp Hq]. unfold gattr, ab_spacing, obj in S. cbn [go_attrs] in S.
    cbn in Hp, Hq. destruct Hp as [<- | [<- | [<- | [<- | [<- | []]]]]]; destruct Hq as [<- | [<- | [<- | [<- | [<- | []]]]]]; cbn in S; try discriminate S.
    injection S as <-. apply only_number_digits in O. subst t'. cbn in Z. injection Z as Z. lra.
  - intros [| [| i]] [| [| j]] p q Hp Hq NE; cbn in Hp, Hq; try discriminate; try (destruct i; discriminate); try (destruct j; discriminate); try (now elim NE).
Qed.
Lemma u_shunts : shunt_objects u_prims (u_objs "1 Ohm/km") u_obj ["A"] u_y.
Proof.
  intros [| [| i]] p Hp; try discriminate. injection Hp as <-. exists u_cfg, "cdu", (cdu "1 Ohm/km"), 3%R, 1%R, 1%R, (5 / 2)%R, 2%Z.
  split; [exact u_configured |]. split; [now apply says_dget |]. split; [there |]. split; [num |]. split; [num |]. split; [num |]. split; [num |]. split; [exact half_five |].
  split; [unfold sound; repeat split; try lra; lia |]. unfold ring_shunt. rewrite thick_factor. split; [pose proof ln2; lra | reflexivity].
Qed.
(** the neutral current for one ampere in the conductor is the same, the voltage drop is not *)
Lemma u_law : forall r fk, grounded_law 1 1 (u_z r) fk ->
  fk 0%nat 0%nat = Cadd (cable_self r 1) (Cmul (cable_mutual ((3 - 1) / 24)) (Copp (Cmul (Crecip (u_z 1 1 1)) (cable_mutual ((3 - 1) / 24))))).
Proof.
  intros r fk G. specialize (G (fun _ => (1, 0)%R) (fun _ => Copp (Cmul (Crecip (u_z 1 1 1)) (cable_mutual ((3 - 1) / 24))))).
  assert (H : forall i, (i < 1)%nat -> Cadd (times 1 (u_z r) (fun _ => (1, 0)%R) i) (times 1 (fun i j => u_z r i (1 + j)) (fun _ => Copp (Cmul (Crecip (u_z 1 1 1)) (cable_mutual ((3 - 1) / 24)))) i) =
    times 1 fk (fun _ => (1, 0)%R) i).
  { apply G. intros a Ha. replace a with 0%nat by lia. rewrite !times1. change (u_z r (1 + 0) 0) with (cable_mutual ((3 - 1) / 24)). change (u_z r (1 + 0) (1 + 0)) with (u_z 1 1 1).
    set (m := cable_mutual _). pose proof (@recip_r (u_z 1 1 1) m (@u_nz 1%R)) as Q. set (k := Cmul (Crecip (u_z 1 1 1)) m) in *. set (u := u_z 1 1 1) in *. clearbody k u m. rewrite <- Q.
    destruct u, k. unfold Cadd, Cmul, Copp, C0. cbn. f_equal; ring. }
  specialize (H 0%nat ltac:(lia)). rewrite !times1 in H. change (u_z r 0 0) with (cable_self r 1) in H. change (u_z r 0 (1 + 0)) with (cable_mutual ((3 - 1) / 24)) in H.
  assert (X : forall z, Cmul z (1, 0)%R = z) by (intros [a b]; unfold Cmul; cbn; f_equal; ring). rewrite !X in H. now symmetry.
Qed.
Lemma u_differ : exists l1 l2, read_store u_prims [] (u_objs "1 Ohm/km") = Ok [MLine l1; MLine l2] /\ dl_wires l1 = dl_wires l2 /\ dl_len l1 = dl_len l2 /\
  dl_shunt l1 = dl_shunt l2 /\ exists a b, entry (dl_z l1) 0 0 = Some (to_metre a) /\ entry (dl_z l2) 0 0 = Some (to_metre b) /\ (fst a - fst b = per_mile 1 - 1)%R.
Proof.
  destruct u_file as (l1 & l2 & H & W & L & Y & (f1 & H1 & G1) & (f2 & H2 & G2)). exists l1, l2. do 4 (split; [assumption |]).
  exists (f1 0%nat 0%nat), (f2 0%nat 0%nat). apply holds_one in H1, H2. rewrite H1, H2. split; [reflexivity |]. split; [reflexivity |].
  rewrite (u_law G1), (u_law G2). unfold Cadd, cable_self. cbn [fst]. lra.
Qed.
