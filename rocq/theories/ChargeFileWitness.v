(** A concrete file with an overhead line of one phase. *)
From Coq Require Import Reals ZArith String Ascii List Bool Lia Lra Arith.
From Verif Require Import PyExc SpecComponents SpecUnbalanced Components UnbalancedLine GlmText SpecGlm GlmBase LineImpedance ThreePhase GlmReader SpecReader ReaderBase ReaderLoadProofs ReaderFrame ReaderStore ReaderFile ReaderWitness SpecLineZ KronProofs CarsonProofs SpacingProofs LineZFinal LineZWitness SpecReader2 OverheadFile ReaderWitness2 Cables SpecCables ShuntProofs ChargeProofs RingProofs CableZProofs CableFinal CableWitness CableFileWitness SpecChargeFile ChargeFile.
Import ListNotations.
Local Open Scope string_scope.
Set Implicit Arguments.

Definition a_cfg : gobj := obj "line_configuration" [("conductor_A", "cdA"); ("spacing", "sp")].
Definition a_obj : gobj := the_line "overhead_line" "A" "3" "cfg".
Definition a_objs : list (string * gobj) := [("cdA", cdA'); ("sp", ab_spacing); ("cfg", a_cfg); ("l1", a_obj)].
Lemma a_reads : overhead_spacing u_prims ab_spacing ["A"] = Ok (ab_spacing, ab_dist).
Proof.
  unfold overhead_spacing. change pairs5 with [(0, 1); (0, 2); (0, 3); (0, 4); (1, 2); (1, 3); (1, 4); (2, 3); (2, 4); (3, 4)]%nat.
  rewrite mfold_cons. assert (X : oh_pair u_prims (ab_spacing, no_dist, ((-100)%R, 5, 5)%nat) (0, 1)%nat = Ok (ab_spacing, ab_dist, (2%R, 0, 1)%nat)).
  { unfold oh_pair. cbn [dget dname ab_spacing obj go_attrs nth lookup5 append String.eqb Ascii.eqb Bool.eqb]. unfold fl. cbn [digits numchar].
    cbv -[IZR Rdiv Ropp reqb rltb]. decide_reals. reflexivity. }
  rewrite X. cbn [pbind]. do 9 (rewrite mfold_cons, pair_missing by reflexivity; cbn [pbind]). cbn [mfold pbind].
  unfold count_given, ab_dist. cbn [concat List.app].
  repeat (rewrite count_cons; decide_reals). cbn [filter List.length].
  unfold has_earth. cbn [nth existsb]. decide_reals. cbn [orb].
  match goal with |- context [Nat.eqb ?a 2] => let v := eval vm_compute in (Nat.eqb a 2) in change (Nat.eqb a 2) with v end.
  unfold oh_two, has_earth. cbn [nth existsb]. decide_reals. reflexivity.
Qed.
Lemma a_z : exists m, overhead_z u_prims [ab_wire "A" 1] (strip_dist ab_dist) ["A"] false = Ok m.
Proof.
  rewrite ab_strip. unfold overhead_z. assert (X : exists m, oh_matrix [ab_wire "A" 1] [[0; 2]; [2; 0]]%R = Ok m).
  { unfold oh_matrix. cbn [List.length seq list_prod map List.app]. cbn [mfold oh_cell wire_at nth_error pbind index_of ab_wire w_phase Nat.eqb self_z w_res w_gmr dist_at].
    change (rev_lookup "A") with (Some 0%nat). cbn [pbind]. unfold zii. decide_reals. cbn [negb pbind Nat.ltb Nat.leb andb]. eexists. reflexivity. }
  destruct X as (m & ->). cbn [pbind]. eexists. reflexivity.
Qed.
Definition a_P (i j : nat) : R := coeff (fun _ _ => 2%R) (fun _ => (1 / 2 / 2)%R) (used_mirror (fun _ _ => 2%R) (fun _ => 1%R)) (nth i ["A"] "") (nth j ["A"] "").
Lemma a_inverts : inverts u_prims 1 (real a_P).
Proof.
  apply inverts_one. unfold real, C0. intros H. injection H as H. unfold a_P, coeff, used_mirror in H. cbn in H. assert (L : (0 < ln (2 * 1 / (1 / 2 / 2)))%R).
  { rewrite <- ln_1. apply ln_increasing; lra. }
  lra.
Qed.
Lemma a_measured : measured (fun _ _ => 2%R) (fun _ => 1%R) (fun _ => (1 / 2 / 2)%R) [ab_wire "A" 1] (one_foot ab_dist).
Proof.
  split; [repeat constructor; cbn; intuition discriminate |]. split; [intros p [<- | []]; cbn; tauto |]. split; [| split; [| split]].
  - intros w [<- | []]. exists (1 / 2)%R. cbn. repeat split; lra.
  - intros w a [<- | []] Ha. cbn [w_phase ab_wire] in Ha. destruct a as [| [| [| [| [| a]]]]]; cbn in Ha; try discriminate; [| destruct a; discriminate].
    cbn. repeat split; lra.
  - intros v w a b [<- | []] [<- | []] N. now elim N.
  - intros w [<- | []] N [Q | []]. discriminate Q.
Qed.
Lemma a_cap : exists m, overhead_cap line_prims 1 [ab_wire "A" 1] ab_dist = Ok (Some m).
Proof.
  destruct (@charge_law line_prims 1 (fun _ _ => 2%R) (fun _ => 1%R) (fun _ => (1 / 2 / 2)%R) [ab_wire "A" 1] [] (one_foot ab_dist) a_measured) as (m & fm & H & _).
  - intros w [<- | []]. discriminate.
  - now left.
  - exact a_inverts.
  - exists m. rewrite <- H. apply no_heights.
    + intros a b Ha Hb. rewrite one_foot_at by lia. now rewrite (proj2 (Nat.eqb_neq b 4)) by lia.
    + intros a Ha. split; [| now rewrite one_foot_at by lia]. destruct a as [| [| [| [| a]]]]; try lia; reflexivity.
Qed.
Lemma a_file : exists l, read_store u_prims [] a_objs = Ok [MLine l].
Proof.
  unfold read_store. change (map fst a_objs) with ["cdA"; "sp"; "cfg"; "l1"].
  do 3 (rewrite mfold_cons; cbn [pbind]; match goal with |- context [read_object ?E ?s ?st ?n] => change (read_object E s st n) with (Ok st) end; cbn [pbind]).
  rewrite mfold_cons.
  change (read_object u_prims [] (start a_objs) "l1") with
    (read_overhead u_prims "l1" a_obj {| pi_phases := ["A"]; pi_delta := false; pi_triplex := false; pi_neutral := false |} (start a_objs)).
  unfold read_overhead. change (line_length u_prims a_obj) with (Ok (a_obj, (3 * (3048 / 10000))%R)). cbn [pbind fst snd].
  change (set_length "l1" a_obj (start a_objs)) with (start a_objs).
  assert (C : oh_config u_prims a_obj (start a_objs) = Ok (set_vars (start a_objs) a_objs (Some "cfg") (Some [ab_wire "A" 1]) (Some ab_dist))).
  { unfold oh_config. change (gattr a_obj "configuration") with (Some "cfg"). cbv beta iota. change (obj_at (r_objs (start a_objs)) "cfg") with (Ok a_cfg). cbn [pbind].
    change (wires_for a_cfg ["A"; "B"; "C"; "N"]) with [("cdA", new_wire "A")]. change (r_objs (start a_objs)) with a_objs.
    assert (F : fill_all (oh_wire u_prims) a_objs [("cdA", new_wire "A")] = Ok (a_objs, [ab_wire "A" 1])) by reflexivity.
    rewrite F. cbn [pbind]. change (gattr a_cfg "spacing") with (Some "sp"). cbv beta iota. change (obj_at a_objs "sp") with (Ok ab_spacing).
    cbn [pbind map ab_wire w_phase]. rewrite a_reads. cbn [pbind fst snd]. reflexivity. }
  rewrite C. cbn [pbind bound r_conds set_vars r_dist]. change (the_config _) with (Ok a_cfg). cbn [pbind].
  rewrite direct_never by (left; reflexivity). cbn [pbind]. destruct a_z as (m & Hm). cbn [pi_phases pi_neutral]. rewrite Hm. cbn [pbind].
  rewrite direct_never by (right; reflexivity). cbn [pbind]. change (p_ocap u_prims [ab_wire "A" 1] ab_dist) with (overhead_cap line_prims 1 [ab_wire "A" 1] ab_dist).
  destruct a_cap as (y & ->). cbn [pbind mfold]. eexists. reflexivity.
Qed.
Lemma a_keys : NoDup (map fst a_objs).
Proof. repeat constructor; cbn; intuition discriminate. Qed.
Ltac there := apply named_in; [cbn; tauto | exact a_keys].
Lemma a_measures : overhead_measures u_prims a_objs a_obj ["A"] (fun _ _ => 2%R) (fun _ => 1%R) (fun _ => (1 / 2 / 2)%R).
Proof.
  exists a_cfg, ab_spacing. split; [exists "cfg"; split; [now apply says_dget | there] |]. split; [now apply conductors_mem |].
  split; [exists "sp"; split; [now apply says_dget | there] |]. split; [| split; [| split]].
  - intros p [<- | []]. exists "cdA", cdA', None. split; [now apply says_dget |]. split; [there |]. split; [| split; [cbn; lra | reflexivity]].
    left. split; [| reflexivity]. apply gattr_silent. reflexivity.
  - intros p q [<- | []] [<- | []] N. now elim N.
  - right. split.
    + intros p x [A | A]; apply ab_said in A; destruct A as [A B]; discriminate.
    + intros p [<- | []]. split; [| reflexivity]. exists "B", 2%R. exact ab_gap.
  - intros p [<- | []] N [Q | []]. discriminate Q.
Qed.
