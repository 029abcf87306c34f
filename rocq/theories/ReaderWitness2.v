(** Concrete files with lines. *)
From Coq Require Import Reals ZArith String Ascii List Bool Lia Lra Arith.
From Verif Require Import PyExc SpecComponents SpecUnbalanced Components UnbalancedLine GlmText SpecGlm GlmBase LineImpedance ThreePhase GlmReader SpecReader ReaderBase ReaderLoadProofs ReaderFrame ReaderStore ReaderFile ReaderWitness SpecLineZ KronProofs CarsonProofs SpacingProofs LineZFinal TriplexProofs LineZWitness SpecReader2 OverheadFile ReaderBare.
Import ListNotations.
Local Open Scope string_scope.
Set Implicit Arguments.

(** two overhead lines with one configuration, a conductor in ohms per kilometre, and a triplex line *)
Definition cdA : gobj := obj "overhead_line_conductor" [("geometric_mean_radius", "1"); ("resistance", "1 Ohm/km")].
Definition cdA' : gobj := obj "overhead_line_conductor" [("geometric_mean_radius", "1"); ("resistance", "1")].
Definition ab_spacing : gobj := obj "line_spacing" [("distance_AB", "2")].
Definition ab_cfg : gobj := obj "line_configuration" [("conductor_A", "cdA"); ("conductor_B", "cdB"); ("spacing", "sp")].
Definition the_line (cls ph len cfg : string) : gobj :=
  obj cls [("phases", ph); ("from", "x"); ("to", "y"); ("length", len); ("configuration", cfg)].
Definition tp_cfg : gobj := obj "triplex_line_configuration"
  [("conductor_1", "cdt"); ("conductor_2", "cdt"); ("conductor_N", "cdt"); ("insulation_thickness", "2"); ("diameter", "1")].
Definition cdt : gobj := obj "triplex_line_conductor" [("geometric_mean_radius", "1"); ("resistance", "1")].
Definition shared_objs (a : gobj) : list (string * gobj) :=
  [("cdA", a); ("cdB", cdA'); ("sp", ab_spacing); ("cfg", ab_cfg); ("cdt", cdt); ("tcfg", tp_cfg);
   ("l1", the_line "overhead_line" "AB" "3" "cfg"); ("l2", the_line "overhead_line" "AB" "3" "cfg"); ("t1", the_line "triplex_line" "AS" "2 km" "tcfg")].
Definition ab_dist : dmat :=
  [[0; 2; -1; -1; -1]; [2; 0; -1; -1; -1]; [-1; -1; -1; -1; -1]; [-1; -1; -1; -1; -1]; [-1; -1; -1; -1; -1]]%R.
Lemma ab_reads : overhead_spacing line_prims ab_spacing ["A"; "B"] = Ok (ab_spacing, ab_dist).
Proof.
  unfold overhead_spacing. change pairs5 with [(0, 1); (0, 2); (0, 3); (0, 4); (1, 2); (1, 3); (1, 4); (2, 3); (2, 4); (3, 4)]%nat.
  rewrite mfold_cons. assert (X : oh_pair line_prims (ab_spacing, no_dist, ((-100)%R, 5, 5)%nat) (0, 1)%nat = Ok (ab_spacing, ab_dist, (2%R, 0, 1)%nat)).
  { unfold oh_pair. cbn [dget dname ab_spacing obj go_attrs nth lookup5 append String.eqb Ascii.eqb Bool.eqb]. unfold fl. cbn [digits numchar].
    cbv -[IZR Rdiv Ropp reqb rltb]. decide_reals. reflexivity. }
  rewrite X. cbn [pbind]. do 9 (rewrite mfold_cons, pair_missing by reflexivity; cbn [pbind]). cbn [mfold pbind].
  unfold count_given, ab_dist. cbn [concat List.app].
  repeat (rewrite count_cons; decide_reals). cbn [filter List.length].
  unfold has_earth. cbn [nth existsb]. decide_reals. cbn [orb].
  match goal with |- context [Nat.eqb ?a 2] => let v := eval vm_compute in (Nat.eqb a 2) in change (Nat.eqb a 2) with v end.
  unfold oh_two, has_earth. cbn [nth existsb]. decide_reals. reflexivity.
Qed.
Lemma ab_strip : strip_dist ab_dist = [[0; 2]; [2; 0]]%R.
Proof.
  unfold strip_dist. cbn [ab_dist List.length seq filter existsb at2 nth]. unfold at2. cbn [nth]. decide_reals. cbn [orb map nth]. reflexivity.
Qed.
Definition ab_wire (p : string) (r : R) : wire :=
  {| w_phase := p; w_diam := Some (1 / 2)%R; w_gmr := Some 1%R; w_res := Some r; w_ins := None; w_emerg := None; w_outer := None;
     w_cnd := None; w_k := None; w_cdiam := None; w_cgmr := None; w_cres := None |}.
Lemma ab_z : forall r s, exists m, overhead_z line_prims [ab_wire "A" r; ab_wire "B" s] (strip_dist ab_dist) ["A"; "B"] false = Ok m.
Proof.
  intros r s. rewrite ab_strip. unfold overhead_z. assert (X : exists m, oh_matrix [ab_wire "A" r; ab_wire "B" s] [[0; 2]; [2; 0]]%R = Ok m).
  { unfold oh_matrix. cbn [List.length seq list_prod map List.app]. cbn [mfold oh_cell wire_at nth_error pbind index_of ab_wire w_phase Nat.eqb self_z w_res w_gmr dist_at].
    change (rev_lookup "A") with (Some 0%nat). change (rev_lookup "B") with (Some 1%nat). cbn [pbind]. unfold zii. decide_reals. cbn [negb pbind Nat.ltb Nat.leb andb]. eexists. reflexivity. }
  destruct X as (m & ->). cbn [pbind]. eexists. reflexivity.
Qed.
Lemma tp_z : exists m, triplex_z line_prims (map (fun p => {| w_phase := p; w_diam := if String.eqb p "N" then Some 1%R else None; w_gmr := Some 1%R; w_res := Some 1%R;
     w_ins := if String.eqb p "N" then Some 2%R else None; w_emerg := None; w_outer := None;
     w_cnd := None; w_k := None; w_cdiam := None; w_cgmr := None; w_cres := None |}) ["1"; "2"; "N"]) = Ok m.
Proof.
  set (f := fun p : string => _).
  destruct (@triplex_carson line_prims (map f ["1"; "2"; "N"]) ((1 + 2 * 2) / 12)%R ((1 + 2) / 12)%R (flat_z ["1"; "2"; "N"] tri_dist)) as (m & Hm & _).
  - split; [repeat constructor; cbn; intuition discriminate |]. split; [intros p; cbn; tauto |]. intros w r g I _ Hg. cbn in I.
    destruct I as [<- | [<- | [<- | []]]]; cbn in Hg; injection Hg as <-; lra.
  - exists [f "1"; f "2"], (f "N"), [], 1%R, 2%R. split; [reflexivity |]. split; [intros v [<- | [<- | []]]; left; reflexivity |]. cbn. repeat split; lra.
  - split; [| split].
    + intros w I. left. exists 1%R, 1%R. cbn in I. destruct I as [<- | [<- | [<- | []]]]; cbn; repeat split; reflexivity.
    + intros v w Iv Iw N. cbn in Iv, Iw. destruct Iv as [<- | [<- | [<- | []]]]; (destruct Iw as [<- | [<- | [<- | []]]]); cbn in N; try congruence;
      cbn; (split; [intros [X | X]; try discriminate X; reflexivity | intros; try congruence; reflexivity]).
    + intros p q N. unfold flat_z. assert (M : GlmText.mem p ["1"; "2"; "N"] = false).
      { rewrite <- not_true_iff_false, mem_iff. exact N. }
      rewrite M, andb_false_r. split; reflexivity.
  - apply inv1_ok. exact self_nz.
  - exists m. exact Hm.
Qed.
Definition ab_state (a : gobj) st c w d : rstate := {| r_objs := shared_objs a; r_store := st; r_config := c; r_conds := w; r_dist := d |}.
Lemma ab_conf : forall a ra n st c w d, a = cdA /\ ra = (1 * (1609344 / 1000000))%R \/ a = cdA' /\ ra = 1%R ->
  oh_config line_prims (the_line "overhead_line" "AB" n "cfg") (ab_state a st c w d) =
  Ok (ab_state cdA' st (Some "cfg") (Some [ab_wire "A" ra; ab_wire "B" 1]) (Some ab_dist)).
Proof.
  intros a ra n st c w d H. unfold oh_config. change (gattr (the_line "overhead_line" "AB" n "cfg") "configuration") with (Some "cfg").
  cbv beta iota. change (obj_at (r_objs (ab_state a st c w d)) "cfg") with (Ok ab_cfg). cbn [pbind].
  change (wires_for ab_cfg ["A"; "B"; "C"; "N"]) with [("cdA", new_wire "A"); ("cdB", new_wire "B")].
  assert (F : fill_all (oh_wire line_prims) (shared_objs a) [("cdA", new_wire "A"); ("cdB", new_wire "B")] = Ok (shared_objs cdA', [ab_wire "A" ra; ab_wire "B" 1])).
  { destruct H as [[-> ->] | [-> ->]]; reflexivity. }
  change (r_objs (ab_state a st c w d)) with (shared_objs a).  rewrite F. cbn [pbind]. change (gattr ab_cfg "spacing") with (Some "sp"). cbv beta iota. change (obj_at (shared_objs cdA') "sp") with (Ok ab_spacing).
  cbn [pbind map ab_wire w_phase]. rewrite ab_reads. cbn [pbind fst snd]. reflexivity.
Qed.
Lemma ab_turn : forall a ra n st c w d, a = cdA /\ ra = (1 * (1609344 / 1000000))%R \/ a = cdA' /\ ra = 1%R -> n = "l1" \/ n = "l2" ->
  exists l ws, read_object line_prims [] (ab_state a st c w d) n = Ok (ab_state cdA' (st ++ [MLine l])%list (Some "cfg") (Some ws) (Some ab_dist)).
Proof.
  intros a ra n st c w d H N.
  assert (X : read_object line_prims [] (ab_state a st c w d) n =
    read_overhead line_prims n (the_line "overhead_line" "AB" "3" "cfg") {| pi_phases := ["A"; "B"]; pi_delta := false; pi_triplex := false; pi_neutral := false |} (ab_state a st c w d)).
  { destruct N as [-> | ->]; reflexivity. }
  rewrite X. unfold read_overhead.
  change (line_length line_prims (the_line "overhead_line" "AB" "3" "cfg")) with (Ok (the_line "overhead_line" "AB" "3" "cfg", (3 * (3048 / 10000))%R)). cbn [pbind fst snd].
  assert (Y : set_length n (the_line "overhead_line" "AB" "3" "cfg") (ab_state a st c w d) = ab_state a st c w d) by (destruct N as [-> | ->]; reflexivity).
  rewrite Y, (@ab_conf a ra "3" st c w d H). cbn [pbind bound r_conds ab_state r_dist]. change (the_config _) with (Ok ab_cfg). cbn [pbind].
  rewrite direct_never by (left; reflexivity). cbn [pbind]. destruct (ab_z ra 1) as (m & Hm). cbn [pi_phases pi_neutral]. rewrite Hm. cbn [pbind].
  rewrite direct_never by (right; reflexivity). cbn [pbind p_ocap line_prims]. do 2 eexists. reflexivity.
Qed.
Definition t_obj (len : string) : gobj := the_line "triplex_line" "AS" len "tcfg".
Lemma tp_turn : forall st c w d, exists s, read_object line_prims [] (ab_state cdA' st c w d) "t1" = Ok s.
Proof.
  intros st c w d.
  assert (X : read_object line_prims [] (ab_state cdA' st c w d) "t1" = read_triplex_line line_prims "t1" (t_obj "2 km") (ab_state cdA' st c w d)) by reflexivity.
  rewrite X. unfold read_triplex_line.
  change (line_length line_prims (t_obj "2 km")) with (Ok (t_obj "2", (2 * 1000)%R)). cbn [pbind fst snd].
  destruct tp_z as (m & Hm). set (s := set_length "t1" (t_obj "2") (ab_state cdA' st c w d)).
  assert (Y : exists ws, tp_config line_prims (t_obj "2 km") s = Ok (set_vars s (r_objs s) (Some "tcfg") (Some ws) d) /\ triplex_z line_prims ws = Ok m).
  { eexists. split; [reflexivity | exact Hm]. }
  destruct Y as (ws & Y & Hz). rewrite Y. cbn [pbind bound r_conds set_vars]. change (the_config _) with (Ok tp_cfg). cbn [pbind].
  rewrite direct_never by (left; reflexivity). cbn [pbind]. rewrite Hz. cbn [pbind]. eexists. reflexivity.
Qed.
Lemma shared_reads : exists ms, read_store line_prims [] (shared_objs cdA) = Ok ms.
Proof.
  unfold read_store. change (map fst (shared_objs cdA)) with ["cdA"; "cdB"; "sp"; "cfg"; "cdt"; "tcfg"; "l1"; "l2"; "t1"].
  change (start (shared_objs cdA)) with (ab_state cdA [] None None None).
  do 6 (rewrite mfold_cons; cbn [pbind]; match goal with |- context [read_object ?E ?s ?st ?n] => change (read_object E s st n) with (Ok st) end; cbn [pbind]).
  rewrite mfold_cons. destruct (@ab_turn cdA _ "l1" [] None None None (or_introl (conj eq_refl eq_refl)) ltac:(auto)) as (l1 & w1 & ->). cbn [pbind].
  rewrite mfold_cons. match goal with |- context [read_object _ _ (ab_state _ ?st ?c ?w ?d) _] => destruct (@ab_turn cdA' _ "l2" st c w d (or_intror (conj eq_refl eq_refl)) ltac:(auto)) as (l2 & w2 & ->) end. cbn [pbind].
  rewrite mfold_cons. match goal with |- context [read_object _ _ (ab_state _ ?st ?c ?w ?d) _] => destruct (tp_turn st c w d) as (s & ->) end. cbn. eexists. reflexivity.
Qed.
Lemma shared_keys : NoDup (map fst (shared_objs cdA)).
Proof. repeat constructor; cbn; intuition discriminate. Qed.
Lemma named_in : forall objs n o, In (n, o) objs -> NoDup (map fst objs) -> named objs n o.
Proof. intros objs n o I ND. apply named_dget. now apply (@nodup_dget objs ND). Qed.
Ltac here := apply named_in; [cbn; tauto | exact shared_keys].
Lemma conductors_mem : forall c l ps, ps = filter (fun p => match gattr c ("conductor_" ++ p) with Some _ => true | None => false end) l -> conductors_of c l ps.
Proof.
  intros c l ps H. exists (fun p => match gattr c ("conductor_" ++ p) with Some _ => true | None => false end). split; [| exact H].
  intros p. destruct (gattr c ("conductor_" ++ p)) eqn:G; split; try discriminate; intros X; try reflexivity; [intros S | exfalso; apply X]; [apply gattr_silent in S; congruence | now apply gattr_silent].
Qed.
Lemma ab_gap : gap line_prims ab_spacing "A" "B" 2%R.
Proof. left. destruct before_abc as (B & _ & _). split; [exact B |]. exists "2", "2". split; [now apply says_dget |]. split; [reflexivity |]. split; [reflexivity | lra]. Qed.
Lemma ab_said : forall p q x, apart line_prims ab_spacing p q x -> p = "A" /\ q = "B".
Proof.
  intros p q x (B & t & t' & S & _). destruct (before_in B) as [Hp Hq]. apply gattr_says in S. unfold gattr, ab_spacing, obj in S. cbn [go_attrs] in S.
  cbn in Hp, Hq. destruct Hp as [<- | [<- | [<- | [<- | [<- | []]]]]]; destruct Hq as [<- | [<- | [<- | [<- | [<- | []]]]]]; cbn in S; try discriminate S; cbn; tauto.
Qed.
Lemma ab_places : places line_prims ab_spacing ["A"; "B"].
Proof.
  exists (fun p => GlmText.mem p ["A"; "B"]). split; [| reflexivity]. intros p Hp. rewrite mem_iff. split.
  - intros [<- | [<- | []]]; [exists "B", 2%R; exact ab_gap | exists "A", 2%R]. destruct ab_gap as [G | G]; [now right | now left].
  - intros (q & x & [A | A]); apply ab_said in A; destruct A as [-> ->]; cbn; tauto.
Qed.
Definition l_obj : gobj := the_line "overhead_line" "AB" "3" "cfg".
Definition l1_pre : list (string * gobj) := firstn 6 (shared_objs cdA).
Definition l2_pre : list (string * gobj) := firstn 7 (shared_objs cdA).
Definition ab_r (a : R) (p : string) : R := if String.eqb p "A" then a else 1%R.
Lemma not_part : forall u t, contains u t = false -> ~ part_of u t.
Proof. intros u t H X. apply LineFile.contains_part in X. congruence. Qed.
Lemma ab_configured : configured (shared_objs cdA) l_obj ab_cfg.
Proof. exists "cfg". split; [now apply says_dget | here]. Qed.
Lemma fun_named : forall objs n a b, named objs n a -> named objs n b -> a = b.
Proof. intros objs n a b A B. apply named_dget in A, B. congruence. Qed.
Lemma cfg_says : forall k n, says ab_cfg k n -> In (k, n) (go_attrs ab_cfg).
Proof. intros k n S. apply gattr_says in S. unfold gattr in S. apply dget_some in S. destruct S as (l & r & -> & _). apply in_or_app. right. now left. Qed.
Lemma ab_data : forall pre a, (pre = l1_pre /\ a = per_mile 1 \/ pre = l2_pre /\ a = 1%R) ->
  overhead_data line_prims (shared_objs cdA) pre l_obj ["A"; "B"] (ab_r a) (fun _ => 1%R) (fun _ _ => 2%R).
Proof.
  intros pre a H. exists ab_cfg, ab_spacing, []. split; [exact ab_configured |]. split; [now apply conductors_mem |].
  split; [exists "sp"; split; [now apply says_dget | here] |]. split; [| split; [exact ab_places |]].
  - intros p [<- | [<- | []]].
    + exists "cdA", cdA. split; [now apply says_dget |]. split; [here |]. split; [| split; [| lra]].
      * exists "1 Ohm/km". split; [now apply says_dget |]. right. split; [exists "1 ", ""; reflexivity |]. exists 1%R. split; [exists "1"; split; reflexivity |].
        destruct H as [[-> ->] | [-> ->]]; [right | left]; (split; [| reflexivity]).
        -- intros [(m & o & I & (C & _)) | (q & I & (l & m & r & B) & _)].
           ++ cbn in I. repeat (destruct I as [I | I]; [injection I as <- <-; discriminate C |]). destruct I.
           ++ apply (f_equal (@tl string)) in B. assert (X : In "A" (tl spots)) by (rewrite B; destruct l; cbn; rewrite ?in_app_iff; cbn; rewrite ?in_app_iff; cbn; tauto).
              cbn in X. intuition discriminate.
        -- left. exists "l1", l_obj. split; [cbn; tauto |]. split; [reflexivity |]. exists ab_cfg, "A". split; [exact ab_configured |]. split; [cbn; tauto |]. now apply says_dget.
      * exists "1". split; [now apply says_dget |]. left. split; [now apply not_part | reflexivity].
    + exists "cdB", cdA'. split; [now apply says_dget |]. split; [here |]. split; [| split; [| lra]].
      * exists "1". split; [now apply says_dget |]. left. split; [now apply not_part | reflexivity].
      * exists "1". split; [now apply says_dget |]. left. split; [now apply not_part | reflexivity].
  - intros p q [<- | [<- | []]] [<- | [<- | []]] N; try congruence; (split; [| lra]); [exact ab_gap |]. destruct ab_gap as [X | X]; [now right | now left].
Qed.

Lemma t_data : triplex_data line_prims (shared_objs cdA) (t_obj "2 km") ["1"; "2"; "N"] (fun _ => 1%R) (fun _ => 1%R) ((1 + 2 * 2) / 12) ((1 + 2) / 12).
Proof.
  exists tp_cfg, 1%R, 2%R. split; [exists "tcfg"; split; [now apply says_dget | here] |]. split; [now apply conductors_mem |]. split; [discriminate |].
  split; [exists "1"; split; [now apply says_dget | reflexivity] |]. split; [exists "2"; split; [now apply says_dget | reflexivity] |].
  split; [lra |]. split; [lra |]. split; [reflexivity |]. split; [reflexivity |].
  assert (C : forall p, In p ["1"; "2"; "N"] -> conductor (shared_objs cdA) tp_cfg p cdt).
  { intros p [<- | [<- | [<- | []]]]; exists "cdt"; (split; [now apply says_dget | here]). }
  intros p I. exists cdt. split; [now apply C |]. split; [| split; [| lra]]; exists "1"; (split; [now apply says_dget |]); (split; [now apply not_part | reflexivity]).
Qed.
Definition pz (ps : list string) (r : string -> R) (d : string -> string -> R) (p q : string) : C :=
  if (GlmText.mem p ps && GlmText.mem q ps)%bool then if String.eqb p q then carson_self (r p) 1 else carson_mutual (d p q) else C0.
Lemma pz_ok : forall ps r d, phase_z ps r (fun _ => 1%R) d (pz ps r d).
Proof.
  intros ps r d. unfold pz. split; [| split].
  - intros p I. apply mem_iff in I. now rewrite I, String.eqb_refl.
  - intros p q Ip Iq N. apply mem_iff in Ip, Iq. apply String.eqb_neq in N. now rewrite Ip, Iq, N.
  - intros p q N. rewrite <- mem_iff, not_true_iff_false in N. rewrite N, andb_false_r. split; reflexivity.
Qed.
Lemma ab_core : phase_core l_obj "AB".
Proof.
  exists "AB". split; [now apply says_dget |]. exists 0%nat, 0%nat, 0%nat, 0%nat. split; [reflexivity |].
  split; intros r; split; intros X; try discriminate X; change "AB" with ("A" ++ String "B" "") in X; apply snoc_inj in X; destruct X; discriminate.
Qed.
Lemma shared_part : forall E sch n o part, In (go_class o) ["regulator_configuration"; "line_configuration"; "line_spacing"; "transformer_configuration";
  "triplex_line_conductor"; "triplex_line_configuration"; "underground_line_conductor"; "overhead_line_conductor"] -> contributes E sch n o part -> part = [].
Proof.
  intros E sch n o part I C. cbn in I. destruct C as [ | ? ? LO | ? ? ? LO | | ? ? ? ? [K | K] | | | ? [K | K] | ? K | |]; try reflexivity; exfalso;
  try (unfold load_object in LO; destruct LO as [K | [K | [K | [K _]]]]);
  repeat (destruct I as [I | I]; [try congruence; cbn in K; rewrite <- I in K; intuition discriminate |]); destruct I.
Qed.
Lemma forall2_cons : forall A B (P : A -> B -> Prop) a l m, Forall2 P (a :: l) m -> exists b m', m = b :: m' /\ P a b /\ Forall2 P l m'.
Proof. intros A B P a l m H. inversion H; subst. eauto. Qed.
Lemma same_line : forall ls ms, Forall2 same_model (map MLine ls) ms -> ms = map MLine ls.
Proof.
  intros ls ms H. remember (map MLine ls) as l eqn:Q. revert ls Q. induction H as [| a b l m S H IH]; intros [| x ls] Q; try discriminate Q; [reflexivity |].
  cbn in Q |- *. injection Q as -> Q. destruct S as [<- | (n & n' & X & _)]; [| discriminate X]. now rewrite (IH ls Q), Q.
Qed.
Tactic Notation "next" hyp(F) ident(Q) := apply forall2_cons in F; let b := fresh "part" in let m := fresh "parts" in destruct F as (b & m & -> & Q & F); cbn [fst snd] in Q.
(** the same line twice, with different impedances *)
Lemma shared_differ : exists ms l1 l2 l3, read_store line_prims [] (shared_objs cdA) = Ok ms /\ ms = [MLine l1; MLine l2; MLine l3] /\
  dl_wires l1 = dl_wires l2 /\ dl_len l1 = dl_len l2 /\ dl_len l3 = 2000%R /\
  entry (dl_z l1) 0 0 = Some (to_metre (carson_self (per_mile 1) 1)) /\ entry (dl_z l2) 0 0 = Some (to_metre (carson_self 1 1)).
Proof.
  destruct shared_reads as (ms & H). exists ms. destruct (@file_lines line_prims [] (shared_objs cdA) ms shared_keys H) as (parts & F & S & T).
  unfold shared_objs in F at 1. do 6 (next F Q; apply shared_part in Q; [subst | cbn; tauto]). do 3 (next F Q; clear Q). inversion F. subst. clear F.
  destruct (T 6%nat _ _ _ eq_refl eq_refl) as (L1 & O1 & _). destruct (T 7%nat _ _ _ eq_refl eq_refl) as (L2 & O2 & _). destruct (T 8%nat _ _ _ eq_refl eq_refl) as (L3 & _ & _).
  specialize (L1 ltac:(cbn; tauto)). specialize (L2 ltac:(cbn; tauto)). specialize (L3 ltac:(cbn; tauto)). specialize (O1 eq_refl). specialize (O2 eq_refl).
  destruct (O1 "AB" _ _ _ _ _ false ab_core (@ab_data l1_pre _ (or_introl (conj eq_refl eq_refl))) (pz_ok _ _ _)) as (l1 & -> & W1 & Z1);
    [split; [discriminate | cbn; intuition discriminate] | discriminate |].
  destruct (O2 "AB" _ _ _ _ _ false ab_core (@ab_data l2_pre _ (or_intror (conj eq_refl eq_refl))) (pz_ok _ _ _)) as (l2 & -> & W2 & Z2);
    [split; [discriminate | cbn; intuition discriminate] | discriminate |].
  destruct L1 as (l1' & Q1 & M1). injection Q1 as <-. destruct L2 as (l2' & Q2 & M2). injection Q2 as <-. destruct L3 as (l3 & -> & M3).
  exists l1, l2, l3. split; [exact H |]. split; [apply (@same_line [l1; l2; l3]); exact S |].
  assert (A : forall p a, amps line_prims (shared_objs cdA) l_obj p a -> a = None).
  { intros p a (c & n & cd & C & Sn & Nn & O). destruct C as (cn & Sc & Nc). apply gattr_says in Sc. cbn in Sc. injection Sc as <-.
    assert (c = ab_cfg) as -> by (eapply fun_named; [exact Nc | here]). apply cfg_says in Sn. cbn in Sn.
    assert (K : cd = cdA \/ cd = cdA' \/ cd = ab_spacing).
    { destruct Sn as [Q | [Q | [Q | []]]]; apply (f_equal snd) in Q; cbn in Q; subst n; [left | right; left | right; right]; (eapply fun_named; [exact Nn | here]). }
    destruct K as [-> | [-> | ->]];
    destruct O as [[_ ->] | (y & (t & St & _) & _)]; try reflexivity; apply gattr_says in St; discriminate St. }
  assert (CW : forall ws, closed_wires line_prims (shared_objs cdA) l_obj ["A"; "B"] ws -> ws = [{| wi_phase := "A"; wi_open := false; wi_amp := None |}; {| wi_phase := "B"; wi_open := false; wi_amp := None |}]).
  { intros ws F. next F Q. next F Q0. inversion F. subst. destruct part as [a b c], part0 as [a' b' c']. cbn in Q, Q0. destruct Q as (-> & -> & Q), Q0 as (-> & -> & Q0). apply A in Q, Q0. now subst. }
  split; [rewrite (CW _ W1); symmetry; exact (CW _ W2) |].
  assert (M : forall v, metres line_prims l_obj v -> v = (3 * 0.3048)%R).
  { intros v (t & St & K). apply gattr_says in St. cbn in St. injection St as <-. destruct K as [[K _] | [_ (x & Fx & ->)]]; [exfalso; revert K; now apply not_part |]. cbn in Fx. now injection Fx as <-. }
  split; [rewrite (M _ M1); symmetry; exact (M _ M2) |]. split.
  { destruct M3 as (t & St & K). apply gattr_says in St. cbn in St. injection St as <-. destruct K as [[_ (x & (t' & O & Fx) & ->)] | [K _]].
    - assert (t' = "2") as ->. { unfold only_number in O. cbn in O. destruct t' as [| c [| c' r]]; cbn in O; try discriminate O. injection O as ->. reflexivity. }
      cbn in Fx. injection Fx as <-. lra.
    - exfalso. apply K. exists "2 ", "". reflexivity. }
  split; [rewrite (holds_entry Z1) by (cbn; lia) | rewrite (holds_entry Z2) by (cbn; lia)]; reflexivity.
Qed.
(** impedances given directly *)
Definition direct_cfg : gobj := obj "line_configuration" [("z11", "1"); ("spacing", "sp")].
Definition direct_objs (cls ph : string) : list (string * gobj) := [("sp", ab_spacing); ("cfg", direct_cfg); ("l", the_line cls ph "3" "cfg")].
Lemma direct_keys : forall cls ph, NoDup (map fst (direct_objs cls ph)).
Proof. intros cls ph. repeat constructor; cbn; intuition discriminate. Qed.
Lemma direct_none : forall cls ph l, (forall p, In p l -> In p line_phases \/ In p triplex_phases) -> without_conductors (direct_objs cls ph) (the_line cls ph "3" "cfg") l.
Proof.
  intros cls ph l H. exists direct_cfg. split; [exists "cfg"; split; [now apply says_dget | apply named_in; [cbn; tauto | apply direct_keys]] |].
  intros p I. apply gattr_silent. apply H in I. cbn in I. destruct I as [I | I]; repeat (destruct I as [<- | I]; [reflexivity |]); destruct I.
Qed.
Lemma spacing_bare : overhead_spacing line_prims ab_spacing [] = Ok (ab_spacing, ab_dist).
Proof.
  pose proof ab_reads as H. unfold overhead_spacing in *. inv H. rewrite Hx. cbn [pbind]. destruct x as [[o d] mx]. cbv zeta in *.
  inv H. injection H as -> ->. match goal with |- context [Nat.eqb ?a 2] => destruct (Nat.eqb a 2) end; destruct mx as [[m a] b]; reflexivity.
Qed.
Lemma direct_reads : exists ms, read_store line_prims [] (direct_objs "overhead_line" "A") = Ok ms.
Proof.
  unfold read_store. change (map fst (direct_objs "overhead_line" "A")) with ["sp"; "cfg"; "l"].
  set (st := start (direct_objs "overhead_line" "A")). set (o := the_line "overhead_line" "A" "3" "cfg").
  do 2 (rewrite mfold_cons; cbn [pbind]; match goal with |- context [read_object ?E ?s ?st ?n] => change (read_object E s st n) with (Ok st) end; cbn [pbind]).
  rewrite mfold_cons.
  assert (X : read_object line_prims [] st "l" = read_overhead line_prims "l" o {| pi_phases := ["A"]; pi_delta := false; pi_triplex := false; pi_neutral := false |} st) by reflexivity.
  rewrite X. unfold read_overhead. change (line_length line_prims o) with (Ok (o, (3 * (3048 / 10000))%R)). cbn [pbind fst snd].
  change (set_length "l" o st) with st.
  assert (Y : oh_config line_prims o st = Ok (set_vars st (direct_objs "overhead_line" "A") (Some "cfg") (Some []) (Some ab_dist))).
  { unfold oh_config. change (gattr o "configuration") with (Some "cfg"). cbv beta iota. change (obj_at (r_objs st) "cfg") with (Ok direct_cfg). cbn [pbind].
    change (wires_for direct_cfg ["A"; "B"; "C"; "N"]) with (@nil (string * wire)). cbn [fill_all mfold pbind]. change (gattr direct_cfg "spacing") with (Some "sp"). cbv beta iota.
    change (obj_at (r_objs st) "sp") with (Ok ab_spacing). cbn [pbind map]. rewrite spacing_bare. reflexivity. }
  rewrite Y. cbn [pbind bound r_conds set_vars r_dist]. change (the_config _) with (Ok direct_cfg). cbn [pbind]. rewrite direct_never by (left; reflexivity). cbn [pbind pi_phases pi_neutral].
  change (overhead_z line_prims [] (strip_dist ab_dist) ["A"] false) with (Ok [[c0]]). cbn [pbind]. rewrite direct_never by (right; reflexivity). cbn [pbind p_ocap line_prims]. cbn. eexists. reflexivity.
Qed.
Lemma core_plain : forall cls ph a c, ph = (a ++ String c "")%string -> c <> "|"%char -> c <> """"%char -> (match ph with String d _ => d <> """"%char /\ d <> "|"%char | "" => False end) ->
  phase_core (the_line cls ph "3" "cfg") ph.
Proof.
  intros cls ph a c Q N1 N2 M. exists ph. split; [now apply says_dget |]. exists 0%nat, 0%nat, 0%nat, 0%nat. split; [cbn; clear; induction ph as [| x ph IH]; [reflexivity | cbn; now rewrite <- IH] |].
  split; intros r; split; intros X.
  all: try (rewrite X in M; destruct M; congruence).
  all: rewrite Q in X; apply snoc_inj in X; destruct X; congruence.
Qed.
(** a triplex line without configuration after one with *)
Definition bare_line : gobj := obj "triplex_line" [("phases", "AS"); ("from", "x"); ("to", "y"); ("length", "3")].
Definition inherit_objs : list (string * gobj) := [("cdt", cdt); ("tcfg", tp_cfg); ("t1", t_obj "2"); ("t2", bare_line)].
Lemma inherit_keys : NoDup (map fst inherit_objs).
Proof. repeat constructor; cbn; intuition discriminate. Qed.
Lemma inherit_reads : exists ms, read_store line_prims [] inherit_objs = Ok ms.
Proof.
  unfold read_store. change (map fst inherit_objs) with ["cdt"; "tcfg"; "t1"; "t2"]. set (st := start inherit_objs).
  do 2 (rewrite mfold_cons; cbn [pbind]; match goal with |- context [read_object ?E ?s ?st ?n] => change (read_object E s st n) with (Ok st) end; cbn [pbind]).
  rewrite mfold_cons. assert (X : read_object line_prims [] st "t1" = read_triplex_line line_prims "t1" (t_obj "2") st) by reflexivity.
  rewrite X. unfold read_triplex_line at 1. change (line_length line_prims (t_obj "2")) with (Ok (t_obj "2", (2 * (3048 / 10000))%R)). cbn [pbind fst snd].
  change (set_length "t1" (t_obj "2") st) with st. destruct tp_z as (m & Hm).
  assert (Y : exists ws, tp_config line_prims (t_obj "2") st = Ok (set_vars st inherit_objs (Some "tcfg") (Some ws) None) /\ triplex_z line_prims ws = Ok m).
  { eexists. split; [reflexivity | exact Hm]. }
  destruct Y as (ws & Y & Hz). rewrite Y. cbn [pbind bound r_conds set_vars]. change (the_config _) with (Ok tp_cfg). cbn [pbind].
  rewrite direct_never by (left; reflexivity). cbn [pbind]. rewrite Hz. cbn [pbind]. rewrite mfold_cons.
  match goal with |- context [read_object ?E ?s ?s1 "t2"] => set (s2 := s1); assert (X2 : read_object E s s2 "t2" = read_triplex_line line_prims "t2" bare_line s2) by reflexivity end.
  rewrite X2. unfold read_triplex_line. change (line_length line_prims bare_line) with (Ok (bare_line, (3 * (3048 / 10000))%R)). cbn [pbind fst snd].
  change (tp_config line_prims bare_line (set_length "t2" bare_line s2)) with (Ok s2). cbn [pbind]. change (r_conds s2) with (Some ws). cbn [bound pbind].
  change (the_config s2) with (Ok tp_cfg). cbn [pbind]. rewrite direct_never by (left; reflexivity). cbn [pbind]. rewrite Hz. cbn. eexists. reflexivity.
Qed.
Lemma bare_silent : silent bare_line "configuration".
Proof. now apply gattr_silent. Qed.
Lemma t_configured : configured_line (t_obj "2").
Proof. split; [cbn; tauto |]. intros S. apply gattr_silent in S. discriminate S. Qed.
