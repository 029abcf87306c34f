(** The statements about the GridLAB-D reader in the form of the property file. *)
From Coq Require Import String Ascii List Bool Arith Lia ZArith.
From Verif Require Import PyExc GlmText SpecGlm GlmBase GlmRowProofs GlmProofs.
Import ListNotations.
Local Open Scope string_scope.
Set Implicit Arguments.

(** class and attributes of a dictionary entry *)
Definition found (objs : list (string * gobj)) (n : string) : option (string * (string -> option string)) :=
  match dget n objs with
  | Some g => Some (go_class g, fun k => dget k (go_attrs g))
  | None => None
  end.

Section F.
Variable schema : string -> option (list string).
Variable over12 mega : string -> pres string.
Variable cron_hit : string -> pres bool.
Variable files : string -> option (list string).
Notation RR := (read_row schema over12 mega cron_hit).
Notation RS := (read_rows schema over12 mega cron_hit).
Notation RG := (read_glm schema over12 mega cron_hit files).

Lemma legal_named : forall os, Forall (legal schema) os -> Forall (fun o => name_of (snd o) <> None) os.
Proof. intros os. apply Forall_impl. intros o (_ & _ & H). exact H. Qed.
Lemma last_named_in : forall n os o, last_named n os = Some o -> In o os.
Proof.
  intros n os. induction os as [|x os IH] using rev_ind; intros o H; [discriminate|].
  unfold last_named in *. rewrite fold_left_app in H. cbn in H. apply in_or_app.
  destruct (name_of (snd x)); [destruct (String.eqb s n)|].
  - injection H as ->. right. left. reflexivity.
  - left. apply IH. exact H.
  - left. apply IH. exact H.
Qed.
Lemma put_dictionary : forall os, Forall (legal schema) os -> dictionary os (found (fold_left put os [])).
Proof.
  intros os L n. unfold found. rewrite put_get by (apply legal_named; exact L). cbn [dget].
  destruct (last_named n os) as [o|] eqn:E; [|exact I]. cbn [fst snd].
  apply stored_value. apply last_named_in in E. apply legal_named in L. rewrite Forall_forall in L. apply L. exact E.
Qed.

Lemma read_included : forall input rows more os1 os2, files input = Some rows -> included files rows more ->
  glm_file os1 rows -> glm_file os2 more -> Forall (legal schema) (os1 ++ os2) ->
  exists objs, RG input = Ok (objs, []) /\ dictionary (os1 ++ os2) (found objs)
    /\ (NoDup (map (fun o => name_of (snd o)) (os1 ++ os2)) ->
        map (fun o => Some (fst o)) objs = map (fun o => name_of (snd o)) (os1 ++ os2)).
Proof.
  intros input rows more os1 os2 Hf Hi F1 F2 L. unfold read_glm. rewrite Hf, (included_ok Hi). cbn [pbind].
  pose proof L as L'. rewrite Forall_app in L'. destruct L' as [L1 L2].
  destruct (@file_effect schema over12 mega cron_hit os1 rows F1 g_start) as (s1 & E1 & I1 & D1 & S1); [repeat split|exact L1|].
  destruct (@file_effect schema over12 mega cron_hit os2 more F2 s1 I1 L2) as (s2 & E2 & I2 & D2 & S2).
  rewrite RS_app, E1. cbn [pbind]. rewrite E2. cbn [pbind]. exists (g_objs s2).
  rewrite S2, S1. split; [reflexivity|]. rewrite D2, D1, <- fold_left_app. split; [apply put_dictionary; exact L|].
  intro N. change (g_objs g_start) with (@nil (string * gobj)).
  rewrite put_distinct; [|apply legal_named; exact L|exact N|intros o _ []].
  cbn [app]. rewrite map_map. apply map_ext_in. intros o Io. cbn. unfold name_or.
  apply legal_named in L. rewrite Forall_forall in L. specialize (L o Io). destruct (name_of (snd o)); [reflexivity|contradiction].
Qed.
Lemma included_none : forall rows, Forall (fun r => forall t, r <> "#include" ++ t) rows -> included files rows [].
Proof. induction 1; [apply inc_nil|apply inc_other; assumption]. Qed.
Lemma read_objects : forall input rows os, files input = Some rows -> Forall (fun r => forall t, r <> "#include" ++ t) rows ->
  glm_file os rows -> Forall (legal schema) os ->
  exists objs, RG input = Ok (objs, []) /\ dictionary os (found objs)
    /\ (NoDup (map (fun o => name_of (snd o)) os) -> map (fun o => Some (fst o)) objs = map (fun o => name_of (snd o)) os).
Proof.
  intros input rows os Hf Hn F L.
  destruct (@read_included input rows [] os [] Hf (included_none Hn) F file_nil) as (objs & E & D & N); [rewrite app_nil_r; exact L|].
  rewrite app_nil_r in *. exists objs. repeat split; assumption.
Qed.

End F.

(** comments behind rows *)
Lemma no_comment_sub : forall a b c, no_comment (a ++ b ++ c) -> no_comment b.
Proof. intros a b c H x y E. apply (H (a ++ x) (y ++ c)). rewrite E, !app_assoc3. reflexivity. Qed.
Section G.
Variable schema : string -> option (list string).
Variable over12 mega : string -> pres string.
Variable cron_hit : string -> pres bool.
Notation RR := (read_row schema over12 mega cron_hit).
Notation RS := (read_rows schema over12 mega cron_hit).
Lemma noisier_same : forall a b, noisier a b -> forall s, RS b s = RS a s.
Proof.
  induction 1 as [|r a b N IH|r a b N H IH]; intro s; [reflexivity| |].
  - rewrite !RS_cons. destruct (RR s r); cbn; [apply IH|reflexivity].
  - rewrite RS_cons, noise_effect by exact N. apply IH.
Qed.
Lemma reindented_same : forall a b, Forall2 reindented a b -> forall s, RS b s = RS a s.
Proof.
  induction 1 as [|r r' a b H F IH]; intro s; [reflexivity|]. rewrite !RS_cons.
  destruct H as (core & w1 & w2 & w1' & w2' & B1 & B2 & B3 & B4 & -> & ->).
  rewrite !read_row_dispatch. unfold body_of. rewrite !strip_pad by assumption.
  destruct (dispatch schema over12 mega cron_hit s (cut_comment (strip core))); cbn; [apply IH|reflexivity].
Qed.

Lemma cut_at_split : forall c a b, ~ free c a -> cut_at c (a ++ b) = cut_at c a.
Proof.
  induction a; intros b H; [exfalso; apply H; intros []|]. cbn. destruct (Ascii.eqb_spec a c); [reflexivity|].
  f_equal. apply IHa. intro F. apply H. apply free_cons. split; assumption.
Qed.
Lemma free_dec : forall c s, free c s \/ ~ free c s.
Proof. intros c s. unfold free. destruct (in_dec ascii_dec c (chars s)); tauto. Qed.
Lemma in_object_blank : forall s o a w, blank w -> w = "" \/ ends_with "}" a = false ->
  (do sr <- in_object schema over12 mega s o (a ++ w); Ok (fst sr)) = (do sr <- in_object schema over12 mega s o a; Ok (fst sr)).
Proof.
  intros s o a w B H. destruct w as [|c w]; [rewrite app_nil; reflexivity|].
  destruct H as [H|H]; [discriminate|]. unfold in_object. destruct (free_dec ";" a) as [F|F].
  - assert (Fw : free ";" (String c w)) by (apply blank_free; [exact B|apply nw; tauto]).
    rewrite (cut_at_free F), cut_at_free by (apply free_app; split; assumption).
    rewrite split_app_blank by exact B. rewrite H. rewrite ends_app by discriminate.
    rewrite ends_white; [|exact B|discriminate|apply nw; tauto].
    destruct (attribute schema over12 mega o (split a)); reflexivity.
  - rewrite cut_at_split by exact F. reflexivity.
Qed.
Lemma dispatch_blank : forall s a w, g_sched s = None -> blank w -> w = "" \/ ends_with "}" a = false ->
  dispatch schema over12 mega cron_hit s (a ++ w) = dispatch schema over12 mega cron_hit s a.
Proof.
  intros s a w Hs B H. unfold dispatch. rewrite split_app_blank by exact B.
  destruct (first_is "object" (split a)); [reflexivity|]. destruct (first_is "schedule" (split a)); [reflexivity|].
  rewrite Hs. destruct (g_cur s) as [o|]; [|reflexivity]. apply (in_object_blank s o a B H).
Qed.
Lemma ends_true : forall c s, ends_with c s = true -> exists a, s = a ++ String c "".
Proof.
  induction s; intro H; [discriminate|]. destruct s as [|d s].
  - cbn in H. apply Ascii.eqb_eq in H. subst. exists "". reflexivity.
  - destruct (IHs H) as [x E]. exists (String a x). cbn. f_equal. exact E.
Qed.
Lemma rstrip_keeps : forall a d, ~ white d -> rstrip is_ws (a ++ String d "") = a ++ String d "".
Proof.
  intros a d H. rewrite rstrip_app; rewrite rstrip_cons by exact H; [reflexivity|discriminate].
Qed.
Lemma commented_row : forall s r r', commented r r' -> g_sched s = None -> RR s r' = RR s r.
Proof.
  intros s r r' [->|(core & w & x & c & -> & -> & Bw & Bx & C & L & H)] Hs; [reflexivity|].
  rewrite !read_row_dispatch.
  destruct (lstrip_decomp core) as (w1 & E1 & B1). set (a := lstrip is_ws core) in *.
  assert (La : lstrip is_ws a = a).
  { unfold a. clear. induction core; [reflexivity|]. cbn. destruct (is_ws a) eqn:W; [exact IHcore|]. cbn. rewrite W. reflexivity. }
  destruct (rstrip_decomp a) as (w2 & E2 & B2). set (b := rstrip is_ws a) in *.
  assert (Eb : strip core = b) by (unfold strip, strip_by; rewrite lstrip_rstrip_comm; reflexivity).
  assert (Cb : no_comment b) by (apply (@no_comment_sub w1 b w2); rewrite <- E2, <- E1; exact C).
  assert (R1 : body_of (core ++ w) = b).
  { unfold body_of. change (core ++ w) with ("" ++ core ++ w). rewrite strip_pad by (try apply blank_nil; exact Bw).
    rewrite Eb. apply cut_comment_nil_iff. exact Cb. }
  assert (R2 : body_of (core ++ x ++ "//" ++ c) = b ++ w2 ++ x \/ b = "" /\ body_of (core ++ x ++ "//" ++ c) = "").
  { destruct (string_dec a "") as [Ea|Na].
    - right. split; [unfold b; rewrite Ea; reflexivity|]. apply body_noise. exists (core ++ x), c.
      split; [|right; rewrite app_assoc3; reflexivity]. apply blank_app. split; [|exact Bx]. rewrite E1, Ea, app_nil. exact B1.
    - left. unfold body_of, strip, strip_by. rewrite lstrip_rstrip_comm, lstrip_app_nonblank by exact Na. fold a.
      assert (Hs' : ~ white "/"%char) by (apply nw; tauto).
      assert (R : rstrip is_ws ("//" ++ c) = "//" ++ rstrip is_ws c) by (cbn [append]; rewrite !rstrip_cons by exact Hs'; reflexivity).
      rewrite <- app_assoc3, rstrip_app; rewrite R; [|discriminate].
      assert (Ca : no_comment a) by (apply (@no_comment_sub w1 a ""); rewrite app_nil, <- E1; exact C).
      assert (Sa : forall y, a <> y ++ "/") by (intros y Ey; apply (L (w1 ++ y)); rewrite E1 at 1; rewrite Ey, app_assoc3; reflexivity).
      assert (Sx : forall y, a ++ x <> y ++ "/").
      { destruct x as [|d x]; [rewrite app_nil; exact Sa|]. apply snoc_app; [discriminate|]. apply blank_no_slash; assumption. }
      rewrite cut_comment_app2; [|apply no_comment_app2; [exact Ca|apply blank_no_comment; exact Bx|exact Sa]|exact Sx].
      rewrite cut_comment_slash, app_nil. rewrite E2 at 1. apply app_assoc3. }
  rewrite R1. destruct R2 as [R2|[-> R2]]; [|rewrite R2; reflexivity]. rewrite R2.
  apply dispatch_blank; [exact Hs|apply blank_app; split; assumption|].
  destruct H as [[-> (y & d & Ed & Wd)]|H].
  - left. rewrite app_nil.
    assert (Ek : rstrip is_ws core = core) by (rewrite Ed; apply rstrip_keeps; exact Wd).
    assert (Eab : a = b).
    { unfold b, a. rewrite <- lstrip_rstrip_comm, Ek. reflexivity. }
    assert (Len := f_equal String.length E2). rewrite app_length, <- Eab in Len.
    destruct w2; [reflexivity|]. cbn in Len. lia.
  - right. destruct (ends_with "}" b) eqn:Eb'; [|reflexivity]. exfalso.
    apply ends_true in Eb'. destruct Eb' as [y Ey]. apply (H (w1 ++ y) w2 B2).
    rewrite E1 at 1. rewrite E2 at 1. rewrite Ey, !app_assoc3. reflexivity.
Qed.
Lemma close_sched : forall s o s', close_object schema s o = Ok s' -> g_sched s' = g_sched s.
Proof.
  intros s o s' H. unfold close_object in H. destruct (g_ign s); [injection H as <-; reflexivity|].
  destruct (gget o "name"); [injection H as <-; reflexivity|].
  destruct (gget o "from"); [|discriminate]. cbn in H. destruct (gget o "to"); [|discriminate]. cbn in H.
  destruct (gset schema o "name" _) as [o'|]; [|discriminate]. cbn in H. destruct (gget o' "name"); [|discriminate].
  injection H as <-. reflexivity.
Qed.
Lemma row_sched : forall s r s', RR s r = Ok s' -> g_sched s = None -> ~ starts_as "schedule" r -> g_sched s' = None.
Proof.
  intros s r s' H Hs N. rewrite read_row_dispatch in H. unfold dispatch in H.
  rewrite (not_first word_schedule N) in H. destruct (first_is "object" (split (body_of r))).
  - unfold open_object in H. destruct (g_cur s); [injection H as <-; exact Hs|].
    destruct (nth1 (split (body_of r))) as [e|]; [|discriminate]. cbn [pbind] in H. destruct (mem _ _); [injection H as <-; exact Hs|].
    destruct (schema _); [|discriminate]. destruct (snd (colon2 e)); [injection H as <-; exact Hs|].
    destruct (gset _ _ _ _); [|discriminate]. injection H as <-. exact Hs.
  - rewrite Hs in H. destruct (g_cur s) as [o|]; [|injection H as <-; exact Hs].
    unfold in_object in H. destruct (attribute _ _ _ _ _); [|discriminate]. cbn [pbind] in H.
    destruct (ends_with _ _); [|injection H as <-; exact Hs].
    destruct (close_object _ _ _) as [s1|] eqn:E; [|discriminate]. cbn in H. injection H as <-.
    rewrite (close_sched _ _ E). exact Hs.
Qed.
Lemma rows_sched : forall rows s s', RS rows s = Ok s' -> g_sched s = None -> Forall (fun r => ~ starts_as "schedule" r) rows -> g_sched s' = None.
Proof.
  induction rows as [|r rows IH]; intros s s' H Hs F; [injection H as <-; exact Hs|].
  inversion F as [|x l Fr Fl]; subst. rewrite RS_cons in H. destruct (RR s r) as [s1|] eqn:E; [|discriminate]. cbn in H.
  apply (IH s1 s' H); [|exact Fl]. apply (@row_sched s r s1 E Hs Fr).
Qed.
Lemma commented_same : forall a b, Forall2 commented a b -> Forall (fun r => ~ starts_as "schedule" r) a ->
  forall s, g_sched s = None -> RS b s = RS a s.
Proof.
  induction 1 as [|r r' a b H F IH]; intros N s Hs; [reflexivity|]. inversion N as [|x l Nr Nl]; subst.
  rewrite !RS_cons, (commented_row s H Hs). destruct (RR s r) as [s1|] eqn:E; [|reflexivity]. cbn.
  apply IH; [exact Nl|]. apply (@row_sched s r s1 E Hs Nr).
Qed.

(** units *)
Lemma unit_same : forall a b r r' k v u s, unit_row k v u r -> attr_row k v r' -> u <> "in" -> u <> "MVAr" ->
  g_sched s = None -> Forall (fun r => ~ starts_as "schedule" r) a -> RS (a ++ r :: b) s = RS (a ++ r' :: b) s.
Proof.
  intros a b r r' k v u s U A N1 N2 Hs F. rewrite !RS_app. destruct (RS a s) as [s1|] eqn:E; [|reflexivity]. cbn [pbind].
  rewrite !RS_cons. assert (H1 := @rows_sched a s s1 E Hs F). f_equal.
  destruct (g_cur s1) as [o|] eqn:Hc.
  - rewrite (@unit_row_effect schema over12 mega cron_hit s1 o k v u r U Hc H1), (@attr_row_effect schema over12 mega cron_hit s1 o k v r' A Hc H1).
    unfold converted. apply String.eqb_neq in N1, N2. rewrite N1, N2, !andb_false_r. reflexivity.
  - rewrite (@unit_row_idle schema over12 mega cron_hit s1 k v u r U Hc H1), (@attr_row_idle schema over12 mega cron_hit s1 k v r' A Hc H1). reflexivity.
Qed.

(** an object that is not closed *)
Definition stuck (D : list (string * gobj)) (ign : bool) (s : gstate) : Prop :=
  (exists o, g_cur s = Some o) /\ g_ign s = ign /\ g_sched s = None /\ g_objs s = D.
Lemma attrs_stuck : forall kvs rows, attrs kvs rows -> forall D ign s s', stuck D ign s -> RS rows s = Ok s' -> stuck D ign s'.
Proof.
  induction 1 as [|r kvs rows N A IH|k v r kvs rows R A IH]; intros D ign s s' St H.
  - injection H as <-. exact St.
  - rewrite RS_cons, noise_effect in H by exact N. apply (IH D ign s s' St H).
  - destruct St as ([o Hc] & Hg & Hs & Hd). rewrite RS_cons, (@attr_row_effect schema over12 mega cron_hit s o k v r R Hc Hs) in H.
    destruct (gset schema o k v) as [o'|]; [|discriminate]. cbn [pbind] in H.
    apply (IH D ign (set_cur s (Some o')) s'); [|exact H]. split; [exists o'; reflexivity|]. repeat split; assumption.
Qed.
Lemma one_stuck : forall cls kvs rows, one_object cls kvs rows -> forall D s s', stuck D false s -> RS rows s = Ok s' -> stuck D false s'.
Proof.
  intros cls kvs rows (r0 & kvs0 & kvs1 & body & r1 & -> & -> & O & B & C) D s s' ([o Hc] & Hg & Hs & Hd) H.
  rewrite RS_cons, (@open_row_nested schema over12 mega cron_hit s o cls kvs0 r0 O Hc) in H. cbn [pbind] in H.
  rewrite RS_app in H. destruct (RS body (set_ign s true)) as [s1|] eqn:E; [|discriminate]. cbn [pbind] in H.
  apply (attrs_stuck B (D := D) (ign := true)) in E; [|split; [exists o; exact Hc|repeat split; assumption]].
  destruct E as ([o1 Hc1] & Hg1 & Hs1 & Hd1).
  rewrite RS_cons, (@close_row_effect schema over12 mega cron_hit s1 o1 r1 C Hc1 Hs1) in H.
  unfold close_object in H. rewrite Hg1 in H. cbn in H. injection H as <-. split; [exists o1; exact Hc1|]. repeat split; assumption.
Qed.
Lemma objects_stuck : forall os rows, objects_only os rows -> forall D s s', stuck D false s -> RS rows s = Ok s' -> stuck D false s'.
Proof.
  induction 1 as [|r os rows N A IH|cls kvs b os rows O A IH]; intros D s s' St H.
  - injection H as <-. exact St.
  - rewrite RS_cons, noise_effect in H by exact N. apply (IH D s s' St H).
  - rewrite RS_app in H. destruct (RS b s) as [s1|] eqn:E; [|discriminate]. cbn in H.
    apply (IH D s1 s'); [|exact H]. apply (one_stuck O St E).
Qed.
Lemma unclosed_lost : forall os1 rows1 cls kvs rows2 os3 rows3 s', glm_file os1 rows1 -> Forall (legal schema) os1 ->
  unclosed_object cls kvs rows2 -> ~ In cls unused_classes -> objects_only os3 rows3 ->
  RS (rows1 ++ rows2 ++ rows3) g_start = Ok s' -> dictionary os1 (found (g_objs s')).
Proof.
  intros os1 rows1 cls kvs rows2 os3 rows3 s' F1 L1 (r0 & kvs0 & kvs1 & body & r1 & -> & -> & O & B & C) Hu F3 H.
  destruct (@file_effect schema over12 mega cron_hit os1 rows1 F1 g_start) as (s1 & E1 & (Hc & Hg & Hs) & D1 & S1); [repeat split|exact L1|].
  rewrite RS_app, E1 in H. cbn [pbind] in H. rewrite RS_app in H.
  destruct (RS (r0 :: body ++ [r1]) s1) as [s2|] eqn:E2; [|discriminate]. cbn [pbind] in H.
  assert (St : stuck (g_objs s1) false s2).
  { rewrite RS_cons in E2. destruct (RR s1 r0) as [s3|] eqn:E3; [|discriminate]. cbn [pbind] in E2. rewrite RS_app in E2.
    assert (St3 : stuck (g_objs s1) false s3).
    { rewrite read_row_dispatch in E3. apply open_row_split in O. destruct O as (h & l & Eo & Fc & Hh). unfold dispatch in E3.
      rewrite Eo in E3. cbn [first_is] in E3. rewrite String.eqb_refl in E3. unfold open_object in E3. rewrite Hc in E3. cbn [nth1 pbind] in E3.
      assert (Hcls : fst (colon2 h) = cls).
      { destruct Hh as [[-> _]|(num & Fn & -> & _)]; [rewrite (colon_free Fc); reflexivity|].
        cbn [append]. rewrite (colon_app num Fc). reflexivity. }
      rewrite Hcls, (unused_skipped Hu) in E3. destruct (schema cls); [|discriminate].
      destruct (snd (colon2 h)).
      - injection E3 as <-. split; [eexists; reflexivity|repeat split; assumption].
      - destruct (gset schema _ _ _); [|discriminate]. injection E3 as <-. split; [eexists; reflexivity|repeat split; assumption]. }
    destruct (RS body s3) as [s4|] eqn:E4; [|discriminate]. cbn [pbind] in E2.
    apply (attrs_stuck B St3) in E4. destruct E4 as ([o4 Hc4] & Hg4 & Hs4 & Hd4).
    rewrite RS_cons, (@brace_comment_effect schema over12 mega cron_hit s4 o4 r1 C Hc4 Hs4) in E2. injection E2 as <-.
    split; [exists o4; exact Hc4|repeat split; assumption]. }
  apply (objects_stuck F3 St) in H. destruct H as (_ & _ & _ & Hd). rewrite Hd, D1. apply (put_dictionary (schema := schema)). exact L1.
Qed.

(** nested objects *)
Lemma nested_merged : forall os1 rows1 cls kvs rows2 os3 rows3, glm_file os1 rows1 -> nesting_object cls kvs rows2 ->
  glm_file os3 rows3 -> Forall (legal schema) (os1 ++ (cls, kvs) :: os3) ->
  exists s', RS (rows1 ++ rows2 ++ rows3) g_start = Ok s' /\ dictionary (os1 ++ (cls, kvs) :: os3) (found (g_objs s')).
Proof.
  intros os1 rows1 cls kvs rows2 os3 rows3 F1 O F3 L. pose proof L as L'. rewrite Forall_app in L'. destruct L' as [L1 L23].
  inversion L23 as [|x l L2 L3]; subst.
  destruct (@file_effect schema over12 mega cron_hit os1 rows1 F1 g_start) as (s1 & E1 & I1 & D1 & S1); [repeat split|exact L1|].
  destruct (name_of kvs) as [n|] eqn:En; [|destruct L2 as (_ & _ & Hn); cbn in Hn; congruence].
  destruct (@file_effect schema over12 mega cron_hit os3 rows3 F3 (store s1 n (stored (cls, kvs))) (store_idle n _ I1) L3) as (s3 & E3 & I3 & D3 & S3).
  exists s3. rewrite RS_app, E1. cbn [pbind]. rewrite RS_app, (nesting_effect over12 mega cron_hit O I1 L2 En). cbn [pbind].
  split; [exact E3|]. rewrite D3. cbn [g_objs store]. rewrite D1.
  assert (E : fold_left put os3 (dset n (stored (cls, kvs)) (fold_left put os1 (g_objs g_start))) = fold_left put (os1 ++ (cls, kvs) :: os3) []).
  { rewrite fold_left_app. cbn [fold_left]. unfold put at 4. cbn [snd]. rewrite En. reflexivity. }
  rewrite E. apply (put_dictionary (schema := schema)). exact L.
Qed.

(** objects of classes the simulator does not use, unknown classes, unknown attributes, objects without a name *)
Lemma close_idle : forall s r, close_row r -> g_cur s = None -> g_sched s = None -> RR s r = Ok s.
Proof.
  intros s r (w & t & -> & Bw & T) Hc Hs. rewrite read_row_dispatch.
  destruct (@brace_body w "" t Bw blank_nil T) as (x' & y & Hx & Hy & E). cbn [append] in E. cbn [append]. rewrite E.
  assert (x' = "") as -> by tauto. unfold dispatch.
  assert (Hf : forall k, (k = "object" \/ k = "schedule") -> first_is k (split (String "}" ("" ++ y))) = false).
  { intros k Hk. unfold split. cbn [append split2]. replace (is_ws "}") with false by reflexivity.
    cbn [fst snd push first_is]. destruct Hk as [-> | ->]; reflexivity. }
  rewrite !Hf by tauto. rewrite Hc, Hs. reflexivity.
Qed.
Lemma attrs_idle : forall kvs rows, attrs kvs rows -> forall s, g_cur s = None -> g_sched s = None -> RS rows s = Ok s.
Proof.
  induction 1 as [|r kvs rows N A IH|k v r kvs rows R A IH]; intros s Hc Hs; [reflexivity| |]; rewrite RS_cons.
  - rewrite noise_effect by exact N. apply IH; assumption.
  - rewrite (@attr_row_idle schema over12 mega cron_hit s k v r R Hc Hs). apply IH; assumption.
Qed.
Lemma skipped_nothing : forall cls kvs rows s, one_object cls kvs rows -> In cls unused_classes -> g_cur s = None -> g_sched s = None ->
  RS rows s = Ok s.
Proof.
  intros cls kvs rows s (r0 & kvs0 & kvs1 & body & r1 & -> & -> & O & B & C) Hu Hc Hs.
  rewrite RS_cons, (@open_row_skipped schema over12 mega cron_hit s cls kvs0 r0 O Hc) by (apply mem_In; exact Hu).
  cbn [pbind]. rewrite RS_app, (attrs_idle B s Hc Hs). cbn [pbind]. rewrite RS_cons, close_idle by assumption. reflexivity.
Qed.
Lemma unused_skipped_file : forall os1 rows1 cls kvs rows2 rows3, glm_file os1 rows1 -> Forall (legal schema) os1 ->
  one_object cls kvs rows2 -> In cls unused_classes ->
  RS (rows1 ++ rows2 ++ rows3) g_start = RS (rows1 ++ rows3) g_start.
Proof.
  intros os1 rows1 cls kvs rows2 rows3 F1 L1 O Hu.
  destruct (@file_effect schema over12 mega cron_hit os1 rows1 F1 g_start) as (s1 & E1 & (Hc & Hg & Hs) & _); [repeat split|exact L1|].
  rewrite !RS_app, E1. cbn [pbind]. rewrite RS_app, (skipped_nothing s1 O Hu Hc Hs). reflexivity.
Qed.
Lemma unknown_class : forall os1 rows1 cls kvs r rows3, glm_file os1 rows1 -> Forall (legal schema) os1 ->
  open_row cls kvs r -> ~ In cls unused_classes -> schema cls = None ->
  RS (rows1 ++ r :: rows3) g_start = Err AttributeError.
Proof.
  intros os1 rows1 cls kvs r rows3 F1 L1 O Hu Hn.
  destruct (@file_effect schema over12 mega cron_hit os1 rows1 F1 g_start) as (s1 & E1 & (Hc & Hg & Hs) & _); [repeat split|exact L1|].
  rewrite RS_app, E1. cbn [pbind]. rewrite RS_cons, (@open_row_unknown schema over12 mega cron_hit s1 cls kvs r O Hc (unused_skipped Hu) Hn). reflexivity.
Qed.
Lemma unknown_attribute : forall os1 rows1 cls kvs0 r0 kvs body k v r rows3 ps, glm_file os1 rows1 -> Forall (legal schema) os1 ->
  open_row cls kvs0 r0 -> ~ In cls unused_classes -> schema cls = Some ps -> In "name" ps -> attrs kvs body -> incl (map fst kvs) ps ->
  attr_row k v r -> ~ In k ps ->
  RS (rows1 ++ (r0 :: body) ++ r :: rows3) g_start = Err AttributeError.
Proof.
  intros os1 rows1 cls kvs0 r0 kvs body k v r rows3 ps F1 L1 O Hu Hp Hn B Hi R Hk.
  destruct (@file_effect schema over12 mega cron_hit os1 rows1 F1 g_start) as (s1 & E1 & (Hc & Hg & Hs) & _); [repeat split|exact L1|].
  rewrite RS_app, E1. cbn [pbind app]. rewrite RS_cons.
  rewrite (@open_row_effect schema over12 mega cron_hit s1 cls kvs0 r0 ps O Hc Hs (unused_skipped Hu) Hp).
  2: { apply open_row_split in O. destruct O as (_ & _ & _ & _ & [[_ ->]|(num & _ & _ & ->)]); intros k' Ik; [destruct Ik|].
       destruct Ik as [<-|[]]. exact Hn. }
  cbn [pbind]. rewrite RS_app, (@attrs_effect schema over12 mega cron_hit kvs body B _ {| go_class := cls; go_attrs := settle kvs0 [] |} ps);
    [|reflexivity|exact Hs|exact Hp|exact Hi].
  cbn [pbind]. rewrite RS_cons. erewrite (@attr_row_effect schema over12 mega cron_hit _ _ k v r R); [|reflexivity|exact Hs].
  unfold gset. cbn [go_class]. rewrite Hp, (@mem_not k ps Hk). reflexivity.
Qed.
Lemma nameless : forall os1 rows1 cls kvs rows2 rows3 ps, glm_file os1 rows1 -> Forall (legal schema) os1 ->
  one_object cls kvs rows2 -> ~ In cls unused_classes -> schema cls = Some ps -> incl (map fst kvs) ps -> name_of kvs = None ->
  RS (rows1 ++ rows2 ++ rows3) g_start = Err AttributeError.
Proof.
  intros os1 rows1 cls kvs rows2 rows3 ps F1 L1 (r0 & kvs0 & kvs1 & body & r1 & -> & -> & O & B & C) Hu Hp Hi Hn.
  destruct (@file_effect schema over12 mega cron_hit os1 rows1 F1 g_start) as (s1 & E1 & (Hc & Hg & Hs) & _); [repeat split|exact L1|].
  rewrite map_app in Hi. rewrite RS_app, E1. cbn [pbind]. rewrite RS_app, RS_cons.
  rewrite (@open_row_effect schema over12 mega cron_hit s1 cls kvs0 r0 ps O Hc Hs (unused_skipped Hu) Hp)
    by (intros k I; apply Hi, in_or_app; left; exact I).
  cbn [pbind]. rewrite RS_app, (@attrs_effect schema over12 mega cron_hit kvs1 body B _ {| go_class := cls; go_attrs := settle kvs0 [] |} ps);
    [|reflexivity|exact Hs|exact Hp|intros k I; apply Hi, in_or_app; right; exact I].
  cbn [pbind go_class go_attrs]. rewrite <- settle_app, RS_cons.
  rewrite (@close_row_effect schema over12 mega cron_hit _ {| go_class := cls; go_attrs := settle (kvs0 ++ kvs1) [] |} r1 C);
    [|reflexivity|exact Hs].
  unfold close_object. cbn [g_ign set_cur]. rewrite Hg. unfold gget. cbn [go_attrs]. rewrite !settle_final.
  unfold name_of in Hn. destruct (final "name" (kvs0 ++ kvs1)); [discriminate|].
  destruct (final "from" (kvs0 ++ kvs1)); [|reflexivity]. destruct (final "to" (kvs0 ++ kvs1)); [discriminate|reflexivity].
Qed.
End G.
