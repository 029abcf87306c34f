(** What one row does. *)
From Coq Require Import String Ascii List Bool Arith Lia ZArith.
From Verif Require Import PyExc GlmText SpecGlm GlmBase.
Import ListNotations.
Local Open Scope string_scope.
Set Implicit Arguments.

Lemma cut_comment_len : forall a b, (String.length (cut_comment (a ++ "//" ++ b)) <= String.length a)%nat.
Proof.
  induction a; intro b; [cbn; lia|]. cbn [append]. change (String "/" (String "/" b)) with ("//" ++ b).
  destruct (Ascii.eqb_spec a "/") as [->|N].
  - destruct (a0 ++ "//" ++ b) as [|d r] eqn:E; [destruct a0; discriminate|].
    destruct (Ascii.eqb_spec d "/") as [->|N'].
    + cbn. lia.
    + rewrite cut_comment_cons; [rewrite <- E; cbn [String.length]; specialize (IHa b); lia|].
      right. intros r' E'. injection E' as E' _. contradiction.
  - rewrite cut_comment_cons; [cbn [String.length]; specialize (IHa b); lia|left; exact N].
Qed.
Lemma app_length : forall a b, String.length (a ++ b) = (String.length a + String.length b)%nat.
Proof. induction a; intro b; cbn; [reflexivity|]. f_equal. apply IHa. Qed.
Lemma no_comment_iff : forall s, no_comment s <-> cut_comment s = s.
Proof.
  intro s. split; [apply cut_comment_nil_iff|]. intros H a b E.
  pose proof (cut_comment_len a b) as L. rewrite <- E, H, E, !app_length in L. cbn in L. lia.
Qed.
Lemma no_comment_app : forall a b, no_comment a -> no_comment b -> (forall r, b <> String "/" r) -> no_comment (a ++ b).
Proof.
  intros a b Ha Hb H. apply no_comment_iff. rewrite (cut_comment_app Ha H). apply no_comment_iff in Hb. rewrite Hb. reflexivity.
Qed.
Lemma cut_comment_app2 : forall a b, no_comment a -> (forall x, a <> x ++ "/") -> cut_comment (a ++ b) = a ++ cut_comment b.
Proof.
  induction a; intros b H Hb; [reflexivity|].
  assert (Hs : no_comment a0) by (intros x y E; apply (H (String a x) y); cbn; f_equal; exact E).
  assert (Hl : forall x, a0 <> x ++ "/") by (intros x E; apply (Hb (String a x)); cbn; f_equal; exact E).
  cbn [append]. rewrite cut_comment_cons; [f_equal; apply IHa; assumption|].
  destruct (Ascii.eqb_spec a "/") as [->|N]; [|left; exact N]. right. intros r E.
  destruct a0 as [|d a1]; cbn in E; [exact (Hb "" eq_refl)|]. injection E as -> E. apply (H "" a1). reflexivity.
Qed.
Lemma no_comment_app2 : forall a b, no_comment a -> no_comment b -> (forall x, a <> x ++ "/") -> no_comment (a ++ b).
Proof.
  intros a b Ha Hb H. apply no_comment_iff. rewrite (cut_comment_app2 b Ha H). apply no_comment_iff in Hb. rewrite Hb. reflexivity.
Qed.
Lemma snoc_inj : forall a b c d, a ++ String c "" = b ++ String d "" -> a = b /\ c = d.
Proof.
  induction a; intros [|x b] c d E; cbn in E.
  - injection E as ->. split; reflexivity.
  - injection E as -> E. destruct b; discriminate.
  - injection E as -> E. destruct a0; discriminate.
  - injection E as -> E. apply IHa in E. destruct E as [-> ->]. split; reflexivity.
Qed.
Lemma snoc_cases : forall s, s = "" \/ exists a c, s = a ++ String c "".
Proof.
  induction s as [|c s [->|(a & d & ->)]]; [left; reflexivity| |].
  - right. exists "", c. reflexivity.
  - right. exists (String c a), d. reflexivity.
Qed.
Lemma snoc_app : forall a b c, b <> "" -> (forall x, b <> x ++ String c "") -> forall x, a ++ b <> x ++ String c "".
Proof.
  intros a b c N H x E. destruct (snoc_cases b) as [->|(y & d & ->)]; [contradiction|].
  rewrite <- app_assoc3 in E. apply snoc_inj in E. destruct E as [_ ->]. apply (H y). reflexivity.
Qed.
Lemma blank_no_slash : forall w c, blank w -> ~ white c -> forall x, w <> x ++ String c "".
Proof. intros w c B N x ->. apply N, B. rewrite chars_app. apply in_or_app. right. left. reflexivity. Qed.
Lemma blank_head : forall w s, blank w -> w <> "" -> forall r, w ++ s <> String "/" r.
Proof.
  intros [|c w] s B N r E; [contradiction|]. apply blank_cons in B. injection E as -> _.
  destruct B as [B _]. apply white_sp in B. destruct B as [B _]. apply B. reflexivity.
Qed.

(** a string that neither begins nor ends with white space *)
Definition solid (s : string) : Prop := lstrip is_ws s = s /\ rstrip is_ws s = s.
Lemma nonwhite_solid : forall s, nonwhite s -> solid s.
Proof.
  intros s H. split.
  - destruct s; [reflexivity|]. apply nonwhite_cons in H. destruct H as [H _]. apply is_ws_false in H. cbn. rewrite H. reflexivity.
  - induction s; [reflexivity|]. apply nonwhite_cons in H. destruct H as [Ha Hs].
    rewrite (rstrip_cons s Ha), (IHs Hs). reflexivity.
Qed.
Lemma solid_app : forall a b, solid a -> solid b -> a <> "" -> b <> "" -> forall w, solid (a ++ w ++ b).
Proof.
  intros a b [La Ra] [Lb Rb] Na Nb w. split.
  - rewrite lstrip_app_nonblank; [rewrite La; reflexivity|rewrite La; exact Na].
  - rewrite <- app_assoc3, rstrip_app; rewrite Rb; [reflexivity|exact Nb].
Qed.
Lemma word_solid : forall s, word s -> solid s.
Proof. intros s [_ H]. apply nonwhite_solid. exact H. Qed.

Definition body_of (r : string) : string := cut_comment (strip r).

Lemma body_noise : forall r, noise r -> body_of r = "".
Proof.
  intros r (w & c & B & [->|E]).
  - unfold body_of. rewrite <- (app_nil w). change "" with ("" ++ "") at 1. rewrite strip_pad; [reflexivity|exact B|apply blank_nil].
  - rewrite E. unfold body_of, strip, strip_by.
    rewrite rstrip_app.
    + rewrite lstrip_blank by exact B.
      assert (Hs : ~ white "/"%char) by (apply nw; left; reflexivity).
      cbn [append]. rewrite !rstrip_cons by exact Hs. reflexivity.
    + assert (Hs : ~ white "/"%char) by (apply nw; left; reflexivity).
      cbn [append]. rewrite !rstrip_cons by exact Hs. discriminate.
Qed.
(** the shape of a statement once blanks and comments are gone *)
Lemma body_statement : forall w1 core x t, blank w1 -> solid core -> core <> "" -> no_comment core ->
  (forall a, core <> a ++ "/") -> blank x -> blank t \/ ending t ->
  exists x' y, (x' = "" \/ x' = x) /\ (y = "" \/ exists y', y = String ";" y') /\ body_of (w1 ++ core ++ x ++ t) = core ++ x' ++ y.
Proof.
  intros w1 core x t B1 [SL SR] N C S Bx T. unfold body_of.
  assert (E0 : forall u, strip (w1 ++ core ++ x ++ u) = rstrip is_ws (core ++ x ++ u)).
  { intro u. unfold strip, strip_by. rewrite lstrip_rstrip_comm, lstrip_blank by exact B1.
    rewrite lstrip_app_nonblank; rewrite SL; [reflexivity|exact N]. }
  rewrite E0.
  assert (Nx : forall u, (forall r, u <> String "/" r) -> cut_comment (core ++ x ++ u) = core ++ x ++ cut_comment u).
  { intros u Hu. rewrite cut_comment_app2 by assumption. f_equal.
    apply cut_comment_app; [apply blank_no_comment; exact Bx|exact Hu]. }
  assert (TT : blank t \/ (exists c, t = String ";" c) \/ (exists c, t = "//" ++ c)).
  { destruct T as [T|[->|(c & [T|T])]]; [left; exact T|left; apply blank_nil| |]; right; [left|right]; exists c; exact T. }
  destruct TT as [Bt|[[c ->]|[c ->]]].
  - exists "", "". split; [left; reflexivity|split; [left; reflexivity|]].
    rewrite rstrip_app_blank by (apply blank_app; split; assumption). rewrite SR.
    rewrite cut_comment_nil_iff by exact C. cbn. rewrite app_nil. reflexivity.
  - exists x, (String ";" (cut_comment (rstrip is_ws c))).
    split; [right; reflexivity|split; [right; eexists; reflexivity|]].
    assert (Hs : ~ white ";"%char) by (apply nw; tauto).
    rewrite <- app_assoc3, rstrip_app; rewrite rstrip_cons by exact Hs; [|discriminate].
    rewrite app_assoc3, Nx by (intros r E; discriminate). rewrite cut_comment_cons by (left; discriminate). reflexivity.
  - exists x, "". split; [right; reflexivity|split; [left; reflexivity|]].
    assert (Hs : ~ white "/"%char) by (apply nw; tauto).
    cbn [append]. rewrite <- app_assoc3, rstrip_app; rewrite !rstrip_cons by exact Hs; [|discriminate].
    rewrite app_nil.
    assert (Sx : forall a, core ++ x <> a ++ "/").
    { destruct x as [|d x]; [rewrite app_nil; exact S|]. apply snoc_app; [discriminate|]. apply blank_no_slash; assumption. }
    rewrite cut_comment_app2; [cbn; apply app_nil| |exact Sx].
    apply no_comment_app2; [exact C|apply blank_no_comment; exact Bx|exact S].
Qed.


Lemma first_is_false : forall k k' l, k <> k' -> first_is k' (k :: l) = false.
Proof. intros. cbn. apply String.eqb_neq. assumption. Qed.
Lemma y_gap_free : forall core x' y, free ";" core -> blank x' -> (y = "" \/ exists y', y = String ";" y') ->
  cut_at ";" (core ++ x' ++ y) = core ++ x'.
Proof.
  intros core x' y F B [->|[y' ->]].
  - rewrite app_nil. apply cut_at_free. apply free_app. split; [exact F|]. apply blank_free; [exact B|apply nw; tauto].
  - rewrite <- app_assoc3, cut_at_app; [rewrite cut_at_hit; apply app_nil|].
    apply free_app. split; [exact F|]. apply blank_free; [exact B|apply nw; tauto].
Qed.
Lemma word_free_y : forall k t, word k -> gap t -> split (k ++ t) = k :: split t.
Proof. exact split_word. Qed.
Lemma ends_brace : forall core x', free "}" core -> blank x' -> ends_with "}" (core ++ x') = false.
Proof.
  intros core x' F B. apply ends_free. apply free_app. split; [exact F|]. apply blank_free; [exact B|apply nw; tauto].
Qed.
Lemma xcase : forall x x' : string, blank x -> x' = "" \/ x' = x -> blank x'.
Proof. intros x x' B [->| ->]; [apply blank_nil|exact B]. Qed.

Lemma split_app_blank : forall q x', blank x' -> split (q ++ x') = split q.
Proof.
  intros q x' B.
  assert (E2 : split2 (q ++ x') = split2 q).
  { induction q as [|c q IH]; [|cbn; rewrite IH; reflexivity].
    cbn. revert B. induction x' as [|d w IHw]; intro B; [reflexivity|]. apply blank_cons in B. destruct B as [Bd Bw].
    apply is_ws_iff in Bd. cbn. rewrite Bd, (IHw Bw). reflexivity. }
  unfold split. rewrite E2. reflexivity.
Qed.

Lemma statement_first : forall w1 k w2 q x t, 
  blank w1 -> blank w2 -> w2 <> "" -> blank x -> ending t -> token k -> 
  q <> "" -> solid q -> no_comment q -> (forall a, q <> a ++ "/") ->
  exists l, split (body_of (w1 ++ k ++ w2 ++ q ++ x ++ t)) = k :: l.
Proof.
  intros w1 k w2 q x t B1 B2 N2 Bx T (Wk & Fk & Gk & Ck & Sk) Nq Sq Cq Lq.
  assert (Hcore : (k ++ w2 ++ q) ++ x ++ t = k ++ w2 ++ q ++ x ++ t) by (rewrite !app_assoc3; reflexivity).
  rewrite <- Hcore.
  assert (Nk : k <> "") by exact (proj1 Wk).
  assert (Hsol : solid (k ++ w2 ++ q)) by (apply solid_app; [apply word_solid; exact Wk|exact Sq|exact Nk|exact Nq]).
  destruct (@body_statement w1 (k ++ w2 ++ q) x t B1 Hsol) as (x' & y & Hx & Hy & E).
  - destruct k; [contradiction|discriminate].
  - apply no_comment_app2; [exact Ck| |exact Sk]. apply no_comment_app2; [apply blank_no_comment; exact B2|exact Cq|].
    apply blank_no_slash; [exact B2|apply nw; tauto].
  - rewrite <- app_assoc3. apply snoc_app; [exact Nq|exact Lq].
  - exact Bx.
  - right. exact T.
  - rewrite E. eexists. rewrite !app_assoc3. apply split_word; [exact Wk|apply gap_blank; assumption].
Qed.

Lemma brace_nonwhite : nonwhite "}".
Proof. apply nonwhite_cons. split; [apply nw; tauto|intros c []]. Qed.
Lemma brace_body : forall w x t, blank w -> blank x -> blank t \/ ending t ->
  exists x' y, (x' = "" \/ x' = x) /\ (y = "" \/ exists y', y = String ";" y') /\ body_of (w ++ "}" ++ x ++ t) = "}" ++ x' ++ y.
Proof.
  intros w x t Bw Bx T. apply body_statement; try assumption.
  - apply nonwhite_solid, brace_nonwhite.
  - discriminate.
  - intros a b E. assert (L := f_equal String.length E). rewrite !app_length in L. cbn in L. lia.
  - intros a E. destruct a as [|c a]; [discriminate|]. injection E as _ E. destruct a; discriminate.
Qed.

(** white space and the words of a row *)
Lemma split_first : forall s k l, split s = k :: l -> exists w t, blank w /\ s = w ++ k ++ t /\ gap t /\ word k.
Proof.
  induction s as [|c s IH]; intros k l H; [discriminate|].
  unfold split in H. cbn in H. destruct (is_ws c) eqn:W.
  - cbn in H. destruct (IH k l H) as (w & t & B & -> & G & Wk). exists (String c w), t.
    split; [apply blank_cons; split; [apply is_ws_iff; exact W|exact B]|]. split; [reflexivity|split; assumption].
  - cbn in H. injection H as <- _. clear IH. apply is_ws_false in W.
    assert (E : exists t, s = fst (split2 s) ++ t /\ gap t /\ nonwhite (fst (split2 s))).
    { induction s as [|d s (t & E & G & N)].
      - exists "". split; [reflexivity|split; [apply gap_nil|intros x []]].
      - cbn. destruct (is_ws d) eqn:Wd; cbn.
        + exists (String d s). split; [reflexivity|split; [right; exists d, s; split; [reflexivity|apply is_ws_iff; exact Wd]|intros x []]].
        + exists t. split; [f_equal; exact E|split; [exact G|]]. apply nonwhite_cons. split; [apply is_ws_false; exact Wd|exact N]. }
    destruct E as (t & E & G & N). exists "", t. split; [apply blank_nil|]. split; [cbn; f_equal; exact E|]. split; [exact G|].
    split; [discriminate|]. apply nonwhite_cons. split; assumption.
Qed.
Lemma cut_comment_prefix : forall s, exists y, s = cut_comment s ++ y /\ (y = "" \/ exists c, y = "//" ++ c).
Proof.
  induction s as [|c s (y & E & H)]; [exists ""; split; [reflexivity|left; reflexivity]|].
  destruct (Ascii.eqb_spec c "/") as [->|N].
  - destruct s as [|d u]; [exists ""; split; [reflexivity|left; reflexivity]|].
    destruct (Ascii.eqb_spec d "/") as [->|N'].
    + exists ("//" ++ u). split; [reflexivity|right; exists u; reflexivity].
    + rewrite cut_comment_cons by (right; intros r E'; injection E' as E' _; contradiction).
      exists y. split; [cbn [append]; f_equal; exact E|exact H].
  - rewrite cut_comment_cons by (left; exact N). exists y. split; [cbn [append]; f_equal; exact E|exact H].
Qed.
Lemma lstrip_decomp : forall s, exists w, s = w ++ lstrip is_ws s /\ blank w.
Proof.
  induction s as [|c s (w & E & B)]; [exists ""; split; [reflexivity|apply blank_nil]|]. cbn. destruct (is_ws c) eqn:W.
  - exists (String c w). split; [cbn; f_equal; exact E|]. apply blank_cons. split; [apply is_ws_iff; exact W|exact B].
  - exists "". split; [reflexivity|apply blank_nil].
Qed.
Lemma first_is_starts : forall k r, word k -> first_is k (split (body_of r)) = true -> starts_as k r.
Proof.
  intros k r Wk H. unfold first_is in H. destruct (split (body_of r)) as [|e l] eqn:E; [discriminate|].
  apply String.eqb_eq in H. subst e. apply split_first in E. destruct E as (w & t & B & E & G & _).
  destruct (cut_comment_prefix (strip r)) as (y & Ey & Hy). fold (body_of r) in Ey. rewrite E in Ey.
  destruct (rstrip_decomp r) as (w2 & E2 & B2). destruct (lstrip_decomp (rstrip is_ws r)) as (w1 & E1 & B1).
  fold (strip_by is_ws r) in E1. change (strip_by is_ws r) with (strip r) in E1. rewrite Ey in E1. rewrite E1 in E2.
  exists (w1 ++ w), (t ++ y ++ w2). split; [apply blank_app; split; assumption|]. split; [rewrite E2 at 1; rewrite !app_assoc3; reflexivity|].
  destruct t as [|d t].
  - destruct Hy as [->|[c ->]]; [left; apply blank_gap; exact B2|right; exists (c ++ w2); reflexivity].
  - left. right. destruct G as [G|(d' & t' & Ed & Wd)]; [discriminate|]. injection Ed as -> ->.
    exists d', (t' ++ y ++ w2). split; [reflexivity|exact Wd].
Qed.
Lemma word_object : word "object".
Proof. split; [discriminate|]. intros c H W. unfold white in W. cbn in H. repeat (destruct H as [<-|H]; [vm_compute in W; lia|]). destruct H. Qed.
Lemma word_schedule : word "schedule".
Proof. split; [discriminate|]. intros c H W. unfold white in W. cbn in H. repeat (destruct H as [<-|H]; [vm_compute in W; lia|]). destruct H. Qed.
Lemma not_first : forall k r, word k -> ~ starts_as k r -> first_is k (split (body_of r)) = false.
Proof. intros k r W H. destruct (first_is k (split (body_of r))) eqn:E; [|reflexivity]. exfalso. apply H, first_is_starts; assumption. Qed.

Lemma open_row_split : forall cls kvs r, open_row cls kvs r -> exists h l, split (body_of r) = "object" :: h :: l
  /\ free ":" cls /\ (h = cls /\ kvs = [] \/ exists num, free ":" num /\ h = cls ++ ":" ++ num /\ kvs = [("name", cls ++ ":" ++ num)]).
Proof.
  intros cls kvs r (w1 & w2 & t & h & -> & B1 & B2 & N2 & G & Wh & Ch & Fc & Hh). exists h.
  assert (Wo := word_object). assert (So := word_solid Wo).
  assert (E : exists t', gap t' /\ body_of (w1 ++ "object" ++ w2 ++ h ++ t) = "object" ++ w2 ++ h ++ t').
  { unfold body_of, strip, strip_by. rewrite lstrip_rstrip_comm, lstrip_blank by exact B1.
    change (lstrip is_ws ("object" ++ w2 ++ h ++ t)) with ("object" ++ w2 ++ h ++ t).
    assert (Hsol : solid ("object" ++ w2 ++ h)) by (apply solid_app; [exact So|apply word_solid; exact Wh|discriminate|exact (proj1 Wh)]).
    assert (Nh : "object" ++ w2 ++ h <> "") by discriminate.
    assert (Hnc : no_comment ("object" ++ w2 ++ h)).
    { apply no_comment_app2; [apply no_comment_iff; reflexivity| |].
      - apply no_comment_app2; [apply blank_no_comment; exact B2|exact Ch|apply blank_no_slash; [exact B2|apply nw; tauto]].
      - intros a Ea. change ("object") with ("objec" ++ String "t" "") in Ea. apply snoc_inj in Ea. destruct Ea as [_ Ea]. discriminate. }
    assert (Ea : "object" ++ w2 ++ h ++ t = ("object" ++ w2 ++ h) ++ t) by (rewrite !app_assoc3; reflexivity).
    rewrite Ea. destruct (rstrip is_ws t) as [|d u] eqn:R.
    - destruct (rstrip_decomp t) as (w & Et & Bt). rewrite R in Et. cbn in Et. subst w. rewrite rstrip_app_blank by exact Bt.
      rewrite (proj2 Hsol). exists "". split; [apply gap_nil|]. rewrite cut_comment_nil_iff by exact Hnc. rewrite app_nil. reflexivity.
    - rewrite rstrip_app; rewrite R; [|discriminate].
      destruct G as [->|(d' & t' & -> & Wd)]; [discriminate R|].
      assert (Hd : d = d').
      { destruct (rstrip_decomp (String d' t')) as (w & Et & _). rewrite R in Et. injection Et as -> _. reflexivity. }
      subst d'. assert (Hs := white_sp Wd).
      exists (String d (cut_comment u)). split; [right; exists d, (cut_comment u); split; [reflexivity|exact Wd]|].
      rewrite cut_comment_app; [|exact Hnc|intros r Er; injection Er as -> _; destruct Hs as [Hs _]; apply Hs; reflexivity].
      rewrite cut_comment_cons by (left; exact (proj1 Hs)). rewrite !app_assoc3. reflexivity. }
  destruct E as (t' & G' & E). exists (split t'). rewrite E. split; [|split; assumption].
  rewrite split_word; [|exact Wo|apply gap_blank; assumption]. rewrite split_blank by exact B2.
  rewrite split_word by assumption. reflexivity.
Qed.

(** opening an object: its attributes so far *)
Definition settle (kvs : list (string * string)) (l : list (string * string)) : list (string * string) :=
  fold_left (fun d kv => dset (fst kv) (snd kv) d) kvs l.

Section R.
Variable schema : string -> option (list string).
Variable over12 mega : string -> pres string.
Variable cron_hit : string -> pres bool.
Notation RR := (read_row schema over12 mega cron_hit).
Notation IO := (in_object schema over12 mega).

Definition dispatch (s : gstate) (row : string) : pres gstate :=
  if first_is "object" (split row) then open_object schema s (split row)
  else if first_is "schedule" (split row) then open_schedule s (split row)
  else do sr <- match g_cur s with Some o => IO s o row | None => Ok (s, row) end;
       match g_sched s with Some name => in_schedule cron_hit (fst sr) name (snd sr) | None => Ok (fst sr) end.
Lemma dispatch_nil : forall s, dispatch s "" = Ok s.
Proof. intros [[o|] b c [d|] e f g]; reflexivity. Qed.
Lemma read_row_dispatch : forall s r, RR s r = dispatch s (body_of r).
Proof.
  intros s r. unfold read_row, body_of. fold (dispatch s (cut_comment (strip r))).
  destruct (strip r) as [|c t] eqn:E; [reflexivity|].
  destruct (Ascii.eqb_spec c "/") as [->|N].
  - destruct t as [|d u]; [reflexivity|]. destruct (Ascii.eqb_spec d "/") as [->|N'].
    + rewrite dispatch_nil || (cbn [cut_comment]; rewrite dispatch_nil). reflexivity.
    + destruct d as [[] [] [] [] [] [] [] []]; try reflexivity. exfalso. apply N'. reflexivity.
  - destruct c as [[] [] [] [] [] [] [] []]; try reflexivity. exfalso. apply N. reflexivity.
Qed.

Lemma set_cur_same : forall s o, g_cur s = o -> set_cur s o = s.
Proof. intros [] o <-. reflexivity. Qed.

(** a row of the form  k w2 rest  inside an object *)
Lemma statement_row : forall s o w1 k w2 q x t, g_cur s = Some o -> g_sched s = None ->
  blank w1 -> blank w2 -> w2 <> "" -> blank x -> ending t -> token k -> k <> "object" -> k <> "schedule" ->
  q <> "" -> solid q -> free ";" q -> free "}" q -> no_comment q -> (forall a, q <> a ++ "/") ->
  RR s (w1 ++ k ++ w2 ++ q ++ x ++ t)
  = do o' <- attribute schema over12 mega o (k :: split q); Ok (set_cur s (Some o')).
Proof.
  intros s o w1 k w2 q x t Hc Hs B1 B2 N2 Bx T (Wk & Fk & Gk & Ck & Sk) No Ns Nq Sq Fq Gq Cq Lq.
  assert (Hcore : (k ++ w2 ++ q) ++ x ++ t = k ++ w2 ++ q ++ x ++ t) by (rewrite !app_assoc3; reflexivity).
  rewrite <- Hcore.
  assert (Nk : k <> "") by exact (proj1 Wk).
  assert (Hsol : solid (k ++ w2 ++ q)) by (apply solid_app; [apply word_solid; exact Wk|exact Sq|exact Nk|exact Nq]).
  destruct (@body_statement w1 (k ++ w2 ++ q) x t B1 Hsol) as (x' & y & Hx & Hy & E).
  - destruct k; [contradiction|discriminate].
  - apply no_comment_app2; [exact Ck| |exact Sk]. apply no_comment_app2; [apply blank_no_comment; exact B2|exact Cq|].
    apply blank_no_slash; [exact B2|apply nw; tauto].
  - rewrite <- app_assoc3. apply snoc_app; [exact Nq|exact Lq].
  - exact Bx.
  - right. exact T.
  - rewrite read_row_dispatch, E. apply (xcase Bx) in Hx.
    assert (Gw : forall z, gap (w2 ++ z)) by (intro z; apply gap_blank; assumption).
    assert (Hsp : exists l, split ((k ++ w2 ++ q) ++ x' ++ y) = k :: l).
    { eexists. rewrite !app_assoc3. apply split_word; [exact Wk|apply Gw]. }
    destruct Hsp as [l Hl]. unfold dispatch. rewrite Hl, !first_is_false by assumption. rewrite Hc, Hs.
    unfold in_object. rewrite y_gap_free; [|rewrite !free_app; repeat split; [exact Fk|apply blank_free; [exact B2|apply nw; tauto]|exact Fq]|exact Hx|exact Hy].
    rewrite ends_brace; [|rewrite !free_app; repeat split; [exact Gk|apply blank_free; [exact B2|apply nw; tauto]|exact Gq]|exact Hx].
    assert (Hk : split ((k ++ w2 ++ q) ++ x') = k :: split q).
    { rewrite !app_assoc3, split_word by (try exact Wk; apply Gw). rewrite split_blank by exact B2. f_equal.
      apply split_app_blank. exact Hx. }
    rewrite Hk. destruct (attribute schema over12 mega o (k :: split q)); reflexivity.
Qed.

Lemma attr_row_effect : forall s o k v r, attr_row k v r -> g_cur s = Some o -> g_sched s = None ->
  RR s r = do o' <- gset schema o k v; Ok (set_cur s (Some o')).
Proof.
  intros s o k v r (w1 & w2 & q & x & t & -> & B1 & B2 & N2 & Bx & T & Tk & No & Ns & Tq & U) Hc Hs.
  destruct Tq as (Wq & Fq & Gq & Cq & Lq).
  rewrite (@statement_row s o) by (assumption || exact (proj1 Wq) || (apply word_solid; exact Wq)).
  assert (Eq : split q = [q]) by (rewrite <- (app_nil q) at 1; rewrite split_word; [reflexivity|exact Wq|apply gap_nil]).
  rewrite Eq. cbn. rewrite (unquote_iff U). reflexivity.
Qed.
(** the conversions that take place *)
Definition converted (cls u v : string) : pres string :=
  if String.eqb cls "line_spacing" && String.eqb u "in" then over12 v
  else if String.eqb cls "capacitor" && String.eqb u "MVAr" then mega v
  else Ok v.
Lemma unit_row_effect : forall s o k v u r, unit_row k v u r -> g_cur s = Some o -> g_sched s = None ->
  RR s r = do v' <- converted (go_class o) u v; do o' <- gset schema o k v'; Ok (set_cur s (Some o')).
Proof.
  intros s o k v u r (w1 & w2 & w3 & q & x & t & -> & B1 & B2 & N2 & B3 & N3 & Bx & T & Tk & No & Ns & Tq & U & Tu) Hc Hs.
  destruct Tq as (Wq & Fq & Gq & Cq & Lq). destruct Tu as (Wu & Fu & Gu & Cu & Lu).
  assert (Hcore : w1 ++ k ++ w2 ++ q ++ w3 ++ u ++ x ++ t = w1 ++ k ++ w2 ++ (q ++ w3 ++ u) ++ x ++ t)
    by (rewrite !app_assoc3; reflexivity).
  rewrite Hcore, (@statement_row s o); try assumption.
  - assert (Eq : split (q ++ w3 ++ u) = [q; u]).
    { rewrite split_word; [|exact Wq|apply gap_blank; assumption]. rewrite split_blank by exact B3.
      rewrite <- (app_nil u) at 1. rewrite split_word; [reflexivity|exact Wu|apply gap_nil]. }
    rewrite Eq. cbn [attribute]. rewrite (unquote_iff U). unfold converted.
    destruct (String.eqb_spec (go_class o) "line_spacing") as [E1|E1]; cbn [andb].
    + rewrite E1. cbn [String.eqb Ascii.eqb Bool.eqb andb].
      destruct (String.eqb u "in"); [destruct (over12 v)|]; cbn; reflexivity.
    + destruct (String.eqb (go_class o) "capacitor" && String.eqb u "MVAr"); cbn; [destruct (mega v)|]; reflexivity.
  - destruct q; [destruct Wq as [Wq _]; contradiction|discriminate].
  - apply solid_app; [apply word_solid; exact Wq|apply word_solid; exact Wu|exact (proj1 Wq)|exact (proj1 Wu)].
  - rewrite !free_app. repeat split; [exact Fq|apply blank_free; [exact B3|apply nw; tauto]|exact Fu].
  - rewrite !free_app. repeat split; [exact Gq|apply blank_free; [exact B3|apply nw; tauto]|exact Gu].
  - apply no_comment_app2; [exact Cq| |exact Lq]. apply no_comment_app2; [apply blank_no_comment; exact B3|exact Cu|].
    apply blank_no_slash; [exact B3|apply nw; tauto].
  - rewrite <- app_assoc3. apply snoc_app; [exact (proj1 Wu)|exact Lu].
Qed.

Lemma attr_row_idle : forall s k v r, attr_row k v r -> g_cur s = None -> g_sched s = None -> RR s r = Ok s.
Proof.
  intros s k v r (w1 & w2 & q & x & t & -> & B1 & B2 & N2 & Bx & T & Tk & No & Ns & Tq & U) Hc Hs.
  destruct Tq as (Wq & Fq & Gq & Cq & Lq).
  destruct (@statement_first w1 k w2 q x t) as [l E]; try assumption; [exact (proj1 Wq)|apply word_solid; exact Wq|].
  rewrite read_row_dispatch. unfold dispatch. rewrite E, !first_is_false by assumption. rewrite Hc, Hs. reflexivity.
Qed.
Lemma unit_row_idle : forall s k v u r, unit_row k v u r -> g_cur s = None -> g_sched s = None -> RR s r = Ok s.
Proof.
  intros s k v u r (w1 & w2 & w3 & q & x & t & -> & B1 & B2 & N2 & B3 & N3 & Bx & T & Tk & No & Ns & Tq & U & Tu) Hc Hs.
  destruct Tq as (Wq & Fq & Gq & Cq & Lq). destruct Tu as (Wu & Fu & Gu & Cu & Lu).
  assert (Hcore : w1 ++ k ++ w2 ++ q ++ w3 ++ u ++ x ++ t = w1 ++ k ++ w2 ++ (q ++ w3 ++ u) ++ x ++ t)
    by (rewrite !app_assoc3; reflexivity).
  rewrite Hcore. destruct (@statement_first w1 k w2 (q ++ w3 ++ u) x t) as [l E]; try assumption.
  - destruct q; [destruct Wq as [Wq _]; contradiction|discriminate].
  - apply solid_app; [apply word_solid; exact Wq|apply word_solid; exact Wu|exact (proj1 Wq)|exact (proj1 Wu)].
  - apply no_comment_app2; [exact Cq| |exact Lq]. apply no_comment_app2; [apply blank_no_comment; exact B3|exact Cu|].
    apply blank_no_slash; [exact B3|apply nw; tauto].
  - rewrite <- app_assoc3. apply snoc_app; [exact (proj1 Wu)|exact Lu].
  - rewrite read_row_dispatch. unfold dispatch. rewrite E, !first_is_false by assumption. rewrite Hc, Hs. reflexivity.
Qed.
Lemma brace_dispatch : forall s o x' y, g_cur s = Some o -> g_sched s = None -> blank x' ->
  (y = "" \/ exists y', y = String ";" y') ->
  dispatch s ("}" ++ x' ++ y) = if ends_with "}" ("}" ++ x') then close_object schema s o else Ok s.
Proof.
  intros s o x' y Hc Hs B Hy. unfold dispatch.
  assert (Hf : forall k, (k = "object" \/ k = "schedule") -> first_is k (split ("}" ++ x' ++ y)) = false).
  { intros k Hk. unfold split. cbn [append split2]. replace (is_ws "}") with false by reflexivity.
    cbn [fst snd push first_is]. destruct Hk as [-> | ->]; reflexivity. }
  rewrite !Hf by tauto. rewrite Hc, Hs. unfold in_object.
  assert (F : free ";" "}") by (intros [E|[]]; discriminate).
  rewrite y_gap_free by assumption.
  rewrite split_word; [|split; [discriminate|exact brace_nonwhite]|apply blank_gap; exact B].
  rewrite split_blank_nil by exact B. cbn [attribute pbind]. rewrite set_cur_same by exact Hc.
  destruct (ends_with "}" ("}" ++ x')); [destruct (close_object schema s o)|]; reflexivity.
Qed.
Lemma close_row_effect : forall s o r, close_row r -> g_cur s = Some o -> g_sched s = None -> RR s r = close_object schema s o.
Proof.
  intros s o r (w & t & -> & Bw & T) Hc Hs. rewrite read_row_dispatch.
  destruct (@brace_body w "" t Bw blank_nil T) as (x' & y & Hx & Hy & E). cbn [append] in E. cbn [append]. rewrite E.
  assert (x' = "") as -> by tauto.
  change (String "}" ("" ++ y)) with ("}" ++ "" ++ y). rewrite (@brace_dispatch s o "" y Hc Hs blank_nil Hy). reflexivity.
Qed.
Lemma outside_effect : forall s r, outside r -> g_cur s = None -> g_sched s = None -> RR s r = Ok s.
Proof.
  intros s r [H1 H2] Hc Hs. rewrite read_row_dispatch. unfold dispatch.
  rewrite (not_first word_object H1), (not_first word_schedule H2), Hc, Hs. reflexivity.
Qed.
Lemma noise_effect : forall s r, noise r -> RR s r = Ok s.
Proof. intros s r H. rewrite read_row_dispatch, body_noise by exact H. apply dispatch_nil. Qed.

Lemma brace_comment_effect : forall s o r, brace_comment r -> g_cur s = Some o -> g_sched s = None -> RR s r = Ok s.
Proof.
  intros s o r (w & x & c & -> & Bw & Bx & Nx) Hc Hs. rewrite read_row_dispatch.
  assert (E : body_of (w ++ "}" ++ x ++ "//" ++ c) = "}" ++ x ++ "").
  { unfold body_of, strip, strip_by. rewrite lstrip_rstrip_comm, lstrip_blank by exact Bw.
    change (lstrip is_ws ("}" ++ x ++ "//" ++ c)) with ("}" ++ x ++ "//" ++ c).
    assert (Hs' : ~ white "/"%char) by (apply nw; tauto).
    assert (R : rstrip is_ws ("//" ++ c) = "//" ++ rstrip is_ws c) by (cbn [append]; rewrite !rstrip_cons by exact Hs'; reflexivity).
    rewrite <- app_assoc3, rstrip_app; rewrite R; [|discriminate].
    rewrite app_nil. rewrite cut_comment_app2.
    - cbn [append cut_comment]. rewrite app_nil. reflexivity.
    - cbn [append]. intros a b E. destruct a as [|d a]; [discriminate|]. injection E as _ E. exact (blank_no_comment Bx a b E).
    - apply snoc_app; [exact Nx|]. apply blank_no_slash; assumption. }
  rewrite E, (@brace_dispatch s o x "" Hc Hs Bx (or_introl eq_refl)).
  rewrite ends_app by exact Nx. rewrite ends_white; [reflexivity|exact Bx|exact Nx|apply nw; tauto].
Qed.

Lemma open_row_effect : forall s cls kvs r ps, open_row cls kvs r -> g_cur s = None -> g_sched s = None ->
  mem cls skipped_objects = false -> schema cls = Some ps -> (forall k, In k (map fst kvs) -> In k ps) ->
  RR s r = Ok (set_cur s (Some {| go_class := cls; go_attrs := settle kvs [] |})).
Proof.
  intros s cls kvs r ps H Hc Hs Hm Hp Hk. rewrite read_row_dispatch. apply open_row_split in H.
  destruct H as (h & l & E & Fc & Hh). unfold dispatch. rewrite E. cbn [first_is]. rewrite String.eqb_refl.
  unfold open_object. rewrite Hc. cbn [nth1 pbind].
  destruct Hh as [[-> ->]|(num & Fn & -> & ->)].
  - rewrite (colon_free Fc). cbn [fst snd]. rewrite Hm, Hp. reflexivity.
  - cbn [append]. rewrite (colon_app num Fc), (colon_free Fn). cbn [fst snd]. rewrite Hm, Hp.
    unfold gset. cbn [go_class]. rewrite Hp.
    assert (M : mem "name" ps = true) by (apply existsb_exists; exists "name"; split; [apply Hk; left; reflexivity|reflexivity]).
    rewrite M. reflexivity.
Qed.
Lemma open_row_nested : forall s o cls kvs r, open_row cls kvs r -> g_cur s = Some o -> RR s r = Ok (set_ign s true).
Proof.
  intros s o cls kvs r H Hc. rewrite read_row_dispatch. apply open_row_split in H.
  destruct H as (h & l & E & _). unfold dispatch. rewrite E. cbn [first_is]. rewrite String.eqb_refl.
  unfold open_object. rewrite Hc. reflexivity.
Qed.
Lemma open_row_skipped : forall s cls kvs r, open_row cls kvs r -> g_cur s = None ->
  mem cls skipped_objects = true -> RR s r = Ok s.
Proof.
  intros s cls kvs r H Hc Hm. rewrite read_row_dispatch. apply open_row_split in H.
  destruct H as (h & l & E & Fc & Hh). unfold dispatch. rewrite E. cbn [first_is]. rewrite String.eqb_refl.
  unfold open_object. rewrite Hc. cbn [nth1 pbind].
  destruct Hh as [[-> ->]|(num & Fn & -> & ->)].
  - rewrite (colon_free Fc). cbn [fst snd]. rewrite Hm. reflexivity.
  - cbn [append]. rewrite (colon_app num Fc). cbn [fst snd]. rewrite Hm. reflexivity.
Qed.
Lemma open_row_unknown : forall s cls kvs r, open_row cls kvs r -> g_cur s = None ->
  mem cls skipped_objects = false -> schema cls = None -> RR s r = Err AttributeError.
Proof.
  intros s cls kvs r H Hc Hm Hn. rewrite read_row_dispatch. apply open_row_split in H.
  destruct H as (h & l & E & Fc & Hh). unfold dispatch. rewrite E. cbn [first_is]. rewrite String.eqb_refl.
  unfold open_object. rewrite Hc. cbn [nth1 pbind].
  destruct Hh as [[-> ->]|(num & Fn & -> & ->)].
  - rewrite (colon_free Fc). cbn [fst snd]. rewrite Hm, Hn. reflexivity.
  - cbn [append]. rewrite (colon_app num Fc). cbn [fst snd]. rewrite Hm, Hn. reflexivity.
Qed.
End R.
