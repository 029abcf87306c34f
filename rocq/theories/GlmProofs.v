(** What the reader does with a whole file. *)
From Coq Require Import String Ascii List Bool Arith Lia ZArith.
From Verif Require Import PyExc GlmText SpecGlm GlmBase GlmRowProofs.
Import ListNotations.
Local Open Scope string_scope.
Set Implicit Arguments.

Lemma mfold_app : forall S X (f : S -> X -> pres S) a b s, mfold f (a ++ b) s = do s' <- mfold f a s; mfold f b s'.
Proof. induction a; intros; cbn; [reflexivity|]. destruct (f s a); cbn; [apply IHa|reflexivity]. Qed.

(** dictionaries *)
Lemma dget_dset : forall A k k' (v : A) d, dget k (dset k' v d) = if String.eqb k k' then Some v else dget k d.
Proof.
  induction d as [|[k1 v1] d IH]; cbn; [reflexivity|].
  destruct (String.eqb_spec k' k1) as [E1|E1]; cbn; destruct (String.eqb_spec k k1) as [E2|E2].
  - destruct (String.eqb_spec k k'); [reflexivity|congruence].
  - destruct (String.eqb_spec k k'); [congruence|reflexivity].
  - destruct (String.eqb_spec k k'); [congruence|reflexivity].
  - exact IH.
Qed.
Lemma final_from : forall k kvs acc, fold_left (fun acc (kv : string * string) => if String.eqb (fst kv) k then Some (snd kv) else acc) kvs acc
  = match final k kvs with Some v => Some v | None => acc end.
Proof.
  unfold final. induction kvs as [|kv kvs IH]; intro acc; cbn; [reflexivity|]. rewrite IH, (IH (if String.eqb (fst kv) k then Some (snd kv) else None)).
  destruct (fold_left _ kvs None); [reflexivity|]. destruct (String.eqb (fst kv) k); reflexivity.
Qed.
Lemma final_app : forall k a b, final k (a ++ b) = match final k b with Some v => Some v | None => final k a end.
Proof. intros. unfold final at 1. rewrite fold_left_app. apply final_from. Qed.
Lemma settle_get : forall k kvs l, dget k (settle kvs l) = match final k kvs with Some v => Some v | None => dget k l end.
Proof.
  intros k kvs. unfold settle. induction kvs as [|kv kvs IH]; intro l; cbn; [reflexivity|].
  rewrite IH, dget_dset. unfold final. cbn [fold_left]. rewrite final_from. rewrite final_from. cbn.
  destruct (final k kvs); [reflexivity|]. rewrite String.eqb_sym. destruct (String.eqb (fst kv) k); reflexivity.
Qed.
Lemma settle_app : forall a b l, settle (a ++ b) l = settle b (settle a l).
Proof. intros. apply fold_left_app. Qed.
Lemma final_in : forall k kvs v, final k kvs = Some v -> In k (map fst kvs).
Proof.
  intros k kvs. induction kvs as [|[k' v'] kvs IH] using rev_ind; intros v H; [discriminate|].
  rewrite final_app in H. rewrite map_app, in_app_iff. cbn in H. destruct (String.eqb_spec k' k) as [->|N].
  - right. left. reflexivity.
  - left. apply (IH v H).
Qed.

Section F.
Variable schema : string -> option (list string).
Variable over12 mega : string -> pres string.
Variable cron_hit : string -> pres bool.
Notation RR := (read_row schema over12 mega cron_hit).
Notation RS := (read_rows schema over12 mega cron_hit).

Lemma RS_app : forall a b s, RS (a ++ b) s = do s' <- RS a s; RS b s'.
Proof. intros. apply mfold_app. Qed.
Lemma RS_cons : forall r b s, RS (r :: b) s = do s' <- RR s r; RS b s'.
Proof. reflexivity. Qed.

Lemma mem_In : forall k l, mem k l = true <-> In k l.
Proof.
  intros. unfold mem. rewrite existsb_exists. split.
  - intros (x & I & E). apply String.eqb_eq in E. subst. exact I.
  - intro I. exists k. split; [exact I|apply String.eqb_refl].
Qed.
Lemma mem_not : forall k l, ~ In k l -> mem k l = false.
Proof. intros k l H. destruct (mem k l) eqn:E; [|reflexivity]. apply mem_In in E. contradiction. Qed.

Lemma gset_ok : forall o k v ps, schema (go_class o) = Some ps -> In k ps ->
  gset schema o k v = Ok {| go_class := go_class o; go_attrs := dset k v (go_attrs o) |}.
Proof. intros o k v ps H I. unfold gset. rewrite H. apply mem_In in I. rewrite I. reflexivity. Qed.

Lemma attrs_effect : forall kvs rows, attrs kvs rows -> forall s o ps, g_cur s = Some o -> g_sched s = None ->
  schema (go_class o) = Some ps -> incl (map fst kvs) ps ->
  RS rows s = Ok (set_cur s (Some {| go_class := go_class o; go_attrs := settle kvs (go_attrs o) |})).
Proof.
  induction 1 as [|r kvs rows N A IH|k v r kvs rows R A IH]; intros s o ps Hc Hs Hp Hi.
  - cbn. destruct o as [cl al]. cbn. rewrite set_cur_same by exact Hc. reflexivity.
  - rewrite RS_cons, noise_effect by exact N. cbn [pbind]. apply (IH s o ps); assumption.
  - rewrite RS_cons, (@attr_row_effect schema over12 mega cron_hit s o k v r R Hc Hs).
    rewrite (@gset_ok o k v ps Hp) by (apply Hi; left; reflexivity). cbn [pbind].
    rewrite (IH _ {| go_class := go_class o; go_attrs := dset k v (go_attrs o) |} ps).
    + reflexivity.
    + reflexivity.
    + exact Hs.
    + exact Hp.
    + intros x I. apply Hi. right. exact I.
Qed.
Lemma nested_effect : forall kvs rows, nested kvs rows -> forall s o ps, g_cur s = Some o -> g_sched s = None -> g_ign s = false ->
  schema (go_class o) = Some ps -> incl (map fst kvs) ps ->
  RS rows s = Ok (set_cur s (Some {| go_class := go_class o; go_attrs := settle kvs (go_attrs o) |})).
Proof.
  induction 1 as [|r kvs rows N A IH|k v r kvs rows R A IH|cls r0 kvs0 kvs1 body r1 kvs rows O B C A IH]; intros s o ps Hc Hs Hg Hp Hi.
  - cbn. destruct o as [cl al]. cbn. rewrite set_cur_same by exact Hc. reflexivity.
  - rewrite RS_cons, noise_effect by exact N. cbn [pbind]. apply (IH s o ps); assumption.
  - rewrite RS_cons, (@attr_row_effect schema over12 mega cron_hit s o k v r R Hc Hs).
    rewrite (@gset_ok o k v ps Hp) by (apply Hi; left; reflexivity). cbn [pbind].
    rewrite (IH _ {| go_class := go_class o; go_attrs := dset k v (go_attrs o) |} ps).
    + reflexivity.
    + reflexivity.
    + exact Hs.
    + exact Hg.
    + exact Hp.
    + intros x I. apply Hi. right. exact I.
  - rewrite RS_app, RS_cons, (@open_row_nested schema over12 mega cron_hit s o cls kvs0 r0 O Hc). cbn [pbind].
    rewrite RS_app, (@attrs_effect kvs1 body B (set_ign s true) o ps); [|exact Hc|exact Hs|exact Hp|].
    2: { intros x I. apply Hi. rewrite map_app, in_app_iff. left. exact I. }
    cbn [pbind]. rewrite RS_cons.
    rewrite (@close_row_effect schema over12 mega cron_hit _ {| go_class := go_class o; go_attrs := settle kvs1 (go_attrs o) |} r1 C);
      [|reflexivity|exact Hs].
    unfold close_object. cbn [g_ign set_cur set_ign pbind RS read_rows mfold].
    rewrite (IH _ {| go_class := go_class o; go_attrs := settle kvs1 (go_attrs o) |} ps).
    + cbn [go_class go_attrs]. rewrite settle_app. destruct s. cbn in Hg. subst. reflexivity.
    + reflexivity.
    + exact Hs.
    + reflexivity.
    + exact Hp.
    + intros x I. apply Hi. rewrite map_app, in_app_iff. right. exact I.
Qed.

(** the object as it is stored *)
Definition stored (o : described) : gobj :=
  {| go_class := fst o;
     go_attrs := match final "name" (snd o), name_of (snd o) with
                 | None, Some n => dset "name" n (settle (snd o) [])
                 | _, _ => settle (snd o) []
                 end |}.
Lemma stored_value : forall o, name_of (snd o) <> None -> holds_object o (go_class (stored o)) (fun k => dget k (go_attrs (stored o))).
Proof.
  intros [cls kvs] N. split; [reflexivity|]. intro k. cbn [fst snd] in *. unfold stored, value_of. cbn [fst snd go_attrs].
  destruct (final "name" kvs) as [n|] eqn:E.
  - rewrite settle_get. destruct (String.eqb_spec k "name") as [->|Nk].
    + unfold name_of. rewrite E. reflexivity.
    + destruct (final k kvs); reflexivity.
  - destruct (name_of kvs) as [n|] eqn:En; [|contradiction]. rewrite dget_dset.
    destruct (String.eqb k "name"); [reflexivity|]. rewrite settle_get. destruct (final k kvs); reflexivity.
Qed.
Definition idle (s : gstate) : Prop := g_cur s = None /\ g_ign s = false /\ g_sched s = None.
Lemma settle_final : forall k kvs, dget k (settle kvs []) = final k kvs.
Proof. intros. rewrite settle_get. destruct (final k kvs); reflexivity. Qed.
Lemma close_stores : forall s cls kvs n ps, g_ign s = false -> schema cls = Some ps -> In "name" ps -> name_of kvs = Some n ->
  close_object schema s {| go_class := cls; go_attrs := settle kvs [] |} = Ok (store s n (stored (cls, kvs))).
Proof.
  intros s cls kvs n ps Hg Hp Hn Hv. unfold close_object, stored. rewrite Hg. unfold gget at 1. cbn [go_attrs fst snd].
  rewrite settle_final. unfold name_of in Hv. unfold name_of.
  destruct (final "name" kvs) as [m|] eqn:E.
  - injection Hv as ->. reflexivity.
  - destruct (final "from" kvs) as [f|] eqn:Ef; [|discriminate]. destruct (final "to" kvs) as [t|] eqn:Et; [|discriminate].
    injection Hv as <-. unfold gget. cbn [go_attrs]. rewrite !settle_final, Ef, Et. cbn [pbind].
    rewrite (@gset_ok {| go_class := cls; go_attrs := settle kvs [] |} "name" (f ++ "-" ++ t) ps Hp Hn). cbn [pbind go_attrs go_class].
    rewrite dget_dset, String.eqb_refl. reflexivity.
Qed.
Lemma unused_skipped : forall c, ~ In c unused_classes -> mem c skipped_objects = false.
Proof. intros c H. apply mem_not. exact H. Qed.

Lemma nesting_effect : forall cls kvs rows s n, nesting_object cls kvs rows -> idle s -> legal schema (cls, kvs) -> name_of kvs = Some n ->
  RS rows s = Ok (store s n (stored (cls, kvs))).
Proof.
  intros cls kvs rows s n (r0 & kvs0 & kvs1 & body & r1 & -> & -> & O & B & C) (Hc & Hg & Hs) (Hu & (ps & Hp & Hn & Hi) & _) Hv.
  cbn [fst snd] in *. rewrite map_app in Hi.
  rewrite RS_cons, (@open_row_effect schema over12 mega cron_hit s cls kvs0 r0 ps O Hc Hs (unused_skipped Hu) Hp).
  2: { intros k I. apply Hi, in_or_app. left. exact I. }
  cbn [pbind]. rewrite RS_app.
  rewrite (@nested_effect kvs1 body B _ {| go_class := cls; go_attrs := settle kvs0 [] |} ps); [|reflexivity|exact Hs|exact Hg|exact Hp|].
  2: { intros k I. apply Hi, in_or_app. right. exact I. }
  cbn [pbind go_class go_attrs]. rewrite <- settle_app, RS_cons.
  rewrite (@close_row_effect schema over12 mega cron_hit _ {| go_class := cls; go_attrs := settle (kvs0 ++ kvs1) [] |} r1 C);
    [|reflexivity|exact Hs].
  rewrite (@close_stores _ cls (kvs0 ++ kvs1) n ps); [reflexivity|exact Hg|exact Hp|exact Hn|exact Hv].
Qed.
Lemma attrs_nested : forall kvs rows, attrs kvs rows -> nested kvs rows.
Proof. induction 1; [apply nested_nil|apply nested_noise|apply nested_attr]; assumption. Qed.
Lemma one_nesting : forall cls kvs rows, one_object cls kvs rows -> nesting_object cls kvs rows.
Proof.
  intros cls kvs rows (r0 & kvs0 & kvs1 & body & r1 & E1 & E2 & O & B & C).
  exists r0, kvs0, kvs1, body, r1. repeat split; try assumption. apply attrs_nested. exact B.
Qed.
Lemma store_idle : forall s n o, idle s -> idle (store s n o).
Proof. intros s n o (Hc & Hg & Hs). repeat split; assumption. Qed.

(** the dictionary after a list of objects *)
Definition put (d : list (string * gobj)) (o : described) : list (string * gobj) :=
  match name_of (snd o) with Some n => dset n (stored o) d | None => d end.
Lemma file_effect : forall os rows, glm_file os rows -> forall s, idle s -> Forall (legal schema) os ->
  exists s', RS rows s = Ok s' /\ idle s' /\ g_objs s' = fold_left put os (g_objs s) /\ g_scheds s' = g_scheds s.
Proof.
  induction 1 as [|r os rows O F IH|cls kvs b os rows O F IH]; intros s I L.
  - exists s. split; [reflexivity|split; [exact I|split; reflexivity]].
  - rewrite RS_cons. destruct I as (Hc & Hg & Hs). rewrite outside_effect by assumption. cbn [pbind]. apply IH; [repeat split; assumption|exact L].
  - inversion L as [|x l Lo Lr]; subst. destruct (name_of kvs) as [n|] eqn:En; [|destruct Lo as (_ & _ & Hn); cbn in Hn; congruence].
    rewrite RS_app, (nesting_effect (one_nesting O) I Lo En). cbn [pbind].
    destruct (IH (store s n (stored (cls, kvs))) (store_idle n _ I) Lr) as (s' & E & I' & Hd & Hsc).
    exists s'. split; [exact E|split; [exact I'|split; [|rewrite Hsc; reflexivity]]]. rewrite Hd. cbn [fold_left]. unfold put at 3. cbn [snd]. rewrite En. reflexivity.
Qed.

End F.

(** reading the dictionary back *)
Lemma put_get : forall os d n, Forall (fun o => name_of (snd o) <> None) os ->
  dget n (fold_left put os d) = match last_named n os with Some o => Some (stored o) | None => dget n d end.
Proof.
  intros os d n. induction os as [|o os IH] using rev_ind; intro L; [reflexivity|].
  rewrite Forall_app in L. destruct L as [L1 L2]. inversion L2 as [|x l Lo _]; subst.
  unfold last_named in *. rewrite !fold_left_app. cbn [fold_left]. unfold put at 1.
  destruct (name_of (snd o)) as [m|] eqn:E; [|contradiction]. rewrite dget_dset, String.eqb_sym.
  destruct (String.eqb m n); [reflexivity|]. apply IH. exact L1.
Qed.
Lemma dset_new : forall A k (v : A) d, ~ In k (map fst d) -> dset k v d = (d ++ [(k, v)])%list.
Proof.
  induction d as [|[k' v'] d IH]; intro H; cbn; [reflexivity|]. cbn in H.
  destruct (String.eqb_spec k k') as [E|E]; [exfalso; apply H; left; congruence|]. f_equal. apply IH. tauto.
Qed.
Definition name_or (o : described) : string := match name_of (snd o) with Some n => n | None => "" end.
Lemma put_distinct : forall os d, Forall (fun o => name_of (snd o) <> None) os ->
  NoDup (map (fun o => name_of (snd o)) os) -> (forall o, In o os -> ~ In (name_or o) (map fst d)) ->
  fold_left put os d = (d ++ map (fun o => (name_or o, stored o)) os)%list.
Proof.
  induction os as [|o os IH]; intros d L N H; cbn; [symmetry; apply app_nil_r|].
  inversion L as [|x l Lo Lr]; subst. inversion N as [|x l No Nr]; subst.
  assert (E : put d o = (d ++ [(name_or o, stored o)])%list).
  { unfold put. specialize (H o (or_introl eq_refl)). unfold name_or in *. destruct (name_of (snd o)); [|contradiction].
    apply dset_new. exact H. }
  rewrite E, IH; [rewrite <- app_assoc; reflexivity|exact Lr|exact Nr|].
  intros o' I' J. rewrite map_app, in_app_iff in J. destruct J as [J|[J|[]]]; [apply (H o' (or_intror I') J)|].
  cbn in J. apply No. apply in_map_iff. exists o'. split; [|exact I'].
  rewrite Forall_forall in Lr. specialize (Lr o' I'). unfold name_or in J.
  destruct (name_of (snd o')); [|contradiction]. destruct (name_of (snd o)); [|contradiction]. congruence.
Qed.

(** includes *)
Section I.
Variable files : string -> option (list string).
Lemma prefix8 : forall r, substring 0 8 r = "#include" -> exists t, r = "#include" ++ t.
Proof.
  intros r H. do 8 (destruct r as [|? r]; [discriminate|]). cbn in H. injection H as -> -> -> -> -> -> -> ->.
  assert (E : substring 0 0 r = "") by (destruct r; reflexivity). exists r. reflexivity.
Qed.
Lemma lstrip_stop : forall f c s, f c = false -> lstrip f (String c s) = String c s.
Proof. intros f c s H. cbn. rewrite H. reflexivity. Qed.
Lemma rstrip_keep : forall f s, (forall c, In c (chars s) -> f c = false) -> rstrip f s = s.
Proof.
  induction s; intro H; [reflexivity|]. cbn [rstrip]. rewrite IHs by (intros c I; apply H; right; exact I).
  rewrite (H a (or_introl eq_refl)). destruct s; reflexivity.
Qed.
Lemma lstrip_keep : forall f s, (forall c, In c (chars s) -> f c = false) -> lstrip f s = s.
Proof. intros f [|c s] H; [reflexivity|]. apply lstrip_stop, H. left. reflexivity. Qed.
Lemma rstrip_drop : forall f a b, rstrip f b = "" -> rstrip f (a ++ b) = rstrip f a.
Proof. induction a; intros b H; [exact H|]. cbn. rewrite (IHa b H). reflexivity. Qed.
Lemma location : forall f s, word f -> free """" f -> free ";" f -> (s = "" \/ s = ";") ->
  strip_by quote_or_semi (String """" (f ++ String """" s)) = f.
Proof.
  intros f s [Nf _] Q S Hs. unfold strip_by.
  assert (K : forall c, In c (chars f) -> quote_or_semi c = false).
  { intros c I. unfold quote_or_semi. apply orb_false_intro; apply Ascii.eqb_neq; intros <-; [apply Q|apply S]; exact I. }
  assert (R : rstrip quote_or_semi (String """" (f ++ String """" s)) = String """" f).
  { change (String """" (f ++ String """" s)) with (String """" f ++ String """" s).
    rewrite rstrip_drop by (destruct Hs as [-> | ->]; reflexivity). cbn [rstrip]. rewrite (@rstrip_keep quote_or_semi f K). destruct f; [contradiction|reflexivity]. }
  rewrite R. cbn [lstrip]. replace (quote_or_semi """") with true by reflexivity. apply lstrip_keep. exact K.
Qed.
Lemma word_sharp : word "#include".
Proof. split; [discriminate|]. intros c H W. unfold white in W. cbn in H. repeat (destruct H as [<-|H]; [vm_compute in W; lia|]). destruct H. Qed.
Lemma included_ok : forall rows more, included files rows more -> includes files rows = Ok more.
Proof.
  induction 1 as [|r rows more N I IH|f l r rows more R Hf I IH]; [reflexivity| |].
  - cbn [includes]. destruct (String.eqb_spec (substring 0 8 r) "#include") as [E|E]; [|exact IH].
    apply prefix8 in E. destruct E as [t ->]. exfalso. exact (N t eq_refl).
  - destruct R as (w & s & t & -> & Bw & Nw & Hs & G & Wf & Q & S).
    assert (E0 : forall z, String.eqb (substring 0 8 ("#include" ++ z)) "#include" = true).
    { intro z. cbn. replace (substring 0 0 z) with "" by (destruct z; reflexivity). reflexivity. }
    cbn [includes]. rewrite E0.
    assert (E1 : split ("#include" ++ w ++ """" ++ f ++ """" ++ s ++ t) = "#include" :: (String """" (f ++ String """" s)) :: split t).
    { rewrite split_word; [|exact word_sharp|apply gap_blank; assumption]. rewrite split_blank by exact Bw. f_equal.
      assert (Ea : """" ++ f ++ """" ++ s ++ t = String """" (f ++ String """" s) ++ t).
      { cbn [append]. rewrite app_assoc3. cbn [append]. reflexivity. }
      rewrite Ea. apply split_word; [|exact G]. split; [discriminate|].
      assert (Wq : ~ white """"%char) by (unfold white; vm_compute; lia).
      intros c Ic. cbn in Ic. destruct Ic as [<-|Ic]; [exact Wq|]. fold chars in Ic. change (list_ascii_of_string (f ++ String """" s)) with (chars (f ++ String """" s)) in Ic. rewrite chars_app, in_app_iff in Ic.
      destruct Ic as [Ic|[<-|Ic]]; [apply (proj2 Wf); exact Ic|exact Wq|].
      destruct Hs as [-> | ->]; [destruct Ic|]. destruct Ic as [<-|[]]. apply nw. tauto. }
    rewrite E1. cbn [nth1 pbind]. rewrite (location Wf Q S Hs), Hf, IH. reflexivity.
Qed.
Lemma sharp_outside : forall f r, include_row f r -> outside r.
Proof.
  intros f r (w & s & t & -> & _). split; intros (w' & t' & B & E & _).
  - destruct w' as [|c w']; [discriminate|]. injection E as <- _. apply blank_cons in B. destruct B as [B _]. unfold white in B. vm_compute in B. lia.
  - destruct w' as [|c w']; [discriminate|]. injection E as <- _. apply blank_cons in B. destruct B as [B _]. unfold white in B. vm_compute in B. lia.
Qed.
End I.
