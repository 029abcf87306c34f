(** Lemmas on the string operations of GlmText. *)
From Coq Require Import String Ascii List Bool Arith Lia ZArith.
From Verif Require Import PyExc GlmText SpecGlm.
Import ListNotations.
Local Open Scope string_scope.
Set Implicit Arguments.

Lemma app_assoc3 : forall a b c : string, (a ++ b) ++ c = a ++ b ++ c.
Proof. induction a; intros; cbn; [reflexivity|]. f_equal. apply IHa. Qed.
Lemma app_nil : forall a : string, a ++ "" = a.
Proof. induction a; cbn; [reflexivity|]. f_equal. exact IHa. Qed.
Lemma chars_app : forall a b, chars (a ++ b) = (chars a ++ chars b)%list.
Proof. induction a; intros; cbn; [reflexivity|]. f_equal. apply IHa. Qed.
Lemma chars_inj : forall a b, chars a = chars b -> a = b.
Proof. intros a b H. rewrite <- (string_of_list_ascii_of_string a), <- (string_of_list_ascii_of_string b). unfold chars in H. rewrite H. reflexivity. Qed.

Lemma is_ws_iff : forall c, is_ws c = true <-> white c.
Proof.
  intro c. unfold is_ws, white. set (n := nat_of_ascii c). clearbody n.
  split.
  - intro H. do 33 (destruct n as [|n]; [try discriminate; lia|]). discriminate.
  - intro H. do 33 (destruct n as [|n]; [try reflexivity; lia|]). lia.
Qed.
Lemma is_ws_false : forall c, is_ws c = false <-> ~ white c.
Proof. intro c. rewrite <- is_ws_iff. destruct (is_ws c); split; congruence. Qed.

Lemma blank_nil : blank "".
Proof. intros c []. Qed.
Lemma blank_cons : forall c s, blank (String c s) <-> white c /\ blank s.
Proof.
  intros c s. split.
  - intro H. split; [apply H; left; reflexivity|]. intros d Hd. apply H. right. exact Hd.
  - intros [Hc Hs] d [<-|Hd]; [exact Hc|apply Hs; exact Hd].
Qed.
Lemma blank_app : forall a b, blank (a ++ b) <-> blank a /\ blank b.
Proof.
  induction a; intro b; cbn.
  - split; [intro H; split; [apply blank_nil|exact H]|tauto].
  - rewrite !blank_cons, IHa. tauto.
Qed.
Definition nonwhite (s : string) : Prop := forall c, In c (chars s) -> ~ white c.
Lemma nonwhite_cons : forall c s, nonwhite (String c s) <-> ~ white c /\ nonwhite s.
Proof.
  intros c s. split.
  - intro H. split; [apply H; left; reflexivity|]. intros d Hd. apply H. right. exact Hd.
  - intros [Hc Hs] d [<-|Hd]; [exact Hc|apply Hs; exact Hd].
Qed.
Lemma free_cons : forall c d s, free c (String d s) <-> d <> c /\ free c s.
Proof. intros. unfold free. cbn. tauto. Qed.
Lemma free_app : forall c a b, free c (a ++ b) <-> free c a /\ free c b.
Proof. intros. unfold free. rewrite chars_app, in_app_iff. tauto. Qed.

(** stripping *)
Lemma lstrip_blank : forall w s, blank w -> lstrip is_ws (w ++ s) = lstrip is_ws s.
Proof.
  induction w; intros s H; cbn; [reflexivity|]. apply blank_cons in H. destruct H as [Hc Hw].
  apply is_ws_iff in Hc. rewrite Hc. apply IHw. exact Hw.
Qed.
Lemma rstrip_blank : forall w, blank w -> rstrip is_ws w = "".
Proof.
  induction w; intro H; cbn; [reflexivity|]. apply blank_cons in H. destruct H as [Hc Hw].
  rewrite (IHw Hw). apply is_ws_iff in Hc. rewrite Hc. reflexivity.
Qed.
Lemma rstrip_app_blank : forall a w, blank w -> rstrip is_ws (a ++ w) = rstrip is_ws a.
Proof.
  induction a; intros w H; cbn; [apply rstrip_blank; exact H|]. rewrite (IHa w H). reflexivity.
Qed.
Lemma rstrip_app : forall a b, rstrip is_ws b <> "" -> rstrip is_ws (a ++ b) = a ++ rstrip is_ws b.
Proof.
  induction a; intros b H; cbn; [reflexivity|]. rewrite (IHa b H).
  destruct (a0 ++ rstrip is_ws b) eqn:E; [|reflexivity].
  destruct a0; cbn in E; [contradiction|discriminate].
Qed.
Lemma rstrip_cons : forall c s, ~ white c -> rstrip is_ws (String c s) = String c (rstrip is_ws s).
Proof.
  intros c s H. cbn. destruct (rstrip is_ws s); [|reflexivity]. apply is_ws_false in H. rewrite H. reflexivity.
Qed.
(** every string is blanks, its stripped form, blanks *)
Lemma rstrip_decomp : forall s, exists w, s = rstrip is_ws s ++ w /\ blank w.
Proof.
  induction s as [|c s [w [E B]]].
  - exists "". split; [reflexivity|apply blank_nil].
  - cbn. destruct (rstrip is_ws s) as [|d t] eqn:R.
    + destruct (is_ws c) eqn:W.
      * exists (String c w). cbn in E. cbn. split; [rewrite <- E; reflexivity|]. apply blank_cons. split; [apply is_ws_iff; exact W|exact B].
      * exists w. cbn in E. cbn. split; [rewrite <- E; reflexivity|exact B].
    + exists w. split; [cbn; f_equal; exact E|exact B].
Qed.
Lemma rstrip_idem : forall s, rstrip is_ws (rstrip is_ws s) = rstrip is_ws s.
Proof.
  intro s. destruct (rstrip_decomp s) as [w [E B]]. rewrite E at 2. rewrite rstrip_app_blank; [reflexivity|exact B].
Qed.
Lemma lstrip_app_nonblank : forall a b, lstrip is_ws a <> "" -> lstrip is_ws (a ++ b) = lstrip is_ws a ++ b.
Proof.
  induction a; intros b H; cbn in *; [contradiction|]. destruct (is_ws a) eqn:W; [apply IHa; exact H|]. reflexivity.
Qed.
Lemma lstrip_rstrip_comm : forall s, lstrip is_ws (rstrip is_ws s) = rstrip is_ws (lstrip is_ws s).
Proof.
  induction s; [reflexivity|]. cbn. destruct (is_ws a) eqn:W.
  - destruct (rstrip is_ws s) eqn:R.
    + rewrite <- IHs. reflexivity.
    + cbn [lstrip]. rewrite W. rewrite <- IHs. reflexivity.
  - apply is_ws_false in W. rewrite rstrip_cons; [|exact W]. apply is_ws_false in W.
    destruct (rstrip is_ws s) eqn:R; cbn; rewrite W; reflexivity.
Qed.
Lemma strip_pad : forall w1 s w2, blank w1 -> blank w2 -> strip (w1 ++ s ++ w2) = strip s.
Proof.
  intros w1 s w2 H1 H2. unfold strip, strip_by. rewrite <- app_assoc3, rstrip_app_blank; [|exact H2].
  rewrite !lstrip_rstrip_comm, lstrip_blank; [reflexivity|exact H1].
Qed.

(** cutting *)
Lemma cut_comment_nil_iff : forall s, no_comment s -> cut_comment s = s.
Proof.
  induction s; intro H; [reflexivity|].
  assert (Hs : no_comment s) by (intros x y E; apply (H (String a x) y); cbn; f_equal; exact E).
  cbn [cut_comment]. rewrite (IHs Hs).
  destruct (Ascii.eqb_spec a "/") as [->|N].
  - destruct s as [|d s']; [reflexivity|]. destruct (Ascii.eqb_spec d "/") as [->|N'].
    + exfalso. apply (H "" s'). reflexivity.
    + destruct d as [[] [] [] [] [] [] [] []]; try reflexivity. exfalso. apply N'. reflexivity.
  - destruct a as [[] [] [] [] [] [] [] []]; try reflexivity. exfalso. apply N. reflexivity.
Qed.
Lemma cut_comment_cons : forall c s, (c <> "/"%char \/ forall r, s <> String "/" r) ->
  cut_comment (String c s) = String c (cut_comment s).
Proof.
  intros c s H. cbn [cut_comment]. destruct (Ascii.eqb_spec c "/") as [->|N].
  - destruct H as [H|H]; [contradiction|]. destruct s as [|d s']; [reflexivity|].
    destruct (Ascii.eqb_spec d "/") as [->|N']; [exfalso; apply (H s'); reflexivity|].
    destruct d as [[] [] [] [] [] [] [] []]; try reflexivity. exfalso. apply N'. reflexivity.
  - destruct c as [[] [] [] [] [] [] [] []]; try reflexivity. exfalso. apply N. reflexivity.
Qed.
Lemma cut_comment_app : forall a b, no_comment a -> (forall r, b <> String "/" r) ->
  cut_comment (a ++ b) = a ++ cut_comment b.
Proof.
  induction a; intros b H Hb; [reflexivity|].
  assert (Hs : no_comment a0) by (intros x y E; apply (H (String a x) y); cbn; f_equal; exact E).
  cbn [append]. rewrite cut_comment_cons; [f_equal; apply IHa; assumption|].
  destruct (Ascii.eqb_spec a "/") as [->|N]; [|left; exact N]. right. intros r E.
  destruct a0 as [|d a1]; cbn in E; [exact (Hb r E)|]. injection E as -> E. apply (H "" a1). reflexivity.
Qed.
Lemma cut_comment_slash : forall c, cut_comment ("//" ++ c) = "".
Proof. reflexivity. Qed.
Lemma cut_at_free : forall c s, free c s -> cut_at c s = s.
Proof.
  induction s; intro H; [reflexivity|]. apply free_cons in H. destruct H as [Ha Hs]. cbn.
  destruct (Ascii.eqb_spec a c); [contradiction|]. f_equal. apply IHs. exact Hs.
Qed.
Lemma cut_at_app : forall c a b, free c a -> cut_at c (a ++ b) = a ++ cut_at c b.
Proof.
  induction a; intros b H; [reflexivity|]. apply free_cons in H. destruct H as [Ha Hs]. cbn.
  destruct (Ascii.eqb_spec a c); [contradiction|]. f_equal. apply IHa. exact Hs.
Qed.
Lemma cut_at_hit : forall c b, cut_at c (String c b) = "".
Proof. intros. cbn. rewrite Ascii.eqb_refl. reflexivity. Qed.

(** words *)
Lemma split_blank : forall w s, blank w -> split (w ++ s) = split s.
Proof.
  induction w; intros s H; [reflexivity|]. apply blank_cons in H. destruct H as [Hc Hw].
  apply is_ws_iff in Hc. unfold split at 1. cbn. rewrite Hc. cbn. change (split (w ++ s) = split s). apply IHw. exact Hw.
Qed.
Lemma split_blank_nil : forall w, blank w -> split w = [].
Proof. intros w H. rewrite <- (app_nil w), split_blank; [reflexivity|exact H]. Qed.
Lemma split2_word : forall k t, nonwhite k -> gap t -> split2 (k ++ t) = (k, split t).
Proof.
  induction k; intros t H G.
  - cbn. destruct G as [->|(c & t' & -> & W)]; [reflexivity|]. apply is_ws_iff in W. unfold split. cbn. rewrite W. reflexivity.
  - apply nonwhite_cons in H. destruct H as [Ha Hk]. apply is_ws_false in Ha. cbn. rewrite Ha, (IHk t Hk G). reflexivity.
Qed.
Lemma split_word : forall k t, word k -> gap t -> split (k ++ t) = k :: split t.
Proof.
  intros k t [Hn Hw] G. unfold split at 1. rewrite (split2_word Hw G). cbn. destruct k; [contradiction|reflexivity].
Qed.
Lemma gap_nil : gap "".
Proof. left. reflexivity. Qed.
Lemma gap_blank : forall w s, blank w -> w <> "" -> gap (w ++ s).
Proof.
  intros [|c w] s H N; [contradiction|]. apply blank_cons in H. right. exists c, (w ++ s). split; [reflexivity|tauto].
Qed.
Lemma blank_gap : forall w, blank w -> gap w.
Proof. intros [|c w] H; [apply gap_nil|]. rewrite <- (app_nil (String c w)). apply gap_blank; [exact H|discriminate]. Qed.
Lemma unquote_iff : forall q v, unquoted q v -> unquote q = v.
Proof.
  intros q v H. apply chars_inj. rewrite H. clear H v.
  induction q; [reflexivity|]. cbn [unquote chars list_ascii_of_string filter].
  destruct (Ascii.eqb a """") eqn:E; cbn [negb]; [exact IHq|]. cbn. f_equal. exact IHq.
Qed.
Lemma colon_free : forall s, free ":" s -> colon2 s = (s, []).
Proof.
  induction s; intro H; [reflexivity|]. apply free_cons in H. destruct H as [Ha Hs]. cbn.
  destruct (Ascii.eqb_spec a ":"); [contradiction|]. rewrite (IHs Hs). reflexivity.
Qed.
Lemma colon_app : forall a b, free ":" a -> colon2 (a ++ String ":" b) = (a, fst (colon2 b) :: snd (colon2 b)).
Proof.
  induction a; intros b H; [reflexivity|]. apply free_cons in H. destruct H as [Ha Hs]. cbn [append colon2].
  destruct (Ascii.eqb_spec a ":"); [contradiction|]. rewrite (IHa b Hs). reflexivity.
Qed.
Lemma ends_app : forall c a b, b <> "" -> ends_with c (a ++ b) = ends_with c b.
Proof.
  induction a; intros b H; [reflexivity|]. cbn. rewrite (IHa b H).
  destruct (a0 ++ b) eqn:E; [|reflexivity]. destruct a0; cbn in E; [contradiction|discriminate].
Qed.
Lemma ends_free : forall c s, free c s -> ends_with c s = false.
Proof.
  induction s; intro H; [reflexivity|]. apply free_cons in H. destruct H as [Ha Hs]. cbn.
  destruct s; [destruct (Ascii.eqb_spec a c); [contradiction|reflexivity]|]. apply IHs. exact Hs.
Qed.
Lemma ends_white : forall c w, blank w -> w <> "" -> ~ white c -> ends_with c w = false.
Proof.
  intros c w B N H. apply ends_free. intro I. apply H. apply B. exact I.
Qed.
Lemma white_sp : forall c, white c -> c <> "/"%char /\ c <> "}"%char /\ c <> ";"%char.
Proof. intros c H. repeat split; intros ->; unfold white in H; vm_compute in H; lia. Qed.
Lemma blank_no_comment : forall w, blank w -> no_comment w.
Proof.
  intros w B a b E. assert (I : In "/"%char (chars w)) by (rewrite E, !chars_app; apply in_or_app; right; left; reflexivity).
  apply B in I. apply white_sp in I. destruct I as [I _]. apply I. reflexivity.
Qed.
Lemma blank_free : forall c w, blank w -> ~ white c -> free c w.
Proof. intros c w B H I. apply H, B, I. Qed.
Lemma nw : forall c, c = "/"%char \/ c = "}"%char \/ c = ";"%char \/ c = "{"%char -> ~ white c.
Proof. intros c H W. destruct H as [->|[->|[->| ->]]]; unfold white in W; vm_compute in W; lia. Qed.
