From Coq Require Import Reals ZArith String Ascii List Bool Lia.
From Verif Require Import PyExc UnbalancedLine GlmText GlmBase GlmFinal LineImpedance ThreePhase GlmReader RawParser RawText SpecThreePhase SpecReader SpecReader2 SpecFile ReaderBase LineFile SpecGlm GlmProofs Loader SpecLoader.
Import ListNotations.
Local Open Scope string_scope.
Set Implicit Arguments.

(** *** names *)
Lemma app_assoc_s : forall a b c : string, (a ++ b) ++ c = a ++ b ++ c.
Proof. induction a as [| d a IH]; intros; [reflexivity |]. cbn. now rewrite IH. Qed.
Lemma app_nil_s : forall a : string, a ++ "" = a.
Proof. induction a as [| d a IH]; [reflexivity |]. cbn. now rewrite IH. Qed.
Lemma no_slash : forall s, contains "/" s = false <-> free "/" s.
Proof.
  intros s. unfold free. rewrite <- contains_char. destruct (contains "/" s); split; intros H; try reflexivity; try discriminate.
  now destruct H.
Qed.
Lemma slash_in : forall a b, contains "/" (a ++ "/" ++ b) = true.
Proof. intros. apply contains_part. exists a, b. reflexivity. Qed.
Lemma last_part_of : forall uri name, last_of uri name -> last_part uri = name.
Proof.
  intros uri name (a & -> & F). induction a as [| c a IH].
  - change ("" ++ "/" ++ name) with (String "/" name). cbn [last_part]. apply no_slash in F. rewrite F. reflexivity.
  - change ((String c a ++ "/" ++ name)) with (String c (a ++ "/" ++ name)). cbn [last_part]. now rewrite slash_in.
Qed.
Lemma last_exists : forall s, In "/"%char (chars s) -> exists name, last_of s name.
Proof.
  induction s as [| c s IH]; intros H; [destruct H |]. destruct (contains "/" s) eqn:E.
  - apply contains_char in E. destruct (IH E) as (n & a & -> & F). exists n, (String c a). split; [reflexivity | exact F].
  - assert (c = "/"%char) as ->. { destruct H as [H | H]; [now symmetry |]. apply contains_char in H. congruence. }
    exists s, "". split; [reflexivity | now apply no_slash].
Qed.
Lemma prefix_iff : forall p s, prefix p s = true <-> exists a, s = p ++ a.
Proof.
  induction p as [| c p IH]; intros s; [split; [intros _; now exists s | intros _; destruct s; reflexivity] |].
  destruct s as [| d s]; [split; [discriminate | intros (a & H); discriminate H] |]. cbn. destruct (ascii_dec c d) as [-> | N].
  - rewrite IH. split; intros (a & H); exists a; [now rewrite H | now injection H].
  - split; [discriminate |]. intros (a & H). injection H as H _. congruence.
Qed.
Lemma web_iff : forall uri, (prefix "http://" uri || prefix "https://" uri)%bool = true <-> web uri.
Proof.
  intros uri. rewrite orb_true_iff, !prefix_iff. split; [intros [(a & H) | (a & H)]; exists a; tauto | intros (a & [H | H]); [left | right]; now exists a].
Qed.
Lemma web_last : forall uri, web uri -> exists name, last_of uri name.
Proof. intros uri (a & [-> | ->]); apply last_exists; cbn; tauto. Qed.
Lemma ends_slash : forall d, GlmText.ends_with "/" d = true <-> SpecThreePhase.ends_with d "/".
Proof.
  induction d as [| c d IH]; [split; [discriminate | intros (a & H); destruct a; discriminate H] |]. destruct d as [| e d].
  - cbn. destruct (Ascii.eqb_spec c "/") as [-> | N]; split; try discriminate; try reflexivity; [now exists "" |].
    intros (a & H). destruct a as [| f a]; [injection H as H; congruence |]. injection H as _ H. destruct a; discriminate H.
  - change (GlmText.ends_with "/" (String c (String e d))) with (GlmText.ends_with "/" (String e d)). rewrite IH. split; intros (a & H).
    + exists (String c a). now rewrite H.
    + destruct a as [| f a]; [discriminate H |]. injection H as _ H. now exists a.
Qed.
Lemma join_folder : forall d name f, in_folder d name f <-> f = join d name.
Proof.
  intros d name f. unfold join, in_folder. rewrite <- ends_slash. destruct (String.eqb_spec d "") as [-> | N]; cbn [orb].
  - split; [intros [H | H]; [tauto | now destruct H] | intros ->; left; tauto].
  - destruct (GlmText.ends_with "/" d).
    + split; [intros [H | (_ & H & _)]; [tauto | now destruct H] | intros ->; left; tauto].
    + split; [intros [([H | H] & _) | H]; [congruence | discriminate H | tauto] | intros ->; right; repeat split; auto; discriminate].
Qed.
Lemma name_free : forall name, mem name [""; "."; ".."] = false <-> file_name name.
Proof.
  intros name. unfold file_name. destruct (mem name [""; "."; ".."]) eqn:E; split; intros H; try discriminate; try reflexivity.
  - apply mem_In in E. cbn in E. destruct E as [<- | [<- | [<- | []]]]; exfalso; tauto.
  - repeat split; intros ->; discriminate E.
Qed.

(** *** where the file comes from *)
Section L.
Variable T : tools.
Lemma local_pull : forall W uri l, w_file W uri = Some l -> pull W uri = Ok (uri, W).
Proof. intros W uri l H. unfold pull. now rewrite H. Qed.
Lemma local_glm : forall W uri l, w_file W uri = Some l -> told_format uri GLM ->
  (forall n, from_file T W uri = Ok (Three n) <->
     exists objs sch ms, read_glm (t_schema T) (t_over12 T) (t_mega T) (t_cron T) (w_file W) uri = Ok (objs, sch) /\
       read_store (t_prims T) sch objs = Ok ms /\ parse_three (t_inv T) (t_cap T) ms = Ok n) /\
  (forall o, from_file T W uri <> Ok (Single o)).
Proof.
  intros W uri l H F. cbn in F. apply contains_part in F. unfold from_file. rewrite (local_pull _ _ H). cbn [pbind fst snd]. rewrite F. unfold load_glm.
  destruct (read_glm (t_schema T) (t_over12 T) (t_mega T) (t_cron T) (w_file W) uri) as [[objs sch] | e]; cbn [pbind fst snd].
  - destruct (read_store (t_prims T) sch objs) as [ms | e] eqn:R; cbn [pbind].
    + destruct (parse_three (t_inv T) (t_cap T) ms) as [m | e] eqn:P; cbn [pbind].
      * split; [| discriminate]. intros n. split; [intros Q; injection Q as <-; exists objs, sch, ms; auto |].
        intros (objs' & sch' & ms' & Q & R' & P'). injection Q as <- <-. rewrite R in R'. injection R' as <-. congruence.
      * split; [| discriminate]. intros n. split; [discriminate |]. intros (objs' & sch' & ms' & Q & R' & P'). injection Q as <- <-. congruence.
    + split; [| discriminate]. intros n. split; [discriminate |]. intros (objs' & sch' & ms' & Q & R' & P'). injection Q as <- <-. congruence.
  - split; [| discriminate]. intros n. split; [discriminate |]. intros (objs' & sch' & ms' & Q & _). discriminate Q.
Qed.
Lemma local_raw : forall W uri l, w_file W uri = Some l -> told_format uri RAW ->
  (forall o, from_file T W uri = Ok (Single o) <-> load_raw (t_int T) (t_float T) l = Ok o) /\ (forall n, from_file T W uri <> Ok (Three n)).
Proof.
  intros W uri l H (F & G). apply contains_not in F. apply contains_part in G. unfold from_file. rewrite (local_pull _ _ H). cbn [pbind fst snd]. rewrite F, G.
  unfold load_RAW. rewrite H. destruct (load_raw (t_int T) (t_float T) l) as [o | e]; cbn [pbind]; split; try discriminate; intros o'; split; intros Q; try discriminate; congruence.
Qed.
Lemma local_unknown : forall W uri l, w_file W uri = Some l -> told_format uri Unknown -> from_file T W uri = Err Raised.
Proof.
  intros W uri l H (F & G). apply contains_not in F, G. unfold from_file. rewrite (local_pull _ _ H). cbn [pbind fst snd]. now rewrite F, G.
Qed.
Lemma web_file : forall W uri, w_file W uri = None -> web uri -> forall r,
  from_file T W uri = Ok r <->
  w_status W uri = Some 200%Z /\ exists name f l, last_of uri name /\ file_name name /\ in_folder (w_temp W) name f /\ w_remote W uri = Some l /\
    from_file T (written W f l) f = Ok r.
Proof.
  intros W uri N H r. destruct (web_last H) as (name & Hn). pose proof (last_part_of Hn) as P. apply web_iff in H.
  assert (X : forall l, from_file T (written W (join (w_temp W) name) l) (join (w_temp W) name) =
    (if contains ".glm" (join (w_temp W) name) then load_glm T (written W (join (w_temp W) name) l) (join (w_temp W) name)
     else if contains ".RAW" (join (w_temp W) name) then load_RAW T (written W (join (w_temp W) name) l) (join (w_temp W) name) else Err Raised)).
  { intros l. unfold from_file. rewrite (@local_pull _ _ l); [reflexivity |]. cbn. now rewrite String.eqb_refl. }
  unfold from_file at 1, pull. rewrite N, H, P. cbn [negb]. split.
  - destruct (w_status W uri) as [c |]; [| discriminate]. destruct (Z.eqb_spec c 200) as [-> |]; [| discriminate]. cbn [negb].
    destruct (mem name [""; "."; ".."]) eqn:M; [discriminate |]. destruct (w_remote W uri) as [l |]; [| discriminate]. cbn [pbind fst snd].
    intros Q. split; [reflexivity |]. exists name, (join (w_temp W) name), l. split; [exact Hn |]. split; [now apply name_free |].
    split; [now apply join_folder |]. split; [reflexivity |]. now rewrite X.
  - intros (S & name' & f & l & Hn' & M & J & R & Q). rewrite S. rewrite <- (last_part_of Hn'), P in *. cbn [Z.eqb Pos.eqb negb]. apply name_free in M.
    rewrite M, R. apply join_folder in J. subst f. cbn [pbind fst snd]. now rewrite X in Q.
Qed.
Lemma elsewhere : forall W uri, w_file W uri = None -> ~ web uri -> from_file T W uri = Err Raised.
Proof.
  intros W uri N H. unfold from_file, pull. rewrite N. destruct (prefix "http://" uri || prefix "https://" uri)%bool eqn:E; [| reflexivity].
  apply web_iff in E. contradiction.
Qed.
Lemma no_answer : forall W uri, w_file W uri = None -> w_status W uri <> Some 200%Z -> forall r, from_file T W uri <> Ok r.
Proof.
  intros W uri N S r Q. destruct (prefix "http://" uri || prefix "https://" uri)%bool eqn:E.
  - apply web_iff in E. apply (@web_file W uri N E) in Q. tauto.
  - unfold from_file, pull in Q. rewrite N, E in Q. discriminate Q.
Qed.

(** *** the objects of a text *)
Lemma text_read : forall file f os, describes file f os -> Forall (legal (t_schema T)) os ->
  read_glm (t_schema T) (t_over12 T) (t_mega T) (t_cron T) file f = Ok (fold_left put os [], []).
Proof.
  intros file f os (rows & more & os1 & os2 & Hf & Hi & F1 & F2 & ->) L. unfold read_glm. rewrite Hf, (included_ok Hi). cbn [pbind].
  rewrite Forall_app in L. destruct L as [L1 L2].
  destruct (@file_effect (t_schema T) (t_over12 T) (t_mega T) (t_cron T) os1 rows F1 g_start) as (s1 & E1 & I1 & D1 & S1); [repeat split | exact L1 |].
  destruct (@file_effect (t_schema T) (t_over12 T) (t_mega T) (t_cron T) os2 more F2 s1 I1 L2) as (s2 & E2 & I2 & D2 & S2).
  rewrite RS_app, E1. cbn [pbind]. rewrite E2. cbn [pbind]. rewrite S2, S1, D2, D1, <- fold_left_app. reflexivity.
Qed.
Lemma describes_file : forall file f os, describes file f os -> exists l, file f = Some l.
Proof. intros file f os (rows & _ & _ & _ & H & _). now exists rows. Qed.
Lemma same_text : forall W1 W2 f1 f2 os, describes (w_file W1) f1 os -> describes (w_file W2) f2 os -> Forall (legal (t_schema T)) os ->
  told_format f1 GLM -> told_format f2 GLM -> from_file T W1 f1 = from_file T W2 f2.
Proof.
  intros W1 W2 f1 f2 os D1 D2 L G1 G2. cbn in G1, G2. apply contains_part in G1, G2. destruct (describes_file D1) as (l1 & H1). destruct (describes_file D2) as (l2 & H2).
  unfold from_file. rewrite (local_pull _ _ H1), (local_pull _ _ H2). cbn [pbind fst snd]. rewrite G1, G2. unfold load_glm.
  now rewrite (text_read D1 L), (text_read D2 L).
Qed.
Lemma says_get : forall o k t, says o k t <-> dget k (go_attrs o) = Some t.
Proof.
  intros o k t. unfold says. split; [intros (l & r & E & N); rewrite E; now apply dget_app | intros H; now apply dget_some in H].
Qed.
Lemma silent_get : forall o k, silent o k <-> dget k (go_attrs o) = None.
Proof. intros o k. unfold silent. symmetry. apply dget_none. Qed.
Lemma stored_stands : forall o, name_of (snd o) <> None -> stands_for o (name_or o, stored o).
Proof.
  intros o N. destruct (stored_value o N) as (C & A). split; [| split].
  - unfold name_or. cbn [fst]. destruct (name_of (snd o)); [reflexivity | contradiction].
  - exact C.
  - intros k. cbn [snd]. split; [intros t; rewrite says_get, A; tauto | rewrite silent_get, A; tauto].
Qed.
Lemma text_objects : forall os, Forall (legal (t_schema T)) os -> NoDup (map (fun d => name_of (snd d)) os) ->
  fold_left put os [] = map (fun o => (name_or o, stored o)) os /\ Forall2 stands_for os (map (fun o => (name_or o, stored o)) os).
Proof.
  intros os L N. apply legal_named in L. split; [now rewrite put_distinct by (auto; intros o _ []) |].
  clear N. induction L as [| o os H L IH]; constructor; [now apply stored_stands | exact IH].
Qed.
Lemma stands_clean : forall os objs, Forall2 stands_for os objs -> clean_text os -> clean_file objs.
Proof.
  intros os objs F (N & C). split.
  - assert (E : map (fun d : described => name_of (snd d)) os = map (fun x => Some x) (map fst objs)).
    { clear N C. induction F as [| d no os objs (S & _) F IH]; cbn; [reflexivity |]. now rewrite S, IH. }
    assert (N' : NoDup (map (fun x => Some x) (map fst objs))) by (rewrite <- E; exact N). clear -N'. rename N' into N. induction (map fst objs) as [| x l IH]; [constructor |]. cbn in N. inversion N as [| y m A B]; subst. constructor; [| now apply IH].
    intros I. apply A. now apply in_map.
  - clear N. revert C. induction F as [| d [n o] os objs (S & K & A) F IH]; intros C; constructor.
    + inversion C as [| x l H _]; subst. cbn [fst snd] in *. destruct H as [H | (t & core & V & Wr & H)]; [left; now rewrite K |].
      right. exists core. split; [| exact H]. exists t. split; [| exact Wr]. now apply A.
    + inversion C; subst. now apply IH.
Qed.
Lemma text_net : forall W f os, describes (w_file W) f os -> Forall (legal (t_schema T)) os -> clean_text os -> told_format f GLM ->
  exists objs, Forall2 stands_for os objs /\ clean_file objs /\
    forall r, from_file T W f = Ok r <-> exists ms n, read_store (t_prims T) [] objs = Ok ms /\ parse_three (t_inv T) (t_cap T) ms = Ok n /\ r = Three n.
Proof.
  intros W f os D L C G. destruct (text_objects L (proj1 C)) as (E & F). eexists. split; [exact F |]. split; [exact (stands_clean F C) |].
  destruct (describes_file D) as (l & H). destruct (@local_glm W f l H G) as (A & B). pose proof (text_read D L) as R. rewrite E in R. rewrite R in A.
  intros r. split.
  - destruct r as [n | o]; [| intros Q; now apply B in Q]. intros Q. apply A in Q. destruct Q as (objs & sch & ms & Q & S & P). injection Q as <- <-. exists ms, n. auto.
  - intros (ms & n & S & P & ->). apply A. eexists _, [], ms. eauto.
Qed.
End L.
