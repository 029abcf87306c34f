(** Lemmas on attributes, phases and texts, for the proofs about Reader.parse. *)
From Coq Require Import Reals ZArith String Ascii List Bool Lia Arith.
From Verif Require Import PyExc Components UnbalancedLine GlmText SpecGlm GlmBase LineImpedance ThreePhase GlmReader SpecReader.
Import ListNotations.
Local Open Scope string_scope.
Set Implicit Arguments.

(** *** dictionaries *)
Lemma dget_app : forall A k (l : list (string * A)) v r, ~ In k (map fst l) -> dget k (l ++ (k, v) :: r)%list = Some v.
Proof.
  induction l as [| [k' v'] l IH]; intros v r H; cbn in *.
  - now rewrite String.eqb_refl.
  - destruct (String.eqb_spec k k'); [subst; tauto |]. apply IH. tauto.
Qed.
Lemma dget_none : forall A k (l : list (string * A)), dget k l = None <-> ~ In k (map fst l).
Proof.
  induction l as [| [k' v'] l IH]; cbn; [tauto |].
  destruct (String.eqb_spec k k'); [subst; split; [discriminate | tauto] |]. rewrite IH. firstorder congruence.
Qed.
Lemma dget_some : forall A k (l : list (string * A)) v,
  dget k l = Some v <-> exists a b, l = (a ++ (k, v) :: b)%list /\ ~ In k (map fst a).
Proof.
  intros A k l v. split.
  - induction l as [| [k' v'] l IH]; cbn; [discriminate |].
    destruct (String.eqb_spec k k').
    + intros H. injection H as <-. subst k'. exists [], l. cbn. tauto.
    + intros H. destruct (IH H) as (a & b & -> & Hn). exists ((k', v') :: a), b. cbn. split; [easy |]. intros [? | ?]; [congruence | tauto].
  - intros (a & b & -> & Hn). now apply dget_app.
Qed.
Lemma gattr_says : forall o k t, gattr o k = Some t <-> says o k t.
Proof. intros. apply dget_some. Qed.
Lemma gattr_silent : forall o k, gattr o k = None <-> silent o k.
Proof. intros. apply dget_none. Qed.
Lemma says_fun : forall o k t t', says o k t -> says o k t' -> t = t'.
Proof. intros o k t t' H H'. apply gattr_says in H, H'. congruence. Qed.
Lemma says_silent : forall o k t, says o k t -> silent o k -> False.
Proof. intros o k t H H'. apply gattr_says in H. apply gattr_silent in H'. congruence. Qed.

Lemma dget_dset : forall A k k' (v : A) l, dget k (dset k' v l) = if String.eqb k k' then Some v else dget k l.
Proof.
  induction l as [| [k2 v2] l IH]; cbn.
  - destruct (String.eqb_spec k k'); reflexivity.
  - destruct (String.eqb_spec k' k2); cbn.
    + subst. destruct (String.eqb_spec k k2); reflexivity.
    + rewrite IH. destruct (String.eqb_spec k k2), (String.eqb_spec k k'); subst; congruence.
Qed.
Lemma gattr_set : forall o k k' v, gattr (gset_raw o k v) k' = if String.eqb k' k then Some v else gattr o k'.
Proof. intros. apply dget_dset. Qed.
Lemma dset_keys : forall A k (v : A) l, In k (map fst l) -> map fst (dset k v l) = map fst l.
Proof.
  induction l as [| [k2 v2] l IH]; cbn; [tauto |]. intros H.
  destruct (String.eqb_spec k k2); cbn; [now subst |]. f_equal. apply IH. destruct H; [congruence | assumption].
Qed.
Lemma dget_in : forall A k (v : A) l, dget k l = Some v -> In k (map fst l).
Proof.
  intros A k v l H. destruct (in_dec string_dec k (map fst l)) as [h | h]; [exact h |].
  apply dget_none in h. congruence.
Qed.

(** *** mem, letters *)
Lemma mem_iff : forall k l, GlmText.mem k l = true <-> In k l.
Proof.
  intros k l. unfold GlmText.mem. rewrite existsb_exists. split.
  - intros (x & Hx & E). apply String.eqb_eq in E. now subst.
  - intros H. exists k. now rewrite String.eqb_refl.
Qed.
Lemma letters_chars : forall s, letters s = map chr (chars s).
Proof. induction s; cbn; [reflexivity | now f_equal]. Qed.
Lemma chr_inj : forall a b, chr a = chr b -> a = b.
Proof. intros a b H. now injection H. Qed.
Lemma in_letters : forall c s, In (chr c) (letters s) <-> In c (chars s).
Proof.
  intros c s. rewrite letters_chars, in_map_iff. split.
  - intros (x & E & H). apply chr_inj in E. now subst.
  - eauto.
Qed.

(** *** strip *)
Definition allf (f : ascii -> bool) (s : string) : Prop := forall c, In c (chars s) -> f c = true.
Lemma lstrip_all : forall f w s, allf f w -> lstrip f (w ++ s) = lstrip f s.
Proof.
  induction w as [| c w IH]; intros s H; [reflexivity |]. cbn [String.append lstrip].
  rewrite (H c) by (cbn; tauto). apply IH. intros d Hd. apply H. cbn. tauto.
Qed.
Lemma lstrip_stop : forall f c s, f c = false -> lstrip f (String c s) = String c s.
Proof. intros f c s H. cbn. now rewrite H. Qed.
Lemma rstrip_all : forall f w, allf f w -> rstrip f w = "".
Proof.
  induction w as [| c w IH]; intros H; [reflexivity |]. cbn.
  rewrite IH by (intros d Hd; apply H; cbn; tauto). now rewrite (H c) by (cbn; tauto).
Qed.
Lemma rstrip_tail : forall f a w, allf f w -> rstrip f (a ++ w) = rstrip f a.
Proof.
  induction a as [| c a IH]; intros w H; cbn [String.append]; [now apply rstrip_all |]. cbn. now rewrite IH.
Qed.
Lemma rstrip_stop : forall f a c, f c = false -> rstrip f (a ++ String c "") = a ++ String c "".
Proof.
  induction a as [| d a IH]; intros c H; cbn [String.append].
  - cbn. now rewrite H.
  - cbn. rewrite IH by exact H. destruct a; reflexivity.
Qed.
Lemma string_last : forall s, s <> "" -> exists a c, s = a ++ String c "".
Proof.
  induction s as [| c s IH]; [congruence |]. intros _. destruct s as [| d s].
  - exists "", c. reflexivity.
  - destruct IH as (a & e & E); [congruence |]. exists (String c a), e. cbn. now rewrite E.
Qed.
Lemma allf_rep : forall c n, allf (Ascii.eqb c) (rep c n).
Proof.
  induction n as [| n IH]; intros d H; cbn in H; [tauto |]. destruct H as [<- | H]; [now rewrite Ascii.eqb_refl | now apply IH].
Qed.
(** a string that neither starts nor ends with c *)
Lemma strip_none : forall c s, (forall r, s <> String c r) -> (forall r, s <> r ++ String c "") -> strip_by (Ascii.eqb c) s = s.
Proof.
  intros c s H1 H2. destruct s as [| d s]; [reflexivity |].
  destruct (@string_last (String d s)) as (a & e & E); [congruence |].
  unfold strip_by. rewrite E, rstrip_stop.
  2: { apply Ascii.eqb_neq. intros <-. apply (H2 a E). }
  rewrite <- E. apply lstrip_stop. apply Ascii.eqb_neq. intros <-. apply (H1 s eq_refl).
Qed.
Lemma strip_both : forall c n m s, (s = "" \/ (forall r, s <> String c r) /\ (forall r, s <> r ++ String c "")) ->
  strip_by (Ascii.eqb c) (rep c n ++ s ++ rep c m) = s.
Proof.
  intros c n m s [-> | [H1 H2]].
  - unfold strip_by. cbn [String.append]. rewrite rstrip_tail by apply allf_rep. rewrite rstrip_all by apply allf_rep. reflexivity.
  - unfold strip_by. rewrite <- app_assoc3, rstrip_tail by apply allf_rep.
    rewrite <- (strip_none H1 H2) at 2. unfold strip_by.
    destruct s as [| d s].
    + rewrite app_nil, rstrip_all by apply allf_rep. reflexivity.
    + destruct (@string_last (String d s)) as (a & e & E); [congruence |].
      assert (He : (c =? e)%char = false) by (apply Ascii.eqb_neq; intros <-; apply (H2 a E)).
      rewrite E, <- app_assoc3, !rstrip_stop, app_assoc3 by exact He. apply lstrip_all, allf_rep.
Qed.
Lemma rep_snoc : forall c n, rep c (S n) = rep c n ++ String c "".
Proof. induction n as [| n IH]; [reflexivity |]. cbn [rep String.append] in *. now rewrite IH at 1. Qed.
Lemma snoc_inj : forall a b c d, a ++ String c "" = b ++ String d "" -> a = b /\ c = d.
Proof.
  induction a as [| x a IH]; intros [| y b] c d H; cbn in H; injection H; intros.
  - now subst.
  - destruct b; discriminate.
  - destruct a; discriminate.
  - destruct (IH b c d) as [-> ->]; [easy |]. now subst.
Qed.
Lemma clean_wrapped : forall core s, wrapped core s -> clean_phases s = core.
Proof.
  intros core s (q1 & b1 & b2 & q2 & -> & H1 & H2). unfold clean_phases.
  rewrite <- (app_assoc3 (rep "|" b1)), <- (app_assoc3 (rep "|" b1 ++ core)), (app_assoc3 (rep "|" b1)).
  rewrite strip_both.
  - apply strip_both. right. split; intros r E; [exact (proj1 (H1 r) E) | exact (proj1 (H2 r) E)].
  - right. split; intros r E.
    + destruct b1; cbn in E; [| discriminate]. destruct core as [| c core]; cbn in E.
      * destruct b2; discriminate.
      * injection E as -> _. now apply (proj2 (H1 core)).
    + destruct b2.
      * cbn [rep] in E. rewrite app_nil in E. destruct core as [| c core].
        -- rewrite app_nil in E. destruct b1; [destruct r; discriminate |]. rewrite rep_snoc in E. apply snoc_inj in E. destruct E as [_ E]. discriminate E.
        -- destruct (@string_last (String c core)) as (a & e & E'); [congruence |]. rewrite E', <- app_assoc3 in E.
           apply snoc_inj in E. destruct E as [_ ->]. now apply (proj2 (H2 a)).
      * rewrite rep_snoc, <- !app_assoc3 in E. apply snoc_inj in E. destruct E as [_ E]. discriminate E.
Qed.
(** *** substrings of one character *)
Lemma contains_char : forall c s, contains (String c "") s = true <-> In c (chars s).
Proof.
  intros c s. unfold contains. induction s as [| d s IH].
  - cbn. split; [discriminate | tauto].
  - cbn [chars list_ascii_of_string In]. cbn [index]. 
    destruct (prefix (String c "") (String d s)) eqn:P.
    + cbn in P. destruct (ascii_dec c d); [| discriminate]. subst. tauto.
    + cbn in P. destruct (ascii_dec c d) as [| n]; [destruct s; discriminate |].
      rewrite <- IH. destruct (index 0 (String c "") s); split; try tauto; try discriminate.
      intros [<- | H]; [congruence | exact H].
Qed.
Lemma digits_idem : forall s, digits (digits s) = digits s.
Proof. induction s as [| c s IH]; [reflexivity |]. cbn. destruct (numchar c) eqn:H; cbn; now rewrite ?H, ?IH. Qed.
Lemma digits_chars : forall s c, In c (chars (digits s)) -> numchar c = true.
Proof.
  induction s as [| d s IH]; cbn; [tauto |]. intros c. destruct (numchar d) eqn:H; cbn; [intros [<- | ?]; auto | auto].
Qed.
Lemma prefix_in : forall a s c, prefix (String c a) s = true -> In c (chars s).
Proof. intros a [| d s] c; cbn; [discriminate |]. destruct (ascii_dec c d); [subst; tauto | discriminate]. Qed.
Lemma contains_first : forall c a s, contains (String c a) s = true -> In c (chars s).
Proof.
  intros c a s. unfold contains. induction s as [| d s IH]; [cbn; discriminate |].
  cbn [index]. destruct (prefix (String c a) (String d s)) eqn:P; intros H.
  - apply (prefix_in _ _ _ P).
  - cbn. right. apply IH. destruct (index 0 (String c a) s); [reflexivity | exact H].
Qed.
(** a text of digits contains no unit *)
Lemma contains_digits : forall c a s, numchar c = false -> contains (String c a) (digits s) = false.
Proof.
  intros c a s H. destruct (contains (String c a) (digits s)) eqn:E; [| reflexivity].
  apply contains_first in E. apply digits_chars in E. congruence.
Qed.
(** *** results *)
Lemma bind_ok : forall A B (m : pres A) (f : A -> pres B) b, (do x <- m; f x) = Ok b -> exists a, m = Ok a /\ f a = Ok b.
Proof. intros A B [a | e] f b H; [eauto | discriminate]. Qed.
Lemma check_ok : forall A b e (m : pres A) x, (check b else e; m) = Ok x -> b = true /\ m = Ok x.
Proof. intros A [] e m x H; [auto | discriminate]. Qed.
Lemma fl_ok : forall E s r, fl E s = Ok r <-> p_float E s = Some r.
Proof. intros E s r. unfold fl. destruct (p_float E s); split; congruence. Qed.
Lemma cx_ok : forall E s r, cx E s = Ok r <-> p_complex E s = Some r.
Proof. intros E s r. unfold cx. destruct (p_complex E s); split; congruence. Qed.
Lemma fattr_ok : forall E o k r, fattr E o k = Ok r ->
  (r = None /\ silent o k) \/ exists v, r = Some v /\ number E o k v.
Proof.
  intros E o k r. unfold fattr. destruct (gattr o k) as [s |] eqn:G.
  - intros H. apply bind_ok in H. destruct H as (v & Hv & H). injection H as <-. apply fl_ok in Hv.
    right. exists v. split; [reflexivity |]. exists s. split; [now apply gattr_says | exact Hv].
  - intros H. injection H as <-. left. split; [reflexivity | now apply gattr_silent].
Qed.
Lemma cattr_ok : forall E o k r, cattr E o k = Ok r ->
  (r = None /\ silent o k) \/ exists v, r = Some v /\ complex E o k v.
Proof.
  intros E o k r. unfold cattr. destruct (gattr o k) as [s |] eqn:G.
  - intros H. apply bind_ok in H. destruct H as (v & Hv & H). injection H as <-. apply cx_ok in Hv.
    right. exists v. split; [reflexivity |]. exists s. split; [now apply gattr_says | exact Hv].
  - intros H. injection H as <-. left. split; [reflexivity | now apply gattr_silent].
Qed.
Lemma number_fun : forall E o k v v', number E o k v -> number E o k v' -> v = v'.
Proof. intros E o k v v' (t & H & F) (t' & H' & F'). rewrite (says_fun H H') in F. congruence. Qed.
Lemma complex_fun : forall E o k v v', complex E o k v -> complex E o k v' -> v = v'.
Proof. intros E o k v v' (t & H & F) (t' & H' & F'). rewrite (says_fun H H') in F. congruence. Qed.
Lemma complex0_some : forall E o k v v', complex E o k v -> complex0 E o k v' -> v = v'.
Proof. intros E o k v v' H [[Hs _] | H']; [destruct H as (t & H & _); destruct (says_silent H Hs) | eapply complex_fun; eauto]. Qed.
Lemma complex0_none : forall E o k v, silent o k -> complex0 E o k v -> v = (0%R, 0%R).
Proof. intros E o k v Hs [[_ H] | (t & H & _)]; [exact H | destruct (says_silent H Hs)]. Qed.
Lemma mfold_app : forall S X (f : S -> X -> pres S) a b s, mfold f (a ++ b)%list s = do s' <- mfold f a s; mfold f b s'.
Proof. induction a as [| x a IH]; intros b s; cbn; [reflexivity |]. destruct (f s x); cbn; [apply IH | reflexivity]. Qed.
