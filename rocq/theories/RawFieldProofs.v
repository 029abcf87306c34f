(** Lemmas about single rows: what is read from the columns of a record is what the layout says. *)
From Coq Require Import Reals ZArith String Ascii List Bool Lia.
From Verif Require Import PyExc RawTransformers RawParser GlmText SpecGlm GlmBase RawText SpecRawText.
Import ListNotations.
Local Open Scope string_scope.

Lemma bind_ok : forall A B (m : pres A) (f : A -> pres B) y, pbind m f = Ok y <-> exists x, m = Ok x /\ f x = Ok y.
Proof.
  intros A B [x|e] f y; cbn; split.
  - intros H. exists x. auto.
  - intros (x' & H1 & H2). injection H1 as ->. exact H2.
  - discriminate.
  - intros (x' & H1 & _). discriminate.
Qed.
Ltac unbind H := repeat (apply bind_ok in H; let x := fresh "x" in let E := fresh "E" in destruct H as (x & E & H)).

(** *** texts *)
Lemma lacks_cons : forall d c s, lacks d (String c s) <-> c <> d /\ lacks d s.
Proof.
  intros d c s. split.
  - intros H. split; [intros ->; exact (H "" s eq_refl)|]. intros a b E. apply (H (String c a) b). cbn. congruence.
  - intros [H1 H2] [|e a] b E; cbn in E; injection E; intros; subst; [congruence | eapply H2; reflexivity].
Qed.
Lemma lacks_nil : forall d, lacks d "".
Proof. intros d [|] b E; discriminate. Qed.
Lemma cut_slash : forall t u, cut_at "/" t = u <-> before_slash t u.
Proof.
  assert (A : forall t, before_slash t (cut_at "/" t)).
  { induction t as [|c t [L IH]]; cbn [cut_at]; [split; [apply lacks_nil | left; reflexivity]|].
    destruct (Ascii.eqb c "/") eqn:E.
    - apply Ascii.eqb_eq in E. subst c. split; [apply lacks_nil | right; exists t; reflexivity].
    - apply Ascii.eqb_neq in E. split; [apply lacks_cons; auto|].
      destruct IH as [IH|[k IH]]; [left; congruence | right; exists k; cbn; congruence]. }
  assert (B : forall t u v, before_slash t u -> before_slash t v -> u = v).
  { assert (C : forall u v a b, lacks "/" u -> lacks "/" v -> (a = "" \/ exists k, a = String "/" k) ->
                  (b = "" \/ exists k, b = String "/" k) -> u ++ a = v ++ b -> u = v).
    { induction u as [|c u IH]; intros [|d v] a b Lu Lv Ha Hb E; cbn in E; [reflexivity | | |].
      - destruct Ha as [->|[k ->]]; [discriminate|]. injection E as <- _. apply lacks_cons in Lv. destruct Lv. congruence.
      - destruct Hb as [->|[k ->]]; [discriminate|]. injection E as -> _. apply lacks_cons in Lu. destruct Lu. congruence.
      - injection E as -> E. apply lacks_cons in Lu. apply lacks_cons in Lv. f_equal. eapply IH; [apply Lu | apply Lv | exact Ha | exact Hb | exact E]. }
    assert (N : forall x, (x ++ "" = x)%string) by (induction x; cbn; congruence).
    intros t u v [L1 H1] [L2 H2].
    assert (E1 : exists a, t = u ++ a /\ (a = "" \/ exists k, a = String "/" k)).
    { destruct H1 as [->|[k ->]]; [exists "" | exists (String "/" k)]; rewrite ?N; eauto. }
    assert (E2 : exists a, t = v ++ a /\ (a = "" \/ exists k, a = String "/" k)).
    { destruct H2 as [->|[k ->]]; [exists "" | exists (String "/" k)]; rewrite ?N; eauto. }
    destruct E1 as (a & Ea & Ka), E2 as (b & Eb & Kb). apply (C u v a b L1 L2 Ka Kb). congruence. }
  intros t u. split; [intros <-; apply A | intros H; exact (B t _ _ (A t) H)].
Qed.
Lemma cut_row_iff : forall r0 r, Forall2 before_slash r0 r <-> r = cut_row r0.
Proof.
  intros r0 r. split.
  - induction 1 as [|t u r0 r H _ IH]; cbn; [reflexivity|]. apply cut_slash in H. unfold cut_row in IH. congruence.
  - intros ->. induction r0 as [|t r0 IH]; cbn; constructor; [apply cut_slash; reflexivity | exact IH].
Qed.
Lemma is_digit_iff : forall c, is_digit c = true <-> digit c.
Proof. intros c. unfold is_digit, digit. rewrite andb_true_iff, !Nat.leb_le. tauto. Qed.
Lemma is_digit_false : forall c, is_digit c = false <-> ~ digit c.
Proof. intros c. rewrite <- is_digit_iff, not_true_iff_false. tauto. Qed.
Lemma digits_iff : forall t, (exists ds, first_digits t = Some ds) <-> exists a c b, t = a ++ String c b /\ digit c.
Proof.
  induction t as [|c t IH]; cbn.
  - split; [intros [ds H]; discriminate | intros ([|] & c & b & H & _); discriminate].
  - destruct (is_digit c) eqn:E.
    + split; [|eauto]. intros _. exists "", c, t. split; [reflexivity | apply is_digit_iff, E].
    + rewrite IH. split.
      * intros (a & d & b & -> & D). exists (String c a), d, b. auto.
      * intros ([|e a] & d & b & H & D); cbn in H; injection H; intros; subst; [|eauto].
        apply is_digit_false in E. contradiction.
Qed.
Lemma app_nil_str : forall x : string, x ++ "" = x.
Proof. induction x; cbn; congruence. Qed.
Lemma digit_run_spec : forall t, exists b, t = digit_run t ++ b /\ (forall x c y, digit_run t = x ++ String c y -> digit c) /\
  (forall c y, b = String c y -> ~ digit c).
Proof.
  induction t as [|c t (b & E & D & N)]; cbn [digit_run].
  - exists "". split; [reflexivity|]. split; [intros [|] c y H; discriminate | intros c y H; discriminate].
  - destruct (is_digit c) eqn:Ec.
    + exists b. split; [cbn; congruence|]. split; [|exact N]. intros [|d x] e y H; cbn in H; injection H; intros; subst.
      * apply is_digit_iff, Ec.
      * eapply D; eassumption.
    + exists (String c t). split; [reflexivity|]. split; [intros [|] e y H; discriminate|].
      intros e y H. injection H as <- <-. apply is_digit_false, Ec.
Qed.
Lemma first_digits_iff : forall t ds, first_digits t = Some ds <-> first_number t ds.
Proof.
  assert (A : forall t ds, first_digits t = Some ds -> first_number t ds).
  { induction t as [|c t IH]; cbn; intros ds H; [discriminate|]. destruct (is_digit c) eqn:E.
    - injection H as <-. destruct (digit_run_spec t) as (b & Et & D & N). exists "", b. split; [cbn; congruence|]. split; [discriminate|].
      split; [intros [|] d y K; discriminate|]. split; [|exact N].
      intros [|d x] e y K; cbn in K; injection K; intros; subst; [apply is_digit_iff, E | eapply D; eassumption].
    - apply IH in H as (a & b & -> & H1 & H2 & H3 & H4). exists (String c a), b. split; [reflexivity|]. split; [exact H1|].
      split; [|auto]. intros [|d x] e y K; cbn in K; injection K; intros; subst; [apply is_digit_false, E | eapply H2; reflexivity]. }
  assert (U : forall u v a b, (forall x c y, u = x ++ String c y -> digit c) -> (forall x c y, v = x ++ String c y -> digit c) ->
     (forall c y, a = String c y -> ~ digit c) -> (forall c y, b = String c y -> ~ digit c) -> u ++ a = v ++ b -> u = v).
  { induction u as [|c u IH]; intros [|d v] a b Hu Hv Ha Hb E; cbn in E; [reflexivity | | |].
    - exfalso. exact (Ha _ _ E (Hv "" d v eq_refl)).
    - exfalso. exact (Hb _ _ (eq_sym E) (Hu "" c u eq_refl)).
    - injection E as -> E. f_equal. eapply IH; [ | | exact Ha | exact Hb | exact E].
      + intros x e y ->. exact (Hu (String d x) e y eq_refl).
      + intros x e y ->. exact (Hv (String d x) e y eq_refl). }
  intros t ds. split; [apply A|].
  intros (a & b & -> & H1 & H2 & H3 & H4). induction a as [|c a IH]; cbn [append].
  - destruct (first_digits (ds ++ b)) as [es|] eqn:E.
    + f_equal. apply A in E as (a' & b' & E & K1 & K2 & K3 & K4). destruct a' as [|c' a']; cbn in E.
      * symmetry. exact (U _ _ _ _ H3 K3 H4 K4 E).
      * destruct ds as [|d ds]; [congruence|]. cbn in E. injection E as -> _. exfalso.
        exact (K2 "" c' a' eq_refl (H3 "" c' ds eq_refl)).
    + exfalso. destruct ds as [|d ds]; [congruence|]. cbn in E. pose proof (H3 "" d ds eq_refl) as D.
      apply is_digit_iff in D. rewrite D in E. discriminate.
  - cbn [first_digits]. pose proof (H2 "" c a eq_refl) as N. apply is_digit_false in N. rewrite N. apply IH.
    intros x e y ->. exact (H2 (String c x) e y eq_refl).
Qed.
Lemma trimmed_strip : forall v, trimmed v -> strip v = v.
Proof.
  intros v [H1 H2]. unfold strip, strip_by.
  assert (W : forall c, ~ spacing c -> is_ws c = false).
  { intros c H. apply is_ws_false. exact H. }
  assert (R : rstrip is_ws v = v).
  { clear H1. induction v as [|c v IH]; [reflexivity|]. cbn. rewrite IH.
    - destruct v as [|d v]; [|reflexivity]. rewrite (W c); [reflexivity | apply (H2 c "" eq_refl)].
    - intros d r E. apply (H2 d (String c r)). cbn. congruence. }
  rewrite R. destruct v as [|c v]; [reflexivity|]. cbn. rewrite (W c); [reflexivity | exact (H1 c v eq_refl)].
Qed.

Lemma strip_trimmed : forall s, trimmed (strip s).
Proof.
  intros s. unfold strip, strip_by. rewrite lstrip_rstrip_comm. split.
  - intros c r E W. change (white c) in W. apply is_ws_iff in W.
    assert (H : forall x, rstrip is_ws (lstrip is_ws x) <> String c r); [|exact (H s E)].
    clear s E. induction x as [|d x IH]; cbn; [discriminate|]. destruct (is_ws d) eqn:D; [exact IH|]. cbn. destruct (rstrip is_ws x); [rewrite D|]; congruence.
  - intros c r E W. change (white c) in W. apply is_ws_iff in W. set (x := lstrip is_ws s) in E. clearbody x. clear s.
    revert r E. induction x as [|d x IH]; cbn; intros r E; [destruct r; discriminate|].
    destruct (rstrip is_ws x) as [|e t] eqn:R.
    + destruct (is_ws d) eqn:D; [destruct r; discriminate|]. destruct r as [|f [|g r]]; cbn in E; congruence.
    + destruct r as [|f r]; cbn in E; [congruence|]. injection E as <- E. exact (IH r E).
Qed.

(** *** fields *)
Section Fields.
Variable to_int : string -> option Z.
Variable to_float : string -> option R.
Notation legible := (legible to_int to_float).
Notation check_field := (check_field to_int to_float).
Notation check_fields := (check_fields to_int to_float).

Definition V A (conv : string -> option A) (r : row) (n : nat) (d v : A) : Prop :=
  exists t, nth_error r n = Some t /\ (t = "" /\ v = d \/ t <> "" /\ conv t = Some v).
Definition W A (conv : string -> option A) (r : row) (n : nat) (v : A) : Prop :=
  exists t, nth_error r n = Some t /\ t <> "" /\ conv t = Some v.
Definition G (r : row) (n : nat) (ty : ftype) (need : bool) : Prop :=
  exists t, nth_error r n = Some t /\ (t = "" /\ need = false \/ t <> "" /\ legible ty t).
Lemma tok_ok : forall r n t, tok r n = Ok t <-> nth_error r n = Some t.
Proof. intros r n t. unfold tok. destruct (nth_error r n); split; congruence. Qed.
Lemma parse_some : forall A (conv : string -> option A) d t v,
  parse_token conv (Some d) t = Ok v <-> (t = "" /\ v = d \/ t <> "" /\ conv t = Some v).
Proof.
  intros A conv d [|c t] v; cbn [parse_token].
  - split; [intros H; injection H as ->; auto | intros [[_ ->]|[H _]]; congruence].
  - destruct (conv (String c t)); split; try (intros [[H _]|[_ H]]); try discriminate; try congruence.
    intros H. injection H as ->. right. split; [discriminate | reflexivity].
Qed.
Lemma parse_none : forall A (conv : string -> option A) t v, parse_token conv None t = Ok v <-> (t <> "" /\ conv t = Some v).
Proof.
  intros A conv [|c t] v; cbn [parse_token].
  - split; [discriminate | intros [H _]; congruence].
  - destruct (conv (String c t)); split; try (intros [_ H]); try discriminate; try congruence.
    intros H. injection H as ->. split; [discriminate | reflexivity].
Qed.
Lemma at_some : forall A (conv : string -> option A) r n d v,
  pbind (tok r n) (fun t => parse_token conv (Some d) t) = Ok v <-> V A conv r n d v.
Proof.
  intros A conv r n d v. rewrite bind_ok. unfold V. split; intros (t & H1 & H2); exists t.
  - apply tok_ok in H1. apply parse_some in H2. auto.
  - apply tok_ok in H1. apply parse_some in H2. auto.
Qed.
Lemma at_none : forall A (conv : string -> option A) r n v,
  pbind (tok r n) (fun t => parse_token conv None t) = Ok v <-> W A conv r n v.
Proof.
  intros A conv r n v. rewrite bind_ok. unfold W. split; intros (t & H1 & H2); exists t.
  - apply tok_ok in H1. apply parse_none in H2. auto.
  - apply tok_ok in H1. apply parse_none in H2. auto.
Qed.
Definition int_some r n d v : int_at to_int r n (Some d) = Ok v <-> V Z to_int r n d v := at_some Z to_int r n d v.
Definition int_none r n v : int_at to_int r n None = Ok v <-> W Z to_int r n v := at_none Z to_int r n v.
Definition float_some r n d v : float_at to_float r n (Some d) = Ok v <-> V R to_float r n d v := at_some R to_float r n d v.
Definition float_none r n v : float_at to_float r n None = Ok v <-> W R to_float r n v := at_none R to_float r n v.
Definition str_some r n d v : str_at r n (Some d) = Ok v <-> V string Some r n d v := at_some string Some r n d v.
Definition str_none r n v : str_at r n None = Ok v <-> W string Some r n v := at_none string Some r n v.
Lemma no_default : forall r n v, int_no_default to_int r n = Ok v <-> W Z to_int r n v.
Proof.
  intros r n v. unfold int_no_default. rewrite bind_ok. unfold W. split; intros (t & H1 & H2); exists t.
  - apply tok_ok in H1. split; [exact H1|]. destruct t; [discriminate|]. apply parse_none in H2. exact H2.
  - apply tok_ok in H1. split; [exact H1|]. destruct t; [destruct H2; congruence|]. apply parse_none. exact H2.
Qed.
Definition kty (k : fkind) : ftype := match k with KInt => FInt | KFloat => FFloat | KStr => FText | KDigits => FDigits end.
Lemma check_field_ok : forall r n k opt, check_field r (n, k, opt) = Ok tt <-> G r n (kty k) (negb opt).
Proof.
  intros r n k opt. unfold RawText.check_field. rewrite bind_ok. unfold G. split; intros (t & H1 & H2); exists t; apply tok_ok in H1; (split; [exact H1|]).
  - destruct t as [|c t]; [destruct opt; [left; auto | discriminate]|]. right. split; [discriminate|].
    destruct k; cbn in *.
    + destruct (to_int (String c t)) eqn:E; [eauto | discriminate].
    + destruct (to_float (String c t)) eqn:E; [eauto | discriminate].
    + exact I.
    + apply digits_iff. cbn. destruct (if is_digit c then _ else _) as [ds|]; [eauto | discriminate].
  - destruct t as [|c t].
    + destruct H2 as [[_ H]|[H _]]; [|congruence]. destruct opt; [reflexivity | discriminate].
    + destruct H2 as [[H _]|[_ H]]; [discriminate|]. destruct k; cbn in *.
      * destruct H as [v ->]. reflexivity.
      * destruct H as [v ->]. reflexivity.
      * reflexivity.
      * apply digits_iff in H as [ds H]. cbn in H. rewrite H. reflexivity.
Qed.
Lemma check_fields_ok : forall r fs, check_fields r fs = Ok tt <-> Forall (fun f => G r (fst (fst f)) (kty (snd (fst f))) (negb (snd f))) fs.
Proof.
  intros r. unfold RawText.check_fields. induction fs as [|[[n k] opt] fs IH]; cbn [mfold].
  - split; [constructor | reflexivity].
  - rewrite bind_ok. split.
    + intros ([] & H1 & H2). constructor; [apply check_field_ok, H1 | apply IH, H2].
    + intros H. inversion H; subst. exists tt. split; [apply check_field_ok; assumption | apply IH; assumption].
Qed.
Lemma check_fields_any : forall r fs u, check_fields r fs = Ok u <-> check_fields r fs = Ok tt.
Proof. intros r fs []. tauto. Qed.
Fixpoint goods (r : row) (n : nat) (l : list column) : Prop :=
  match l with [] => True | (_, ty, need) :: l => G r n ty need /\ goods r (S n) l end.
Lemma accepts_goods : forall l r, accepts to_int to_float l false r <-> goods r 0 l.
Proof.
  assert (A : forall l r k, (forall n name ty need, nth_error l n = Some (name, ty, need) -> G r (k + n) ty need) <-> goods r k l).
  { induction l as [|[[name ty] need] l IH]; intros r k; cbn.
    - split; [tauto|]. intros _ [|n] name ty need H; discriminate.
    - rewrite <- IH. split.
      + intros H. split.
        * specialize (H 0%nat name ty need eq_refl). rewrite Nat.add_0_r in H. exact H.
        * intros n name' ty' need' E. specialize (H (S n) name' ty' need' E). rewrite Nat.add_succ_r in H. exact H.
      + intros [H1 H2] [|n] name' ty' need' E; cbn in E.
        * injection E as <- <- <-. rewrite Nat.add_0_r. exact H1.
        * rewrite Nat.add_succ_r. exact (H2 n name' ty' need' E). }
  intros l r. rewrite <- A. unfold accepts. cbn. split; intros H n name ty need E.
  - destruct (H n name ty need E) as (t & [K|[K _]] & H2); [|discriminate]. exists t. auto.
  - destruct (H n name ty need E) as (t & K & H2). exists t. split; [left; exact K | exact H2].
Qed.
Lemma entry_V : forall A (conv : string -> option A) l r name d v, entry conv l false r name d v <-> V A conv r (pos l name) d v.
Proof.
  intros. unfold entry, V, cell. split; intros (t & H1 & H2); exists t.
  - destruct H1 as [H1|[H1 _]]; [auto | discriminate].
  - auto.
Qed.
(** rows that are filled up *)
Lemma fill_nth : forall r m n t, (n < m)%nat -> (nth_error (fill_row r m) n = Some t <-> cell true r n t).
Proof.
  intros r m n t L. unfold fill_row, cell. destruct (Nat.lt_ge_cases n (List.length r)) as [H|H].
  - rewrite nth_error_app1 by exact H. split; [auto | intros [K|[_ [K _]]]; [exact K | lia]].
  - rewrite nth_error_app2 by exact H.
    assert (E : nth_error (repeat "" (m - List.length r)) (n - List.length r) = Some "").
    { clear - L H. assert (K : forall k i, (i < k)%nat -> nth_error (repeat "" k) i = Some "").
      { induction k; intros [|i] Hi; cbn; try lia; [reflexivity | apply IHk; lia]. }
      apply K. lia. }
    rewrite E. split; [intros K; injection K as <-; auto | intros [K|[_ [_ ->]]]; [|reflexivity]].
    apply nth_error_None in H. congruence.
Qed.
Lemma accepts_fill : forall l r m, (List.length l <= m)%nat ->
  (accepts to_int to_float l true r <-> accepts to_int to_float l false (fill_row r m)).
Proof.
  intros l r m L. unfold accepts. split; intros H n name ty need E; pose proof (H n name ty need E) as (t & H1 & H2); exists t; (split; [|exact H2]).
  - left. apply fill_nth; [|exact H1]. assert (n < List.length l)%nat by (apply nth_error_Some; congruence). lia.
  - destruct H1 as [H1|[H1 _]]; [|discriminate]. apply fill_nth in H1; [exact H1|].
    assert (n < List.length l)%nat by (apply nth_error_Some; congruence). lia.
Qed.
Lemma entry_fill : forall A (conv : string -> option A) l r m name d v, (pos l name < m)%nat ->
  (entry conv l true r name d v <-> entry conv l false (fill_row r m) name d v).
Proof.
  intros A conv l r m name d v L. unfold entry. split; intros (t & H1 & H2); exists t; (split; [|exact H2]).
  - left. apply fill_nth; assumption.
  - destruct H1 as [H1|[H1 _]]; [|discriminate]. apply fill_nth in H1; assumption.
Qed.
(** relations between them *)
Lemma G_V_int : forall r n d v, V Z to_int r n d v -> G r n FInt false.
Proof. intros r n d v (t & H & [[H1 H2]|[H1 H2]]); exists t; (split; [exact H|]); [auto | right; split; [exact H1 | exists v; exact H2]]. Qed.
Lemma G_V_float : forall r n d v, V R to_float r n d v -> G r n FFloat false.
Proof. intros r n d v (t & H & [[H1 H2]|[H1 H2]]); exists t; (split; [exact H|]); [auto | right; split; [exact H1 | exists v; exact H2]]. Qed.
Lemma G_V_text : forall A (conv : string -> option A) r n d v, V A conv r n d v -> G r n FText false.
Proof. intros A conv r n d v (t & H & [[H1 H2]|[H1 H2]]); exists t; (split; [exact H|]); [auto | right; split; [exact H1 | exact I]]. Qed.
Lemma G_W_int : forall r n v b, W Z to_int r n v -> G r n FInt b.
Proof. intros r n v b (t & H & H1 & H2). exists t. split; [exact H|]. right. split; [exact H1 | exists v; exact H2]. Qed.
Lemma G_W_float : forall r n v b, W R to_float r n v -> G r n FFloat b.
Proof. intros r n v b (t & H & H1 & H2). exists t. split; [exact H|]. right. split; [exact H1 | exists v; exact H2]. Qed.
Lemma G_W_text : forall A (conv : string -> option A) r n v b, W A conv r n v -> G r n FText b.
Proof. intros A conv r n v b (t & H & H1 & H2). exists t. split; [exact H|]. right. split; [exact H1 | exact I]. Qed.
Lemma G_present : forall r n t, nth_error r n = Some t -> G r n FText false.
Proof. intros r n t H. exists t. split; [exact H|]. destruct (string_dec t ""); [auto | right; split; [assumption | exact I]]. Qed.
Lemma V_W : forall A (conv : string -> option A) r n d v, W A conv r n v -> V A conv r n d v.
Proof. intros A conv r n d v (t & H & H1 & H2). exists t. auto. Qed.
Lemma W_V : forall A (conv : string -> option A) r n d v ty, V A conv r n d v -> G r n ty true -> W A conv r n v.
Proof.
  intros A conv r n d v ty (t & H & H1) (t' & K & K1). rewrite H in K. injection K as <-. exists t. split; [exact H|].
  destruct K1 as [[_ K1]|[K1 _]]; [discriminate|]. destruct H1 as [[H1 _]|[_ H1]]; [contradiction | auto].
Qed.
Lemma G_len : forall r n ty b, G r n ty b -> (n < List.length r)%nat.
Proof. intros r n ty b (t & H & _). apply nth_error_Some. congruence. Qed.
Lemma V_trim : forall r n d v, V string Some r n d v -> Forall trimmed r -> trimmed d -> strip v = v.
Proof.
  intros r n d v (t & H & [[_ ->]|[_ H1]]) F D; apply trimmed_strip; [exact D|]. injection H1 as <-.
  apply nth_error_In in H. rewrite Forall_forall in F. auto.
Qed.
End Fields.
