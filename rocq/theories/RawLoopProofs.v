(** Lemmas about the sections of a RAW file. *)
From Coq Require Import Reals ZArith String Ascii List Bool Lia.
From Verif Require Import PyExc RawTransformers RawParser GlmText RawText SpecRawText RawKeyProofs RawFieldProofs RawRecordProofs RawRecordProofs2
  RawRecordProofs3 RawRecordProofs4 RawRecordProofs5.
Import ListNotations.
Local Open Scope string_scope.

(** *** rows *)
Lemma join_spread : forall r, join r = spread r.
Proof. induction r as [|t [|u r] IH]; cbn; [reflexivity | rewrite app_nil_str; reflexivity |]. cbn in IH. rewrite IH. reflexivity. Qed.
Lemma cut_blank_slash_cons : forall c r, (exists s, String c r = " /" ++ s) /\ cut_blank_slash (String c r) = "" \/
  (forall s, String c r <> " /" ++ s) /\ cut_blank_slash (String c r) = String c (cut_blank_slash r).
Proof.
  intros c r. destruct (ascii_dec c " ") as [->|N].
  - destruct r as [|d r]; [right; split; [discriminate | reflexivity]|].
    destruct (ascii_dec d "/") as [->|N]; [left; split; [exists r; reflexivity | reflexivity]|].
    right. split; [intros s E; injection E as -> _; congruence|].
    destruct d as [[] [] [] [] [] [] [] []]; try reflexivity; exfalso; apply N; reflexivity.
  - right. split; [intros s E; injection E as -> _; congruence|].
    destruct c as [[] [] [] [] [] [] [] []]; try reflexivity; exfalso; apply N; reflexivity.
Qed.
Lemma section_end_iff : forall r, section_end r = true <-> end_row r.
Proof.
  intros r. unfold section_end, end_row. rewrite String.eqb_eq, join_spread. generalize (spread r) as s. clear r. intros s. split.
  - destruct s as [|c s]; [discriminate|]. intros H.
    destruct (cut_blank_slash_cons c s) as [[_ E]|[N E]]; rewrite E in H; [discriminate|]. injection H as -> H.
    destruct s as [|d s]; [left; reflexivity|]. right.
    destruct (cut_blank_slash_cons d s) as [[[k K] _]|[_ E2]]; [exists k; rewrite K; reflexivity|]. rewrite E2 in H. discriminate.
  - intros [->|[c ->]]; reflexivity.
Qed.
Lemma section_end_false : forall r, section_end r = false <-> ~ end_row r.
Proof. intros r. rewrite <- section_end_iff, not_true_iff_false. tauto. Qed.
Lemma end_row_head : forall r, end_row r -> exists t ts, r = String "0" t :: ts.
Proof.
  intros [|[|c t] ts] H.
  - destruct H as [H|[c H]]; discriminate.
  - destruct ts; destruct H as [H|[c H]]; discriminate.
  - exists t, ts. destruct H as [H|[k H]]; cbn in H; injection H as -> _; reflexivity.
Qed.
Lemma is_at_true : forall r, is_at r = Ok true <-> comment_row r.
Proof.
  intros [|[|c t] ts]; cbn; (split; [intros H; try discriminate | intros (t' & ts' & H); try discriminate]).
  - injection H as H. apply Ascii.eqb_eq in H. subst c. exists t, ts. reflexivity.
  - injection H as -> _ _. reflexivity.
Qed.
Lemma is_at_false : forall r, is_at r = Ok false <-> named_row r /\ ~ comment_row r.
Proof.
  intros r. rewrite <- is_at_true. destruct r as [|[|c t] ts]; cbn.
  - split; [discriminate | intros [(c & t & ts & H) _]; discriminate].
  - split; [discriminate | intros [(c & t & ts' & H) _]; discriminate].
  - split.
    + intros H. split; [exists c, t, ts; reflexivity | congruence].
    + intros [_ H]. destruct (Ascii.eqb c "@"); [congruence | reflexivity].
Qed.
Lemma file_end_named : forall r, named_row r -> (file_end r = Ok true <-> quit_row r).
Proof.
  intros r (c & t & ts & ->). cbn. split.
  - intros H. injection H as H. apply orb_true_iff in H as [H|H]; apply Ascii.eqb_eq in H; subst c; exists t, ts; auto.
  - intros (t' & ts' & [H|H]); injection H as -> _ _; reflexivity.
Qed.
Lemma file_end_false : forall r, file_end r = Ok false <-> named_row r /\ ~ quit_row r.
Proof.
  intros [|[|c t] ts].
  - cbn. split; [discriminate | intros [(c & t & ts & H) _]; discriminate].
  - cbn. split; [discriminate | intros [(c & t & ts' & H) _]; discriminate].
  - assert (N : named_row (String c t :: ts)) by (exists c, t, ts; reflexivity). rewrite <- (file_end_named _ N). cbn.
    destruct (Ascii.eqb c "q" || Ascii.eqb c "Q")%bool; split; try congruence; try (intros [_ H]; congruence). intros _. split; [exact N | congruence].
Qed.
Lemma quit_named : forall r, quit_row r -> named_row r /\ ~ comment_row r.
Proof.
  intros r (t & ts & [-> | ->]); (split; [eexists _, _, _; reflexivity | intros (t' & ts' & H); discriminate]).
Qed.
Lemma end_named : forall r, end_row r -> named_row r /\ ~ comment_row r /\ ~ quit_row r.
Proof.
  intros r H. apply end_row_head in H as (t & ts & ->). split; [eexists _, _, _; reflexivity|].
  split; [intros (t' & ts' & H); discriminate | intros (t' & ts' & [H|H]); discriminate].
Qed.

Section Sections.
Variable to_int : string -> option Z.
Variable to_float : string -> option R.
Notation record := (record to_int to_float).
Notation record_of := (record_of to_int to_float).
Notation loop := (loop to_int to_float).
Notation section_rows := (section_rows to_int to_float).
Notation before_end := (before_end to_int to_float).
Notation body := (body to_int to_float).

(** what an item adds to the tables *)
Definition put_item (t : tables) (i : item) : tables :=
  match i with
  | IBus b => put_bus t ([KI (b_num b)], b)
  | ILoad id x => put_load t ([KI (rl_bus x); KS id], x)
  | IFs id x => put_fs t ([KI (fs_bus x); KS id], x)
  | IGen id x => put_gen t ([KI (g_bus x); KS id], Some x)
  | IShort => put_gen t ([KNone; KS "1"], None)
  | IBranch ckt x => put_branch t ([KI (br_i x); KI (br_j x); KS ckt], x)
  | IX2 si sj ckt x => put_x2 t ([KS si; KS sj; KS ckt], x)
  | IX3 ckt x => put_x3 t ([KI (h_i x); KI (h_j x); KI (h_k x); KS ckt], x)
  | ISs x => put_ss t ([KI (ss_bus x)], x)
  end.
Definition put_items (t : tables) (is : list item) : tables := fold_left put_item is t.
Lemma put_items_app : forall is js t, put_items t (is ++ js) = put_items (put_items t is) js.
Proof. intros. apply fold_left_app. Qed.

Definition trimmed_rows (rows : list row) : Prop := Forall (Forall trimmed) rows.
Lemma ahead_iff : forall rest k r, ahead rest k = Ok r <-> nth_error rest k = Some r.
Proof. intros rest k r. unfold ahead. destruct (nth_error rest k); split; congruence. Qed.
Lemma ahead3 : forall rest r2 r3 r4, ahead rest 0 = Ok r2 -> ahead rest 1 = Ok r3 -> ahead rest 2 = Ok r4 ->
  exists rest', rest = r2 :: r3 :: r4 :: rest'.
Proof.
  intros rest r2 r3 r4 H1 H2 H3. apply ahead_iff in H1, H2, H3.
  destruct rest as [|a [|b [|c q]]]; try discriminate. cbn in *. exists q. congruence.
Qed.
Lemma ahead2 : forall rest r2 r3, ahead rest 0 = Ok r2 -> ahead rest 1 = Ok r3 -> exists rest', rest = r2 :: r3 :: rest'.
Proof.
  intros rest r2 r3 H1 H2. apply ahead_iff in H1, H2. destruct rest as [|a [|b q]]; try discriminate. cbn in *. exists q. congruence.
Qed.
Lemma record_iff : forall rev s t r rest t' n, In rev [30; 32; 33; 34]%Z -> plain_section s -> Forall trimmed r ->
  (record rev s t r rest = Ok (t', n) <->
   exists more rest' is, rest = (more ++ rest')%list /\ n = List.length more /\ record_of rev s (r :: more) is /\ t' = put_items t is).
Proof.
  intros rev s t r rest t' n R P T. split.
  - assert (one : forall is, record_of rev s [r] is -> t' = put_items t is -> n = 0%nat ->
      exists more rest' is, rest = (more ++ rest')%list /\ n = List.length more /\ record_of rev s (r :: more) is /\ t' = put_items t is).
    { intros is H1 H2 H3. exists [], rest, is. auto. }
    destruct s; cbn [RawText.record]; intros H; try (exfalso; apply P; cbn; tauto).
    + unbind H. injection H as <- <-. destruct x as [k b]. apply (read_bus_iff _ _ _ _ _ _ R) in E as [-> E]. eapply one; [constructor; exact E | reflexivity | reflexivity].
    + unbind H. injection H as <- <-. destruct x as [k b]. apply (read_load_iff _ _ _ _ _ _ R T) in E as (id & -> & E). eapply one; [constructor; exact E | reflexivity | reflexivity].
    + unbind H. injection H as <- <-. destruct x as [k b]. apply (read_fs_iff _ _ _ _ _ T) in E as (id & -> & E). eapply one; [constructor; exact E | reflexivity | reflexivity].
    + unbind H. injection H as <- <-. destruct x as [k [b|]].
      * apply (read_gen_iff _ _ _ _ _ _ T) in E as (id & -> & E). eapply one; [constructor; exact E | reflexivity | reflexivity].
      * apply read_gen_short in E as [-> E]. eapply one; [apply rec_short; exact E | reflexivity | reflexivity].
    + unbind H. injection H as <- <-. destruct x as [k b]. apply (read_branch_iff _ _ _ _ _ _ R T) in E as (id & -> & E). eapply one; [constructor; exact E | reflexivity | reflexivity].
    + injection H as <- <-. eapply one; [constructor | reflexivity | reflexivity].
    + apply bind_ok in H as (k & HK & H). apply bind_ok in H as (r2 & H2 & H). apply bind_ok in H as (r3 & H3 & H). apply bind_ok in H as (r4 & H4 & H).
      destruct (ahead3 _ _ _ _ H2 H3 H4) as [q ->]. destruct (String.eqb k "0") eqn:EK.
      * apply String.eqb_eq in EK. rewrite EK in HK. apply bind_ok in H as ([k' x] & E & H). injection H as <- <-.
        destruct (proj1 (read_x2_iff to_int to_float rev r r2 r3 r4 k' x R) (conj HK E)) as (si & sj & ckt & -> & X).
        exists [r2; r3; r4], q, [IX2 si sj ckt x]. repeat split. constructor. exact X.
      * apply String.eqb_neq in EK. apply bind_ok in H as (r5 & H5 & H). apply bind_ok in H as ([k' x] & E & H). injection H as <- <-.
        apply ahead_iff in H5. destruct q as [|a q]; [discriminate|]. cbn in H5. injection H5 as ->.
        destruct (proj1 (read_x3_iff to_int to_float rev r r2 r3 r4 r5 k' x R) (conj (ex_intro _ k (conj HK EK)) E)) as (ckt & -> & X).
        exists [r2; r3; r4; r5], q, [IX3 ckt x]. repeat split. constructor. exact X.
    + apply bind_ok in H as ([] & E & H). injection H as <- <-. eapply one; [constructor; apply fields_of_ok; exact E | reflexivity | reflexivity].
    + apply bind_ok in H as (r2 & H2 & H). apply bind_ok in H as (r3 & H3 & H). apply bind_ok in H as (u & E & H). injection H as <- <-.
      destruct (ahead2 _ _ _ H2 H3) as [q ->]. apply check_dc_iff in E as (E1 & E2 & E3). exists [r2; r3], q, []. repeat split. constructor; assumption.
    + apply bind_ok in H as (r2 & H2 & H). apply bind_ok in H as (r3 & H3 & H). apply bind_ok in H as (u & E & H). injection H as <- <-.
      destruct (ahead2 _ _ _ H2 H3) as [q ->]. apply check_vsc_iff in E as (E1 & E2 & E3). exists [r2; r3], q, []. repeat split. constructor; assumption.
    + unbind H. injection H as <- <-. destruct x as [k b]. apply (read_ss_iff _ _ _ _ _ _ R) in E as [-> E]. eapply one; [constructor; exact E | reflexivity | reflexivity].
    + apply bind_ok in H as ([] & E & H). injection H as <- <-. eapply one; [constructor | reflexivity | reflexivity]. intros N.
      apply Z.eqb_neq in N. rewrite N in E. rewrite (accepts_fill _ _ imp_layout r 23) by (vm_compute; lia). apply fields_of_ok. exact E.
    + injection H as <- <-. eapply one; [constructor | reflexivity | reflexivity].
    + apply bind_ok in H as (u & E & H). injection H as <- <-. apply check_multi_iff in E as [E1 E2]. eapply one; [constructor; assumption | reflexivity | reflexivity].
    + apply bind_ok in H as ([] & E & H). injection H as <- <-. eapply one; [constructor; apply fields_of_ok; exact E | reflexivity | reflexivity].
    + apply bind_ok in H as ([] & E & H). injection H as <- <-. eapply one; [constructor; apply fields_of_ok; exact E | reflexivity | reflexivity].
    + apply bind_ok in H as ([] & E & H). injection H as <- <-. eapply one; [constructor; apply fields_of_ok; exact E | reflexivity | reflexivity].
    + apply bind_ok in H as ([] & E & H). injection H as <- <-. eapply one; [constructor; apply fields_of_ok | reflexivity | reflexivity].
      four R; exact E.
  - intros (more & rest' & is & -> & -> & H & ->). inversion H; subst; cbn [RawText.record app List.length put_items fold_left put_item].
    + rewrite (proj2 (read_bus_iff _ _ _ _ _ b R)) by eauto. reflexivity.
    + rewrite (proj2 (read_load_iff _ _ _ _ _ x R T)) by eauto. reflexivity.
    + rewrite (proj2 (read_fs_iff _ _ _ _ x T)) by eauto. reflexivity.
    + rewrite (proj2 (read_gen_iff _ _ _ _ _ x T)) by eauto. reflexivity.
    + rewrite (proj2 (read_gen_short to_int to_float rev r [KNone; KS "1"])) by auto. reflexivity.
    + rewrite (proj2 (read_branch_iff _ _ _ _ _ x R T)) by eauto. reflexivity.
    + match goal with X : x2_rows _ _ _ _ _ _ _ _ _ _ _ |- _ =>
        destruct (proj2 (read_x2_iff to_int to_float rev r r2 r3 r4 _ x R) (ex_intro _ si (ex_intro _ sj (ex_intro _ ckt (conj eq_refl X))))) as [K1 K2] end.
      rewrite K1. cbn [pbind]. cbn [ahead nth_error pbind]. change (String.eqb "0" "0") with true. cbv iota. rewrite K2. reflexivity.
    + match goal with X : x3_rows _ _ _ _ _ _ _ _ _ _ |- _ =>
        destruct (proj2 (read_x3_iff to_int to_float rev r r2 r3 r4 r5 _ x R) (ex_intro _ ckt (conj eq_refl X))) as [(k & K1 & KN) K2] end.
      rewrite K1. cbn [pbind]. cbn [ahead nth_error pbind]. rewrite (proj2 (String.eqb_neq k "0") KN). cbn [ahead nth_error pbind]. rewrite K2. reflexivity.
    + rewrite (proj2 (read_ss_iff _ _ _ _ _ x R)) by eauto. reflexivity.
    + change area_fields with (fields_of 0 area_layout). rewrite (proj2 (fields_of_ok _ _ _ _)) by assumption. reflexivity.
    + cbn [ahead nth_error pbind]. rewrite (proj2 (check_dc_iff _ _ _ _ _ tt)) by auto. reflexivity.
    + cbn [ahead nth_error pbind]. rewrite (proj2 (check_vsc_iff _ _ _ _ _ tt)) by auto. reflexivity.
    + destruct (Z.eqb_spec rev 34) as [->|N]; [reflexivity|]. change imp_fields with (fields_of 0 imp_layout).
      rewrite (proj2 (fields_of_ok _ _ _ _)) by (apply (proj1 (accepts_fill _ _ imp_layout r 23 ltac:(vm_compute; lia))); auto). reflexivity.
    + rewrite (proj2 (check_multi_iff _ _ _ tt)) by auto. reflexivity.
    + change zone_fields with (fields_of 0 zone_layout). rewrite (proj2 (fields_of_ok _ _ _ _)) by assumption. reflexivity.
    + change zone_fields with (fields_of 0 zone_layout). rewrite (proj2 (fields_of_ok _ _ _ _)) by assumption. reflexivity.
    + change inter_fields with (fields_of 0 inter_layout). rewrite (proj2 (fields_of_ok _ _ _ _)) by assumption. reflexivity.
    + replace (facts_fields rev) with (fields_of 0 (facts_layout rev)) by (four R; reflexivity). rewrite (proj2 (fields_of_ok _ _ _ _)) by assumption. reflexivity.
    + reflexivity.
    + reflexivity.
Qed.
End Sections.
