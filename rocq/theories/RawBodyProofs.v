(** The sections of a RAW file one after the other, its heading, its tables. *)
From Coq Require Import Reals ZArith String Ascii List Bool Lia.
From Verif Require Import PyExc RawTransformers RawParser GlmText RawText SpecRawText RawKeyProofs RawFieldProofs RawRecordProofs RawRecordProofs5 RawLoopProofs.
Import ListNotations.
Local Open Scope string_scope.

Section Body.
Variable to_int : string -> option Z.
Variable to_float : string -> option R.
Notation record := (record to_int to_float).
Notation record_of := (record_of to_int to_float).
Notation loop := (loop to_int to_float).
Notation section_rows := (section_rows to_int to_float).
Notation before_end := (before_end to_int to_float).
Notation body := (body to_int to_float).

Lemma loop_skip : forall rev s n rows t, loop rev s n rows t = loop rev s 0 (skipn n rows) t.
Proof.
  intros rev s n. induction n as [|n IH]; intros rows t; [reflexivity|]. destruct rows as [|r rows]; [reflexivity|]. cbn [skipn]. rewrite <- IH. reflexivity.
Qed.
(** how a section is left: by an end row or by a quit row *)
Definition leaves (e : row) (rest : list row) (o : option (list row)) : Prop := end_row e /\ o = Some rest \/ quit_row e /\ o = None.
Lemma loop_leave : forall rev s e rest o t, leaves e rest o -> loop rev s 0 (e :: rest) t = Ok (t, o).
Proof.
  intros rev s e rest o t [[H ->]|[H ->]]; cbn [RawText.loop].
  - destruct (end_named _ H) as (N & C & Q). rewrite (proj2 (is_at_false e) (conj N C)). cbn [pbind].
    rewrite (proj2 (file_end_false e) (conj N Q)). cbn [pbind]. rewrite (proj2 (section_end_iff e) H). reflexivity.
  - destruct (quit_named _ H) as (N & C). rewrite (proj2 (is_at_false e) (conj N C)). cbn [pbind].
    rewrite (proj2 (file_end_named e N) H). reflexivity.
Qed.
Lemma loop_iff : forall rev s, In rev [30; 32; 33; 34]%Z -> plain_section s -> forall rows t t' o, trimmed_rows rows ->
  (loop rev s 0 rows t = Ok (t', o) <->
   exists pre e rest is, rows = (pre ++ e :: rest)%list /\ section_rows rev s pre is /\ leaves e rest o /\ t' = put_items t is).
Proof.
  intros rev s R P rows t t' o T. split.
  - revert t T. remember (List.length rows) as m eqn:Hm. assert (Hle : (List.length rows <= m)%nat) by lia. clear Hm. revert rows Hle.
    induction m as [|m IH]; intros rows Hle t T H; (destruct rows as [|r rest]; [discriminate|]); cbn in Hle; [lia|].
    cbn [RawText.loop] in H. apply bind_ok in H as (a & A & H). inversion T as [|? ? Tr Trest]; subst. destruct a.
    + apply is_at_true in A. destruct (IH rest ltac:(lia) t Trest H) as (pre & e & q & is & -> & S & L & ->).
      exists (r :: pre), e, q, is. split; [reflexivity|]. split; [apply rows_comment; assumption | auto].
    + apply is_at_false in A as [N C]. apply bind_ok in H as (f & F & H). destruct f.
      * apply file_end_named in F; [|exact N]. injection H as <- <-. exists [], r, rest, []. split; [reflexivity|]. split; [constructor|].
        split; [right; auto | reflexivity].
      * apply file_end_false in F as [_ Q]. destruct (section_end r) eqn:S.
        -- apply section_end_iff in S. injection H as <- <-. exists [], r, rest, []. split; [reflexivity|]. split; [constructor|].
           split; [left; auto | reflexivity].
        -- apply section_end_false in S. apply bind_ok in H as ([t1 n] & E & H). cbn [fst snd] in H.
           apply (record_iff to_int to_float rev s t r rest t1 n R P Tr) in E as (more & rest' & is & -> & -> & RO & ->).
           rewrite loop_skip, skipn_app, skipn_all, Nat.sub_diag in H. cbn [skipn app] in H.
           apply Forall_app in Trest as [_ Trest]. rewrite app_length in Hle.
           destruct (IH rest' ltac:(lia) _ Trest H) as (pre & e & q & js & -> & SR & L & ->).
           exists ((r :: more) ++ pre)%list, e, q, (is ++ js)%list. split; [cbn; rewrite <- app_assoc; reflexivity|].
           split; [apply rows_record; [repeat split; assumption | exact RO | exact SR]|]. split; [exact L|]. symmetry. apply put_items_app.
  - intros (pre & e & rest & is & -> & S & L & ->). revert t. induction S as [|r rows is C S IH|r more rows is js D RO S IH]; intros t.
    + apply loop_leave. exact L.
    + cbn [app RawText.loop]. apply is_at_true in C. rewrite C. cbn [pbind]. apply IH. inversion T; assumption.
    + destruct D as (N & C & Q & NE). cbn [app RawText.loop]. rewrite (proj2 (is_at_false r) (conj N C)). cbn [pbind].
      rewrite (proj2 (file_end_false r) (conj N Q)). cbn [pbind]. rewrite (proj2 (section_end_false r) NE).
      cbn [app] in T. inversion T as [|? ? Tr Trest]; subst. rewrite <- app_assoc in Trest. apply Forall_app in Trest as [_ Trest].
      rewrite (proj2 (record_iff to_int to_float rev s t r _ (put_items t is) (List.length more) R P Tr)).
      * cbn [pbind fst snd]. rewrite loop_skip, <- app_assoc, skipn_app, skipn_all, Nat.sub_diag. cbn [skipn app]. rewrite (IH Trest). rewrite put_items_app. reflexivity.
      * exists more, (rows ++ e :: rest)%list, is. split; [rewrite <- app_assoc; reflexivity | auto].
Qed.
Lemma system_iff : forall rows o, loop_system rows = Ok o <->
  exists pre e rest, rows = (pre ++ e :: rest)%list /\ Forall system_row pre /\
    (leaves e rest o \/ (exists ts, e = "" :: ts) /\ o = None).
Proof.
  induction rows as [|r rows IH]; intros o; cbn [loop_system].
  - split; [discriminate | intros ([|] & e & rest & H & _); discriminate].
  - split.
    + intros H. apply bind_ok in H as ([] & F & H).
      * injection H as <-. exists [], r, rows. split; [reflexivity|]. split; [constructor|].
        destruct r as [|[|c t] ts]; [discriminate | right; eauto |]. left. right. split; [|reflexivity].
        apply file_end_named in F; [exact F | exists c, t, ts; reflexivity].
      * apply file_end_false in F as [N Q]. destruct (section_end r) eqn:S.
        -- injection H as <-. apply section_end_iff in S. exists [], r, rows. split; [reflexivity|]. split; [constructor|]. left. left. auto.
        -- apply section_end_false in S. apply IH in H as (pre & e & rest & -> & F & L). exists (r :: pre), e, rest.
           split; [reflexivity|]. split; [constructor; [repeat split; assumption | exact F] | exact L].
    + intros (pre & e & rest & E & F & L). destruct pre as [|p pre]; cbn in E; injection E as -> ->.
      * destruct L as [[[H ->]|[H ->]]|[[ts ->] ->]]; [| | reflexivity].
        -- destruct (end_named _ H) as (N & C & Q). rewrite (proj2 (file_end_false e) (conj N Q)). cbn [pbind]. rewrite (proj2 (section_end_iff e) H). reflexivity.
        -- destruct (quit_named _ H) as (N & C). rewrite (proj2 (file_end_named e N) H). reflexivity.
      * inversion F as [|? ? (N & Q & NE) F']; subst. rewrite (proj2 (file_end_false p) (conj N Q)). cbn [pbind].
        rewrite (proj2 (section_end_false p) NE). apply IH. exists pre, e, rest. auto.
Qed.
Lemma stale_iff : forall rows o,
  (loop_stale false rows = Ok o <-> exists pre e rest, rows = (pre ++ e :: rest)%list /\ hidden_rows pre /\ leaves e rest o) /\
  (loop_stale true rows = Ok o <-> exists cs h pre e rest, rows = (cs ++ h :: pre ++ e :: rest)%list /\ Forall comment_row cs /\ named_row h /\
     ~ comment_row h /\ hidden_rows pre /\ leaves e rest o).
Proof.
  induction rows as [|r rows IH]; intros o; cbn [loop_stale].
  - split; (split; [discriminate|]).
    + intros ([|] & e & rest & H & _); discriminate.
    + intros ([|] & h & pre & e & rest & H & _); discriminate.
  - destruct (IH o) as [IH0 IH1]. split; split.
    + intros H. apply bind_ok in H as ([] & A & H).
      * apply is_at_true in A. apply IH1 in H as (cs & h & pre & e & rest & -> & F & N & C & HR & L).
        exists (r :: cs ++ h :: pre)%list, e, rest. split; [cbn; rewrite <- app_assoc; reflexivity|]. split; [apply hidden_comment; assumption | exact L].
      * apply is_at_false in A as [N C]. apply bind_ok in H as ([] & F & H).
        -- apply file_end_named in F; [|exact N]. injection H as <-. exists [], r, rows. split; [reflexivity|]. split; [constructor | right; auto].
        -- apply file_end_false in F as [_ Q]. destruct (section_end r) eqn:S.
           ++ injection H as <-. apply section_end_iff in S. exists [], r, rows. split; [reflexivity|]. split; [constructor | left; auto].
           ++ apply section_end_false in S. apply IH0 in H as (pre & e & rest & -> & HR & L). exists (r :: pre), e, rest. split; [reflexivity|].
              split; [apply hidden_row; [repeat split; assumption | exact HR] | exact L].
    + intros (pre & e & rest & E & HR & L). destruct HR as [|p pre D HR|p cs h pre Cp F N C HR]; cbn in E; injection E as -> ->.
      * destruct L as [[H ->]|[H ->]].
        -- destruct (end_named _ H) as (N & C & Q). rewrite (proj2 (is_at_false e) (conj N C)). cbn [pbind].
           rewrite (proj2 (file_end_false e) (conj N Q)). cbn [pbind]. rewrite (proj2 (section_end_iff e) H). reflexivity.
        -- destruct (quit_named _ H) as (N & C). rewrite (proj2 (is_at_false e) (conj N C)). cbn [pbind]. rewrite (proj2 (file_end_named e N) H). reflexivity.
      * destruct D as (N & C & Q & NE). rewrite (proj2 (is_at_false p) (conj N C)). cbn [pbind].
        rewrite (proj2 (file_end_false p) (conj N Q)). cbn [pbind]. rewrite (proj2 (section_end_false p) NE). apply IH0. exists pre, e, rest. auto.
      * apply is_at_true in Cp. rewrite Cp. cbn [pbind]. apply IH1. exists cs, h, pre, e, rest. rewrite <- app_assoc. repeat split; assumption.
    + intros H. apply bind_ok in H as ([] & A & H).
      * apply is_at_true in A. apply IH1 in H as (cs & h & pre & e & rest & -> & F & N & C & HR & L).
        exists (r :: cs), h, pre, e, rest. repeat split; try assumption. constructor; assumption.
      * apply is_at_false in A as [N C]. apply IH0 in H as (pre & e & rest & -> & HR & L). exists [], r, pre, e, rest. repeat split; try assumption. constructor.
    + intros (cs & h & pre & e & rest & E & F & N & C & HR & L). destruct cs as [|c cs]; cbn in E; injection E as -> ->.
      * rewrite (proj2 (is_at_false h) (conj N C)). cbn [pbind]. apply IH0. exists pre, e, rest. auto.
      * inversion F; subst. rewrite (proj2 (is_at_true c)) by assumption. cbn [pbind]. apply IH1. exists cs, h, pre, e, rest. repeat split; assumption.
Qed.
Lemma section_dec : forall s, plain_section s \/ s = SSystem \/ In s [SGne; SInd; SSub].
Proof.
  intros s. destruct s; try (left; intros H; repeat (destruct H as [H|H]; [discriminate|]); exact H); right; cbn; tauto.
Qed.
Lemma run_section_iff : forall rev s rows t t' o, In rev [30; 32; 33; 34]%Z -> trimmed_rows rows ->
  (run_section to_int to_float rev s rows t = Ok (t', o) <->
   exists pre e rest is, rows = (pre ++ e :: rest)%list /\ before_end rev s pre is /\
     (leaves e rest o \/ s = SSystem /\ (exists ts, e = "" :: ts) /\ o = None) /\ t' = put_items t is).
Proof.
  intros rev s rows t t' o R T. destruct (section_dec s) as [P|[->|I]].
  - assert (E : run_section to_int to_float rev s rows t = loop rev s 0 rows t).
    { destruct s; try reflexivity; exfalso; apply P; cbn; tauto. }
    rewrite E, (loop_iff rev s R P rows t t' o T). split; intros (pre & e & rest & is & H1 & H2 & H3 & H4); exists pre, e, rest, is; (split; [exact H1|]).
    + split; [apply before_plain; assumption | auto].
    + inversion H2; subst.
      * split; [assumption|]. split; [|reflexivity]. destruct H3 as [H3|[-> _]]; [exact H3 | exfalso; apply P; cbn; tauto].
      * exfalso. apply P. cbn. tauto.
      * exfalso. apply P. cbn in *. tauto.
  - cbn [run_section]. split.
    + intros H. apply bind_ok in H as (o' & H & E). injection E as <- <-. apply system_iff in H as (pre & e & rest & -> & F & L).
      exists pre, e, rest, []. split; [reflexivity|]. split; [apply before_system; exact F|]. split; [|reflexivity].
      destruct L as [L|L]; [auto | right; tauto].
    + intros (pre & e & rest & is & -> & B & L & ->). inversion B as [? ? ? P|? F|? ? I]; subst.
      * exfalso. apply P. cbn. tauto.
      * rewrite (proj2 (system_iff _ o)); [reflexivity|]. exists pre, e, rest. split; [reflexivity|]. split; [exact F|].
        destruct L as [L|(_ & L & ->)]; [auto | right; auto].
      * exfalso. cbn in I. repeat (destruct I as [I|I]; [discriminate|]). exact I.
  - assert (E : run_section to_int to_float rev s rows t = (do o <- loop_stale false rows; Ok (t, o))).
    { cbn in I. destruct I as [<-|[<-|[<-|[]]]]; reflexivity. }
    rewrite E. assert (NS : s <> SSystem) by (intros ->; cbn in I; repeat (destruct I as [I|I]; [discriminate|]); exact I).
    split.
    + intros H. apply bind_ok in H as (o' & H & K). injection K as <- <-. apply stale_iff in H as (pre & e & rest & -> & F & L).
      exists pre, e, rest, []. split; [reflexivity|]. split; [apply before_hidden; assumption|]. auto.
    + intros (pre & e & rest & is & -> & B & L & ->). inversion B as [? ? ? P|? F|? ? I' HR]; subst.
      * exfalso. apply P. cbn in *. tauto.
      * congruence.
      * destruct L as [L|(K & _)]; [|congruence]. rewrite (proj2 (proj1 (stale_iff _ o))); [reflexivity|]. exists pre, e, rest. auto.
Qed.
Lemma run_sections_iff : forall rev ss rows t t', In rev [30; 32; 33; 34]%Z -> trimmed_rows rows ->
  (run_sections to_int to_float rev ss rows t = Ok t' <-> exists is, body rev ss rows is /\ t' = put_items t is).
Proof.
  intros rev ss rows t t' R. revert rows t t'. induction ss as [|s ss IH]; intros rows t t' T; cbn [run_sections].
  - split; [intros H; injection H as <-; exists []; split; [constructor | reflexivity]|].
    intros (is & B & ->). inversion B; subst. reflexivity.
  - split.
    + intros H. apply bind_ok in H as ([t1 o] & E & H). cbn [fst snd] in H.
      apply (run_section_iff rev s rows t t1 o R T) in E as (pre & e & rest & is & -> & B & L & ->).
      destruct o as [rest'|].
      * destruct L as [[[L E]|[_ E]]|(_ & _ & E)]; try discriminate. injection E as ->.
        apply Forall_app in T as [_ T]. inversion T as [|? ? _ Trest]; subst. apply (IH rest _ _ Trest) in H as (js & H & ->).
        exists (is ++ js)%list. split; [apply body_section; assumption | symmetry; apply put_items_app].
      * injection H as <-. exists is. split; [|reflexivity]. apply body_quit; [exact B|].
        destruct L as [[[_ E]|[L _]]|(-> & L & _)]; [discriminate | auto | right; auto].
    + intros (is & B & ->). inversion B as [|? ? rows' e rest is' js BE EN B'|? ? rows' q rest is' BE Q]; subst.
      * rewrite (proj2 (run_section_iff rev s _ t (put_items t is') (Some rest) R T)).
        -- cbn [pbind fst snd]. apply Forall_app in T as [_ T]. inversion T as [|? ? _ Trest]; subst.
           apply (IH rest _ _ Trest). exists js. split; [exact B' | apply put_items_app].
        -- exists rows', e, rest, is'. split; [reflexivity|]. split; [exact BE|]. split; [left; left; auto | reflexivity].
      * rewrite (proj2 (run_section_iff rev s _ t (put_items t is) None R T)); [reflexivity|].
        exists rows', q, rest, is. split; [reflexivity|]. split; [exact BE|]. split; [|reflexivity].
        destruct Q as [Q|[-> Q]]; [left; right; auto | right; auto].
Qed.

(** *** heading *)
Lemma skip_at_iff : forall rows c, skip_at rows = Ok c <-> exists cs more, rows = (cs ++ c :: more)%list /\ Forall comment_row cs /\ named_row c /\ ~ comment_row c.
Proof.
  induction rows as [|r rows IH]; intros c; cbn [skip_at].
  - split; [discriminate | intros ([|] & more & H & _); discriminate].
  - split.
    + intros H. apply bind_ok in H as ([] & A & H).
      * apply is_at_true in A. apply IH in H as (cs & more & -> & F & N). exists (r :: cs), more. split; [reflexivity|]. split; [constructor; assumption | exact N].
      * apply is_at_false in A. injection H as <-. exists [], rows. split; [reflexivity|]. split; [constructor | exact A].
    + intros (cs & more & E & F & N). destruct cs as [|k cs]; cbn in E; injection E as -> ->.
      * rewrite (proj2 (is_at_false c) N). reflexivity.
      * inversion F; subst. rewrite (proj2 (is_at_true k)) by assumption. cbn [pbind]. apply IH. exists cs, more. auto.
Qed.
Lemma case_id_iff : forall two rows rev sb, case_id to_int to_float two rows = Ok (rev, sb) <->
  exists cs c more, rows = (cs ++ c :: more)%list /\ Forall comment_row cs /\ named_row c /\ ~ comment_row c /\
    (two = true /\ rev = 30%Z /\ accepts to_int to_float short_case_layout false c /\ float_in to_float short_case_layout false c "SBASE" 0%R sb \/
     two = false /\ exists c', Forall2 before_slash (firstn 6 c) c' /\ accepts to_int to_float case_layout false c' /\
       float_in to_float case_layout false c' "SBASE" 0%R sb /\ int_in to_int case_layout false c' "REV" 33%Z rev).
Proof.
  intros two rows rev sb. unfold case_id. split.
  - intros H. apply bind_ok in H as (c & S & H). apply skip_at_iff in S as (cs & more & -> & F & N & C).
    exists cs, c, more. do 4 (split; [first [reflexivity | assumption]|]). destruct two.
    + left. apply bind_ok in H as ([] & E & H). apply bind_ok in H as (x & E2 & H). injection H as <- <-. read_hyps. entries. positions.
      split; [reflexivity|]. split; [reflexivity|]. split; [prove_goods | prove_V].
    + right. split; [reflexivity|]. unfold pad_row in H. exists (cut_row (firstn 6 c)). split; [apply cut_row_iff; reflexivity|].
      apply bind_ok in H as (r & EP & H). destruct (Nat.ltb _ _) in EP; [discriminate|]. injection EP as <-.
      apply bind_ok in H as (x & E1 & H). apply bind_ok in H as (y & E2 & H). apply bind_ok in H as ([] & E3 & H). injection H as <- <-. read_hyps. entries. positions.
      split; [prove_goods|]. split; prove_V.
  - intros (cs & c & more & E & F & N & C & H).
    rewrite (proj2 (skip_at_iff rows c)) by (exists cs, more; auto). cbn [pbind]. destruct H as [(-> & -> & A & S)|(-> & c' & EC & A & S & V)].
    + entries. positions. split_goods A. repeat step. reflexivity.
    + apply cut_row_iff in EC. unfold pad_row.
      assert (L : List.length c' = List.length (firstn 6 c)) by (subst c'; apply map_length). rewrite <- L, <- EC. clear L EC.
      entries. positions. split_goods A.
      assert (L : Nat.ltb (List.length c') 6 = false).
      { apply Nat.ltb_ge. match goal with K : G _ _ c' 5 _ _ |- _ => apply G_len in K; exact K end. }
      rewrite L. cbn [pbind]. repeat step. reflexivity.
Qed.
Lemma known_rev_iff : forall rev, known_rev rev = true <-> In rev [30; 32; 33; 34]%Z.
Proof.
  intros rev. unfold known_rev, memz. rewrite existsb_exists. split.
  - intros (x & H & E). apply Z.eqb_eq in E. subst. exact H.
  - intros H. exists rev. split; [exact H | apply Z.eqb_refl].
Qed.
Lemma sections_order : forall rev, In rev [30; 32; 33; 34]%Z -> sections rev = order rev.
Proof. intros rev R. four R; reflexivity. Qed.
Lemma read_rows_iff : forall rows f, trimmed_rows rows ->
  (read_rows to_int to_float rows = Ok f <->
   exists rest is, heading to_int to_float rows (rf_rev f) (rf_sbase f) rest /\ body (rf_rev f) (order (rf_rev f)) rest is /\
     rf_tables f = put_items no_tables is).
Proof.
  intros rows f T. unfold read_rows, heading. split.
  - intros H. apply bind_ok in H as (r0 & H0 & H). apply bind_ok in H as (a & A & H). apply bind_ok in H as (r1 & H1 & H).
    apply bind_ok in H as (q2 & H2 & H). apply bind_ok in H as (q3 & H3 & H). apply bind_ok in H as ([rev sb] & HI & H).
    cbn [fst snd] in H. apply bind_ok in H as (u & HG & H). apply bind_ok in H as (t & HT & H). injection H as <-. cbn [rf_rev rf_sbase rf_tables].
    unfold guard in HG. destruct (known_rev rev) eqn:KR; [|discriminate]. apply known_rev_iff in KR. clear HG u.
    rewrite (sections_order rev KR) in HT.
    destruct (ahead3 _ _ _ _ H1 H2 H3) as [rest EB].
    assert (T' : trimmed_rows (skipn 3 (if a then skipn 1 rows else rows))).
    { apply Forall_forall. intros x Hx. unfold trimmed_rows in T. rewrite Forall_forall in T. apply T.
      assert (K : forall n (l : list row) y, In y (skipn n l) -> In y l) by (intros n l y Hy; rewrite <- (firstn_skipn n l); apply in_or_app; right; exact Hy).
      apply K in Hx. destruct a; [apply K in Hx; exact Hx | exact Hx]. }
    apply (run_sections_iff rev (order rev) _ no_tables t KR T') in HT as (is & B & ->).
    exists rest, is. rewrite EB in B. cbn [skipn] in B. split; [|auto].
    apply case_id_iff in HI as (cs & c & more & E & F & N & C & HC).
    apply ahead_iff in H0. destruct rows as [|rr rows]; [discriminate|]. cbn in H0. injection H0 as ->.
    exists (if a then [r0] else []), r1, q2, q3, cs, c, more. split; [|split; [|split; [exact E|split; [exact F|split; [exact N|split; [exact C|split; [|exact KR]]]]]]].
    + destruct a; cbn in *; congruence.
    + destruct a; [right; exists r0; split; [reflexivity | apply is_at_true; exact A]|]. left. split; [reflexivity|].
      injection EB as -> _. apply is_at_false in A. exact (proj2 A).
    + destruct HC as [(E2 & HC)|(E2 & HC)]; [left | right]; (split; [|exact HC]); [apply Nat.eqb_eq | apply Nat.eqb_neq]; exact E2.
  - intros (rest & is & (pre & r1 & t1 & t2 & cs & c & more & E1 & HP & E2 & F & N & C & HC & KR) & B & ET).
    assert (HI : case_id to_int to_float (Nat.eqb (List.length r1) 2) rows = Ok (rf_rev f, rf_sbase f)).
    { apply case_id_iff. exists cs, c, more. do 4 (split; [assumption|]). destruct HC as [(L & HC)|(L & HC)]; [left | right]; (split; [|exact HC]).
      - apply Nat.eqb_eq. exact L.
      - apply Nat.eqb_neq. exact L. }
    assert (HB : exists r0 a, ahead rows 0 = Ok r0 /\ is_at r0 = Ok a /\ (if a then skipn 1 rows else rows) = (r1 :: t1 :: t2 :: rest)%list).
    { destruct HP as [[-> NC]|(k & -> & CK)]; cbn in E1.
      - exists r1, false. subst rows. split; [reflexivity|]. split; [|reflexivity]. apply is_at_false. split; [|exact NC].
        destruct cs as [|k cs]; cbn in E2; injection E2 as -> _; [exact N|]. inversion F as [|? ? (x & y & ->) _]; subst. exfalso. apply NC. exists x, y. reflexivity.
      - exists k, true. subst rows. split; [reflexivity|]. split; [apply is_at_true; exact CK | reflexivity]. }
    destruct HB as (r0 & a & H0 & A & EB). rewrite H0. cbn [pbind]. rewrite A. cbn [pbind]. rewrite EB. cbn [ahead nth_error pbind]. rewrite HI. cbn [pbind fst snd].
    rewrite (proj2 (known_rev_iff _) KR). cbn [guard pbind]. rewrite (sections_order _ KR). cbn [skipn].
    assert (T' : trimmed_rows rest).
    { rewrite E1 in T. apply Forall_app in T as [_ T]. inversion T as [|? ? _ T1]; subst. inversion T1 as [|? ? _ T2]; subst. inversion T2; assumption. }
    rewrite (proj2 (run_sections_iff (rf_rev f) (order (rf_rev f)) rest no_tables (rf_tables f) KR T')) by eauto. cbn [pbind]. destruct f; reflexivity.
Qed.
End Body.
