(** Each record class reads exactly what its layout says: generators, switched shunts, transformers, records not used. *)
From Coq Require Import Reals ZArith String Ascii List Bool Lia.
From Verif Require Import PyExc RawTransformers RawParser GlmText RawText SpecRawText RawFieldProofs RawRecordProofs.
Import ListNotations.
Local Open Scope string_scope.

Section Records.
Variable to_int : string -> option Z.
Variable to_float : string -> option R.

Lemma two_last : forall (r : row) n m p, List.length r = S (S n) ->
  (nth_error r n = Some m /\ nth_error r (S n) = Some p <-> exists front, r = (front ++ [m; p])%list).
Proof.
  intros r n m p L. split.
  - intros [H1 H2]. exists (firstn n r). rewrite <- (firstn_skipn n r) at 1. f_equal.
    pose proof (skipn_length n r) as K. rewrite L in K. replace (S (S n) - n)%nat with 2%nat in K by lia.
    destruct (skipn n r) as [|a [|b [|c q]]] eqn:E; try discriminate.
    assert (N : forall i, nth_error r (n + i) = nth_error [a; b] i).
    { intros i. rewrite <- E. clear. revert r. induction n as [|n IH]; intros r; cbn; [reflexivity|]. destruct r; cbn; [destruct i; reflexivity | apply IH]. }
    pose proof (N 0%nat) as N0. pose proof (N 1%nat) as N1. rewrite Nat.add_0_r in N0. rewrite Nat.add_1_r in N1. rewrite H1 in N0. rewrite H2 in N1. injection N0 as <-. injection N1 as <-. reflexivity.
  - intros [f ->]. rewrite app_length in L. cbn in L. assert (E : n = List.length f) by lia. subst n. split.
    + rewrite nth_error_app2 by lia. rewrite Nat.sub_diag. reflexivity.
    + rewrite nth_error_app2 by lia. replace (S (List.length f) - List.length f)%nat with 1%nat by lia. reflexivity.
Qed.
Lemma read_wind_iff : forall rev r wmod wpf, read_wind to_int to_float rev r = Ok (wmod, wpf) <-> wind_in to_int to_float rev r wmod wpf.
Proof.
  intros rev r wmod wpf. unfold read_wind, wind_in.
  destruct (negb (Z.eqb rev 30) && Nat.ltb 26 (List.length r))%bool eqn:C.
  - apply andb_true_iff in C as [C1 C2]. apply negb_true_iff, Z.eqb_neq in C1. apply Nat.ltb_lt in C2.
    destruct (List.length r) as [|[|n]] eqn:L; try lia.
    replace (S (S n) - 2)%nat with n by lia. replace (S (S n) - 1)%nat with (S n) by lia.
    assert (M : forall m, (match m with "" => Ok 0%Z | String _ _ => match first_digits m with None => Err AttributeError
                 | Some ds => match to_int ds with Some z => Ok z | None => Err ValueError end end end) = Ok wmod <->
                 (m = "" /\ wmod = 0%Z \/ exists ds, first_number m ds /\ to_int ds = Some wmod)).
    { intros m. split.
      - destruct m as [|c m]; [intros H; injection H as <-; auto|].
        destruct (first_digits (String c m)) as [ds|] eqn:D; [|discriminate]. apply first_digits_iff in D.
        destruct (to_int ds) as [z|] eqn:E; [|discriminate]. intros H. injection H as ->. right. eauto.
      - intros [[-> ->]|(ds & D & E)]; [reflexivity|]. apply first_digits_iff in D. destruct m as [|c m]; [discriminate|]. rewrite D, E. reflexivity. }
    split.
    + intros H. unbind H. injection H as <- <-. right. split; [exact C1|]. split; [exact C2|]. apply tok_ok in E. apply M in E0.
      read_hyps. destruct E1 as (p & Hp & Hv).
      destruct (proj1 (two_last r n x p L) (conj E Hp)) as [f ->]. exists f, x, p. auto.
    + intros [[[H|H] _]|(_ & _ & f & m & p & E & Hm & Hp)]; [congruence | lia |].
      destruct (proj2 (two_last r n m p L) (ex_intro _ f E)) as [E1 E2].
      rewrite (proj2 (tok_ok r n m) E1). cbn [pbind]. rewrite (proj2 (M m) Hm). cbn [pbind].
      rewrite (proj2 (float_some to_float r (S n) 0%R wpf)) by (exists p; auto). reflexivity.
  - assert (C' : rev = 30%Z \/ (List.length r <= 26)%nat).
    { apply andb_false_iff in C as [C|C]; [left; apply negb_false_iff, Z.eqb_eq in C; exact C | right; apply Nat.ltb_ge in C; exact C]. }
    split.
    + intros H. injection H as <- <-. left. auto.
    + intros [(_ & -> & ->)|(H1 & H2 & _)]; [reflexivity | destruct C'; [congruence | lia]].
Qed.
Lemma read_gen_iff : forall rev r k x, Forall trimmed r ->
  (read_gen to_int to_float rev r = Ok (k, Some x) <-> exists id, k = [KI (g_bus x); KS id] /\ gen_row to_int to_float rev r id x).
Proof.
  intros rev r k x T0. unfold read_gen, gen_row, int_in, float_in, text_in. cbv zeta.
  pose proof (trimmed_fill r 28 T0) as T. pose proof (fill_len r 28) as L. split.
  - destruct (Nat.ltb_spec (List.length r) 16) as [?|L16]; [discriminate|]. intros H. unbind H. injection H as <- <-.
    destruct x0 as [wm wp]. apply read_wind_iff in E. read_hyps. cbn [g_bus g_pg g_qg g_qt g_qb g_vs g_stat g_wmod g_wpf fst snd].
    match goal with K : V string _ _ 1 _ ?i |- _ => pose proof (V_trim _ _ _ _ K T trimmed_one) as S; rewrite S; exists i end.
    filled 28%nat. entries. positions. repeat (apply conj; [first [reflexivity | exact L16 | prove_goods | prove_V] |]); exact E.
  - intros (id & -> & H). destruct H as (L16 & H). rewrite (accepts_fill _ _ _ _ 28) in H by (vm_compute; lia).
    rewrite ?(entry_fill _ _ _ _ 28) in H by (vm_compute; lia). entries. positions. destruct H as [A H]. split_goods A. split_all.
    match goal with K : V string _ _ 1 _ ?i |- _ => pose proof (V_trim _ _ _ _ K T trimmed_one) as S end.
    match goal with K : wind_in _ _ _ _ _ _ |- _ => apply read_wind_iff in K; rewrite K end. cbn [pbind].
    rewrite (proj2 (Nat.ltb_ge _ _) L16). repeat step. rewrite S. destruct x. reflexivity.
Qed.
Lemma read_gen_short : forall rev r k, read_gen to_int to_float rev r = Ok (k, None) <-> k = [KNone; KS "1"] /\ (List.length r < 16)%nat.
Proof.
  intros rev r k. unfold read_gen. destruct (Nat.ltb_spec (List.length r) 16) as [L|L]; split.
  - intros H. injection H as <-. auto.
  - intros [-> _]. reflexivity.
  - intros H. unbind H. discriminate.
  - intros [_ H]. lia.
Qed.
End Records.
