(** Each record class reads exactly what its layout says: buses, loads, shunts, generators, branches. *)
From Coq Require Import Reals ZArith String Ascii List Bool Lia.
From Verif Require Import PyExc RawTransformers RawParser GlmText RawText SpecRawText RawFieldProofs.
Import ListNotations.
Local Open Scope string_scope.

Lemma Forall_split : forall A (P : A -> Prop) x l, Forall P (x :: l) <-> P x /\ Forall P l.
Proof. intros. split; [intros H; inversion H; auto | intros [H1 H2]; constructor; assumption]. Qed.
Lemma G_short : forall ti tf r n, (n < List.length r)%nat -> G ti tf r n FText false.
Proof.
  intros ti tf r n L. destruct (nth_error r n) as [t|] eqn:E; [eapply G_present; exact E|]. apply nth_error_None in E. lia.
Qed.
(** computing the closed tests on the revision *)
Ltac cases_rev := repeat match goal with
  | |- context [Z.eqb ?a ?b] => let v := eval vm_compute in (Z.eqb a b) in change (Z.eqb a b) with v; cbv beta iota zeta
  | |- context [v33 ?a] => let v := eval vm_compute in (v33 a) in change (v33 a) with v; cbv beta iota zeta
  | |- context [bus_len ?a] => let v := eval vm_compute in (bus_len a) in change (bus_len a) with v
  end; cbv beta iota zeta.
Ltac split_forall H :=
  match type of H with
  | Forall ?P ?l =>
      let l' := eval vm_compute in l in change (Forall P l') in H;
      repeat (apply Forall_split in H; let K := fresh "K" in destruct H as [K H]; cbn [fst snd kty negb] in K); clear H
  end.
Ltac split_goods H :=
  match type of H with
  | goods ?ti ?tf ?r ?n ?l =>
      let l' := eval vm_compute in l in change (goods ti tf r n l') in H; cbn [goods] in H;
      repeat match type of H with _ /\ _ => let K := fresh "K" in destruct H as [K H] end; clear H
  end.
Ltac read_hyps :=
  repeat match goal with
  | H : int_at _ _ _ (Some _) = Ok _ |- _ => apply int_some in H
  | H : int_at _ _ _ None = Ok _ |- _ => apply int_none in H
  | H : float_at _ _ _ (Some _) = Ok _ |- _ => apply float_some in H
  | H : float_at _ _ _ None = Ok _ |- _ => apply float_none in H
  | H : str_at _ _ (Some _) = Ok _ |- _ => apply str_some in H
  | H : str_at _ _ None = Ok _ |- _ => apply str_none in H
  | H : int_no_default _ _ _ = Ok _ |- _ => apply no_default in H
  | H : check_fields _ _ _ _ = Ok _ |- _ => apply check_fields_any, check_fields_ok in H; split_forall H
  end.
Ltac entries := unfold int_in, float_in, text_in in *; rewrite ?entry_V in *; rewrite ?accepts_goods in *.
Ltac positions := repeat match goal with
  | |- context [pos ?l ?s] => let n := eval vm_compute in (pos l s) in change (pos l s) with n
  | H : context [pos ?l ?s] |- _ => let n := eval vm_compute in (pos l s) in change (pos l s) with n in H
  end.
Ltac prove_G := first [ assumption | eapply G_W_int; eassumption | eapply G_W_float; eassumption | eapply G_V_int; eassumption
  | eapply G_V_float; eassumption | eapply G_V_text; eassumption | eapply G_W_text; eassumption | eapply G_present; eassumption
  | apply G_short; lia ].
Ltac prove_goods := match goal with
  | |- goods ?ti ?tf ?r ?n ?l => let l' := eval vm_compute in l in change (goods ti tf r n l'); cbn [goods]; repeat (apply conj; [prove_G|]); exact I
  end.
Ltac prove_V := first [ assumption | apply V_W; assumption ].
Ltac prove_W := first [ assumption | eapply W_V; eassumption ].
Ltac prove_fields := apply check_fields_ok; match goal with
  | |- Forall ?P ?l => let l' := eval vm_compute in l in change (Forall P l'); repeat (apply Forall_split; split; [cbn [fst snd kty negb]; prove_G |]); apply Forall_nil
  end.
Ltac step := match goal with
  | |- pbind (int_at ?ti ?r ?n (Some ?d)) _ = _ =>
      let H := fresh in eassert (H : int_at ti r n (Some d) = Ok _) by (apply int_some; eassumption); rewrite H; clear H; cbn [pbind]
  | |- pbind (int_at ?ti ?r ?n None) _ = _ =>
      let H := fresh in eassert (H : int_at ti r n None = Ok _) by (apply int_none; prove_W); rewrite H; clear H; cbn [pbind]
  | |- pbind (float_at ?ti ?r ?n (Some ?d)) _ = _ =>
      let H := fresh in eassert (H : float_at ti r n (Some d) = Ok _) by (apply float_some; eassumption); rewrite H; clear H; cbn [pbind]
  | |- pbind (float_at ?ti ?r ?n None) _ = _ =>
      let H := fresh in eassert (H : float_at ti r n None = Ok _) by (apply float_none; prove_W); rewrite H; clear H; cbn [pbind]
  | |- pbind (str_at ?r ?n (Some ?d)) _ = _ =>
      let H := fresh in eassert (H : str_at r n (Some d) = Ok _) by (apply str_some; eassumption); rewrite H; clear H; cbn [pbind]
  | |- pbind (str_at ?r ?n None) _ = _ =>
      let H := fresh in eassert (H : str_at r n None = Ok _) by (apply str_none; prove_W); rewrite H; clear H; cbn [pbind]
  | |- pbind (int_no_default ?ti ?r ?n) _ = _ =>
      let H := fresh in eassert (H : int_no_default ti r n = Ok _) by (apply no_default; prove_W); rewrite H; clear H; cbn [pbind]
  | |- pbind (check_fields ?ti ?tf ?r ?l) _ = _ =>
      let H := fresh in assert (H : check_fields ti tf r l = Ok tt) by prove_fields; rewrite H; clear H; cbn [pbind]
  end.
Ltac filled m := rewrite (accepts_fill _ _ _ _ m) by (vm_compute; lia); rewrite ?(entry_fill _ _ _ _ m) by (vm_compute; lia).
Ltac split_all := repeat match goal with H : _ /\ _ |- _ => destruct H end.
Ltac four H := destruct H as [<-|[<-|[<-|[<-|[]]]]].

Section Records.
Variable to_int : string -> option Z.
Variable to_float : string -> option R.

Lemma read_bus_iff : forall rev r0 k b, In rev [30; 32; 33; 34]%Z ->
  (read_bus to_int to_float rev r0 = Ok (k, b) <-> k = [KI (b_num b)] /\ bus_row to_int to_float rev r0 b).
Proof.
  intros rev r0 k b R. unfold read_bus, bus_row.
  assert (E : forall P : row -> Prop, (exists r, Forall2 before_slash r0 r /\ P r) <-> P (cut_row r0)).
  { intros P. split; [intros (r & H1 & H2); apply cut_row_iff in H1; subst; exact H2 | intros H; exists (cut_row r0); split; [apply cut_row_iff; reflexivity | exact H]]. }
  rewrite E. clear E. unfold pad_row.
  assert (L : List.length (cut_row r0) = List.length r0) by apply map_length.
  rewrite <- L. clear L. set (r := cut_row r0). clearbody r. clear r0.
  four R; cases_rev; entries; positions; split.
  1,3,5,7: intros H; match type of H with context [Nat.ltb ?a ?n] => destruct (Nat.ltb_spec a n) as [?|L] in H; [discriminate|] end; cbn [pbind] in H; unbind H; injection H as <- <-; read_hyps; cbn [b_num b_baskv b_ide b_vm b_va];
            repeat (apply conj; [first [reflexivity | prove_goods | prove_V] |]); prove_V.
  all: intros (-> & A & H); split_goods A; split_all; destruct b as [bn bk bi bm ba]; cbn [b_num b_baskv b_ide b_vm b_va] in *.
  all: match goal with |- context [Nat.ltb ?a ?n] => assert (L : Nat.ltb a n = false) by (apply Nat.ltb_ge;
        match n with S ?m => match goal with K : G _ _ _ m _ _ |- _ => apply G_len in K; exact K end end); rewrite L; clear L end; cbn [pbind].
  all: repeat step; reflexivity.
Qed.

Lemma trimmed_one : trimmed "1".
Proof.
  split; intros c r E.
  - injection E as <- _. unfold spacing. cbn. lia.
  - destruct r as [|d [|e r]]; try discriminate. injection E as <-. unfold spacing. cbn. lia.
Qed.
Lemma read_load_iff : forall rev r k x, In rev [30; 32; 33; 34]%Z -> Forall trimmed r ->
  (read_load to_int to_float rev r = Ok (k, x) <-> exists id, k = [KI (rl_bus x); KS id] /\ load_row to_int to_float rev r id x).
Proof.
  intros rev r k x R T. unfold read_load, load_row. cbv zeta.
  four R; cases_rev; entries; split.
  all: try (intros H; unbind H; injection H as <- <-; read_hyps; cbn [rl_bus rl_status rl_pl rl_ql rl_ip rl_iq rl_yp rl_yq];
    match goal with K : V string _ _ 1 _ ?i |- _ => pose proof (V_trim _ _ _ _ K T trimmed_one) as S; rewrite S; exists i end;
    entries; positions; repeat (apply conj; [first [reflexivity | prove_goods | prove_V] |]); prove_V).
  all: intros (id & -> & H); entries; positions; destruct H as [A H]; split_goods A; split_all;
    match goal with K : V string _ _ 1 _ ?i |- _ => pose proof (V_trim _ _ _ _ K T trimmed_one) as S end;
    repeat step; rewrite S; destruct x; reflexivity.
Qed.
Lemma read_fs_iff : forall r k x, Forall trimmed r ->
  (read_fs to_int to_float r = Ok (k, x) <-> exists id, k = [KI (fs_bus x); KS id] /\ fs_row to_int to_float r id x).
Proof.
  intros r k x T. unfold read_fs, fs_row. cbv zeta. split.
  - intros H. unbind H. injection H as <- <-. read_hyps. cbn [fs_bus fs_status fs_gl fs_bl].
    match goal with K : V string _ _ 1 _ ?i |- _ => pose proof (V_trim _ _ _ _ K T trimmed_one) as S; rewrite S; exists i end.
    entries. positions. repeat (apply conj; [first [reflexivity | prove_goods | prove_V] |]); prove_V.
  - intros (id & -> & H). entries. positions. destruct H as [A H]. split_goods A. split_all.
    match goal with K : V string _ _ 1 _ ?i |- _ => pose proof (V_trim _ _ _ _ K T trimmed_one) as S end.
    repeat step. rewrite S. destruct x. reflexivity.
Qed.
Lemma trimmed_nil : trimmed "".
Proof. split; [intros c r E; discriminate | intros c [|] E; discriminate]. Qed.
Lemma trimmed_fill : forall r n, Forall trimmed r -> Forall trimmed (fill_row r n).
Proof.
  intros r n H. unfold fill_row. apply Forall_app. split; [exact H|].
  apply Forall_forall. intros t Ht. apply repeat_spec in Ht. subst t. apply trimmed_nil.
Qed.
Lemma fill_len : forall r n, (n <= List.length (fill_row r n))%nat.
Proof. intros r n. unfold fill_row. rewrite app_length, repeat_length. lia. Qed.
Lemma read_branch_iff : forall rev r k x, In rev [30; 32; 33; 34]%Z -> Forall trimmed r ->
  (read_branch to_int to_float rev r = Ok (k, x) <->
   exists ckt, k = [KI (br_i x); KI (br_j x); KS ckt] /\ branch_row to_int to_float rev r ckt x).
Proof.
  intros rev r k x R T0. unfold read_branch, branch_row, int_in, float_in, text_in. cbv zeta.
  four R; cases_rev; split; [intros H | intros (ckt & -> & H) | intros H | intros (ckt & -> & H) | intros H | intros (ckt & -> & H) | intros H | intros (ckt & -> & H)].
  all: match goal with T0 : Forall trimmed ?r, H : context [fill_row ?r ?m] |- _ => pose proof (trimmed_fill r m T0) as T; pose proof (fill_len r m) as L | T0 : Forall trimmed ?r |- context [fill_row ?r ?m] => pose proof (trimmed_fill r m T0) as T; pose proof (fill_len r m) as L end.
  1,3,5,7: unbind H; injection H as <- <-; cbn [Nat.add] in *; read_hyps; cbn [br_i br_j br_r br_x br_b br_gi br_bi br_gj br_bj br_st];
    match goal with K : V string _ _ 2 _ ?i |- _ => pose proof (V_trim _ _ _ _ K T trimmed_one) as S; rewrite S; exists i end;
    match type of T with Forall _ (fill_row _ ?m) => filled m end;
    entries; positions; repeat (apply conj; [first [reflexivity | prove_goods | prove_V] |]); prove_V.
  all: match type of T with Forall _ (fill_row _ ?m) => rewrite (accepts_fill _ _ _ _ m) in H by (vm_compute; lia); rewrite ?(entry_fill _ _ _ _ m) in H by (vm_compute; lia) end;
    entries; positions; destruct H as [A H]; split_goods A; split_all;
    match goal with K : V string _ _ 2 _ ?i |- _ => pose proof (V_trim _ _ _ _ K T trimmed_one) as S end;
    cbn [Nat.add]; repeat step; rewrite S; destruct x; reflexivity.
Qed.

End Records.
