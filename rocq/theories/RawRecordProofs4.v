(** Each record class reads exactly what its layout says: transformers. *)
From Coq Require Import Reals ZArith String Ascii List Bool Lia Lra.
From Verif Require Import PyExc RawTransformers RawParser GlmText RawText SpecRawText RawFieldProofs RawRecordProofs.
Import ListNotations.
Local Open Scope string_scope.

Section Records.
Variable to_int : string -> option Z.
Variable to_float : string -> option R.

Lemma code_iff : forall x z, cod_of x = z <-> code x z.
Proof.
  intros x z. unfold cod_of, code, reqb. destruct (Req_EM_T x 1) as [->|N1]; [|destruct (Req_EM_T x 2) as [->|N2]]; split.
  - intros <-. auto.
  - intros [[_ H]|[[H _]|[H _]]]; [congruence | lra | congruence].
  - intros <-. auto.
  - intros [[H _]|[[_ H]|[_ [H _]]]]; [lra | congruence | congruence].
  - intros <-. auto.
  - intros [[H _]|[[H _]|[_ [_ H]]]]; congruence.
Qed.
Ltac wnames := cbn [w_v w_nom w_ang w_rata w_ratb w_ratc w_cod w_rma w_rmi w_ntp].
Lemma read_winding_iff : forall rev (third : bool) r w, In rev [30; 32; 33; 34]%Z ->
  (read_winding to_int to_float rev (if third then 13 else 15)%nat r = Ok w <-> winding_row to_int to_float third rev r w).
Proof.
  intros rev third r w R. unfold read_winding, winding_row, float_in. cbv zeta.
  four R; destruct third; cases_rev; split; intros H.
  1,3,5,7,9,11,13,15: unbind H; injection H as <-; read_hyps; wnames; try (match goal with K : G _ _ _ 16 _ _ |- _ => pose proof (G_len _ _ _ _ _ _ K) as L end); entries; positions;
     repeat (apply conj; [first [prove_goods | prove_V | eexists; split; [entries; positions; eassumption | apply code_iff; reflexivity]] |]); prove_V.
  all: destruct H as [A H]; repeat match type of H with _ /\ _ => let K := fresh "K" in destruct H as [K H] end;
       match goal with K : exists _, _ |- _ => destruct K as (cx & K & KC); apply code_iff in KC end; entries; positions; split_goods A; repeat step;
       rewrite KC; destruct w; reflexivity.
Qed.

Notation G := (G to_int to_float).
Lemma fine_field : forall r n ty, G r n ty false <-> exists t, nth_error r n = Some t /\ (t = "" \/ legible to_int to_float ty t).
Proof.
  intros r n ty. unfold RawFieldProofs.G. split; intros (t & H & K); exists t; (split; [exact H|]).
  - destruct K as [[-> _]|[_ K]]; auto.
  - destruct (string_dec t "") as [->|N]; [auto|]. right. split; [exact N|]. destruct K as [K|K]; [contradiction | exact K].
Qed.
Lemma pair_ok : forall r n P, (forall f : field, P f <-> G r (fst (fst f)) (kty (snd (fst f))) (negb (snd f))) ->
  (Forall P (if Nat.ltb (n + 1) (List.length r) then [(n, KInt, true); ((n + 1)%nat, KFloat, true)] else []) <->
   (forall o f, nth_error r n = Some o -> nth_error r (n + 1) = Some f ->
      (o = "" \/ legible to_int to_float FInt o) /\ (f = "" \/ legible to_int to_float FFloat f))).
Proof.
  intros r n P HP. destruct (Nat.ltb_spec (n + 1) (List.length r)) as [L|L].
  - rewrite !Forall_split, !HP. cbn [fst snd kty negb]. rewrite !fine_field. split.
    + intros ((o & H1 & H2) & (f & H3 & H4) & _) o' f' E1 E2. rewrite H1 in E1. rewrite H3 in E2. injection E1 as <-. injection E2 as <-. auto.
    + intros H. destruct (nth_error r n) as [o|] eqn:E1; [|apply nth_error_None in E1; lia].
      destruct (nth_error r (n + 1)) as [f|] eqn:E2; [|apply nth_error_None in E2; lia].
      destruct (H o f eq_refl eq_refl) as [H1 H2]. split; [exists o; auto|]. split; [exists f; auto | constructor].
  - split; [|constructor]. intros _ o f _ E. apply nth_error_None in L. congruence.
Qed.
Lemma owner_ok : forall rev r more, check_fields to_int to_float r ([(9, KInt, true); (10, KStr, true)]%nat ++ owner_fields rev (List.length r) ++ more)%list = Ok tt <->
  G r 9 FInt false /\ G r 10 FText false /\ G r 12 FInt false /\ G r 13 FFloat false /\ owners to_int to_float r /\
  (v33 rev = true -> G r 20 FText false) /\ check_fields to_int to_float r more = Ok tt.
Proof.
  intros rev r more. rewrite !check_fields_ok. unfold owner_fields, owners. rewrite !Forall_app, !Forall_split. cbn [fst snd kty negb].
  pose proof (pair_ok r 14 _ (fun f => iff_refl _)) as P14. pose proof (pair_ok r 16 _ (fun f => iff_refl _)) as P16.
  pose proof (pair_ok r 18 _ (fun f => iff_refl _)) as P18. cbn [Nat.add] in P14, P16, P18. rewrite P14, P16, P18.
  assert (D : forall F, Forall F (if v33 rev then [(20%nat, KStr, true)] else []) <-> (v33 rev = true -> F (20%nat, KStr, true))).
  { intros F. destruct (v33 rev); [rewrite Forall_split | split; [discriminate | constructor]]. split; [tauto|]. intros H. split; [auto | constructor]. }
  rewrite D. cbn [fst snd kty negb Nat.add].
  assert (N : forall F : field -> Prop, Forall F [] <-> True) by (intros F; split; [trivial | constructor]).
  assert (N' : forall F : nat -> Prop, Forall F [] <-> True) by (intros F; split; [trivial | constructor]).
  rewrite !N, ?N'. tauto.
Qed.
Lemma owner_ok0 : forall rev r, check_fields to_int to_float r ([(9, KInt, true); (10, KStr, true)]%nat ++ owner_fields rev (List.length r))%list = Ok tt <->
  G r 9 FInt false /\ G r 10 FText false /\ G r 12 FInt false /\ G r 13 FFloat false /\ owners to_int to_float r /\
  (v33 rev = true -> G r 20 FText false).
Proof.
  intros rev r. pose proof (owner_ok rev r []) as H. rewrite app_nil_r in H. rewrite H. split; [tauto|]. intros K.
  assert (check_fields to_int to_float r [] = Ok tt) by reflexivity. tauto.
Qed.
Lemma W_text : forall r n t, W string Some r n t <-> nth_error r n = Some t /\ t <> "".
Proof.
  intros r n t. unfold W. split.
  - intros (u & H1 & H2 & H3). injection H3 as ->. auto.
  - intros [H1 H2]. exists t. auto.
Qed.
Lemma W_int_text : forall r n t v, W string Some r n t -> (parse_token to_int None t = Ok v <-> W Z to_int r n v).
Proof.
  intros r n t v H. apply W_text in H as [H1 H2]. rewrite parse_none. unfold W. split.
  - intros [_ H]. exists t. auto.
  - intros (u & E & H3 & H4). rewrite H1 in E. injection E as <-. auto.
Qed.
Lemma V_zero : forall r n, V string (fun t => Some t) r n "" "0" <-> nth_error r n = Some "0".
Proof.
  intros r n. unfold V. split.
  - intros (t & H & [[_ K]|[_ K]]); [discriminate | injection K as ->; exact H].
  - intros H. exists "0". split; [exact H|]. right. split; [discriminate | reflexivity].
Qed.
Ltac xnames := cbn [t_i t_j t_cw t_cz t_cm t_mag1 t_mag2 t_stat t_z t_w1 t_windv2 t_nomv2 z_r z_x z_base
   h_i h_j h_k h_cw h_cz h_cm h_mag1 h_mag2 h_stat h_z12 h_z23 h_z31 h_w1 h_w2 h_w3 h_vmstar h_anstar].
Lemma read_x2_iff : forall rev r r2 r3 r4 k x, In rev [30; 32; 33; 34]%Z ->
  (tok r 2 = Ok "0" /\ read_x2 to_int to_float rev r r2 r3 r4 = Ok (k, x) <->
   exists si sj ckt, k = [KS si; KS sj; KS ckt] /\ x2_rows to_int to_float rev r r2 r3 r4 si sj ckt x).
Proof.
  intros rev r r2 r3 r4 k x R. unfold read_x2, x2_rows, z_in, int_in, float_in, text_in. cbv zeta. rewrite tok_ok.
  pose proof (fun w => read_winding_iff rev false r3 w R) as RW. cbv iota in RW.
  split.
  - intros [HK H]. unbind H. injection H as <- <-.
    match goal with K : read_winding _ _ _ _ _ = Ok _ |- _ => apply RW in K end.
    match goal with K : check_fields _ _ _ _ = Ok _ |- _ => apply check_fields_any, owner_ok0 in K as (O1 & O2 & O3 & O4 & O5 & O6) end.
    read_hyps. repeat match goal with K : parse_token _ None ?t = Ok _, W1 : W string _ _ _ ?t |- _ => apply (W_int_text _ _ _ _ W1) in K end.
    do 3 eexists. split; [reflexivity|]. xnames. pose proof (G_present to_int to_float _ _ _ HK) as GK.
    entries; four R; positions.
    1,2: repeat (apply conj; [first [exact O5 | prove_goods | apply V_zero; exact HK | prove_V | assumption | repeat (apply conj; [prove_V|]); prove_V] |]); prove_V.
    all: specialize (O6 eq_refl); pose proof (G_len _ _ _ _ _ _ O6) as L;
      repeat (apply conj; [first [exact O5 | prove_goods | apply V_zero; exact HK | prove_V | assumption | repeat (apply conj; [prove_V|]); prove_V] |]); prove_V.
  - intros (si & sj & ckt & -> & H). destruct H as (A & O & HK & H). entries. four R; positions; split_goods A; split_all.
    all: apply V_zero in HK; (split; [exact HK|]).
    all: match goal with K : goods _ _ _ _ z2_layout |- _ => split_goods K end; match goal with K : goods _ _ _ _ side_layout |- _ => split_goods K end.
    all: assert (WI : W string Some r 0 si) by (eapply W_V; eassumption).
    all: assert (WJ : W string Some r 1 sj) by (eapply W_V; eassumption).
    all: assert (WC : W string Some r 3 ckt) by (eapply W_V; eassumption).
    all: rewrite (proj2 (str_none r 0 si) WI); cbn [pbind]; rewrite (proj2 (str_none r 1 sj) WJ); cbn [pbind]; rewrite (proj2 (str_none r 3 ckt) WC); cbn [pbind].
    all: rewrite (proj2 (W_int_text r 0 si (t_i x) WI)) by prove_W; cbn [pbind]; rewrite (proj2 (W_int_text r 1 sj (t_j x) WJ)) by prove_W; cbn [pbind].
    all: do 6 step; match goal with |- pbind (check_fields ?ti ?tf ?rr ?l) _ = _ => assert (CF : check_fields ti tf rr l = Ok tt) by
       (apply owner_ok0; repeat (apply conj; [first [exact O | prove_G]|]); let HV := fresh in intros HV; first [discriminate HV | prove_G]) end; rewrite CF; cbn [pbind]; repeat step.
    all: rewrite (proj2 (RW (t_w1 x))) by assumption; cbn [pbind]; repeat step; destruct x as [xi xj xw xz xm x1 x2 xs [? ? ?] xw1 xv xn]; reflexivity.
Qed.
End Records.
