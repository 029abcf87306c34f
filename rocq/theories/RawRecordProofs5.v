(** Each record class reads exactly what its layout says: three-winding transformers, records not used. *)
From Coq Require Import Reals ZArith String Ascii List Bool Lia Lra.
From Verif Require Import PyExc RawTransformers RawParser GlmText RawText SpecRawText RawFieldProofs RawRecordProofs RawRecordProofs4.
Import ListNotations.
Local Open Scope string_scope.

Section Records.
Variable to_int : string -> option Z.
Variable to_float : string -> option R.
Notation G := (G to_int to_float).
Ltac xnames := cbn [z_r z_x z_base h_i h_j h_k h_cw h_cz h_cm h_mag1 h_mag2 h_stat h_z12 h_z23 h_z31 h_w1 h_w2 h_w3 h_vmstar h_anstar].

Lemma more_ok : forall r, check_fields to_int to_float r (if Nat.ltb 14 (List.length r) then [(14, KFloat, true)] else [])%nat = Ok tt <->
  (forall t, nth_error r 14 = Some t -> t = "" \/ legible to_int to_float FFloat t).
Proof.
  intros r. rewrite check_fields_ok. destruct (Nat.ltb_spec 14 (List.length r)) as [L|L].
  - rewrite Forall_split. cbn [fst snd kty negb]. rewrite fine_field. split.
    + intros [(t & H1 & H2) _] t' E. rewrite H1 in E. injection E as <-. exact H2.
    + intros H. split; [|constructor]. destruct (nth_error r 14) as [t|] eqn:E; [exists t; auto | apply nth_error_None in E; lia].
  - split; [|constructor]. intros _ t E. apply nth_error_None in L. congruence.
Qed.
Lemma read_zpair_iff : forall r n z, read_zpair to_float r n = Ok z <->
  V R to_float r n 0%R (z_r z) /\ V R to_float r (n + 1) 0%R (z_x z) /\ V R to_float r (n + 2) 0%R (z_base z).
Proof.
  intros r n z. unfold read_zpair. split.
  - intros H. unbind H. injection H as <-. read_hyps. xnames. auto.
  - intros (H1 & H2 & H3). repeat step. destruct z. reflexivity.
Qed.
Lemma read_x3_iff : forall rev r r2 r3 r4 r5 k x, In rev [30; 32; 33; 34]%Z ->
  ((exists s, tok r 2 = Ok s /\ s <> "0") /\ read_x3 to_int to_float rev r r2 r3 r4 r5 = Ok (k, x) <->
   exists ckt, k = [KI (h_i x); KI (h_j x); KI (h_k x); KS ckt] /\ x3_rows to_int to_float rev r r2 r3 r4 r5 ckt x).
Proof.
  intros rev r r2 r3 r4 r5 k x R. unfold read_x3, x3_rows, z_in, int_in, float_in, text_in. cbv zeta.
  pose proof (fun q w => read_winding_iff to_int to_float rev false q w R) as RW. cbv iota in RW.
  pose proof (fun q w => read_winding_iff to_int to_float rev true q w R) as RT. cbv iota in RT.
  split.
  - intros [(s & HK & HN) H]. apply tok_ok in HK. unbind H. injection H as <- <-.
    match goal with K : read_winding _ _ _ _ r3 = Ok _ |- _ => apply RW in K end.
    match goal with K : read_winding _ _ _ _ r4 = Ok _ |- _ => apply RW in K end.
    match goal with K : read_winding _ _ _ _ r5 = Ok _ |- _ => apply RT in K end.
    repeat match goal with K : read_zpair _ _ _ = Ok _ |- _ => apply read_zpair_iff in K; cbn [Nat.add] in K; destruct K as (? & ? & ?) end.
    match goal with K : check_fields _ _ _ _ = Ok _ |- _ => apply check_fields_any, owner_ok in K as (O1 & O2 & O3 & O4 & O5 & O6 & O7) end.
    pose proof (proj1 (more_ok r) O7) as O8; clear O7; rename O8 into O7. read_hyps. eexists. split; [reflexivity|]. xnames.
    assert (ZK : ~ V string (fun t => Some t) r 2 "" "0") by (rewrite V_zero; congruence).
    entries; four R; positions.
    1,2: repeat (apply conj; [first [exact O5 | exact ZK | exact O7 | prove_goods | prove_V | assumption | repeat (apply conj; [prove_V|]); prove_V] |]); assumption.
    all: specialize (O6 eq_refl); pose proof (G_len _ _ _ _ _ _ O6) as L;
      repeat (apply conj; [first [exact O5 | exact ZK | exact O7 | prove_goods | prove_V | assumption | repeat (apply conj; [prove_V|]); prove_V] |]); assumption.
  - intros (ckt & -> & H). destruct H as (A & O & HK & HM & H). pose proof (proj2 (more_ok r) HM) as HM2; clear HM; rename HM2 into HM. entries. four R; positions; split_goods A; split_all.
    all: rewrite V_zero in HK; split;
      [match goal with K : V _ _ _ 2 _ (h_k _) |- _ => destruct K as (s & Hs & _); exists s; split; [apply tok_ok; exact Hs | congruence] end|].
    all: match goal with K : goods _ _ _ _ z3_layout |- _ => split_goods K end.
    all: do 10 step; match goal with |- pbind (check_fields ?ti ?tf ?rr ?l) _ = _ => assert (CF : check_fields ti tf rr l = Ok tt) by
       (apply owner_ok; repeat (apply conj; [first [exact O | prove_G | let HV := fresh in intros HV; first [discriminate HV | prove_G]]|]); exact HM) end; rewrite CF; cbn [pbind].
    all: rewrite (proj2 (read_zpair_iff r2 0 (h_z12 x))) by (cbn [Nat.add]; auto); cbn [pbind];
         rewrite (proj2 (read_zpair_iff r2 3 (h_z23 x))) by (cbn [Nat.add]; auto); cbn [pbind];
         rewrite (proj2 (read_zpair_iff r2 6 (h_z31 x))) by (cbn [Nat.add]; auto); cbn [pbind]; repeat step.
    all: rewrite (proj2 (RW r3 (h_w1 x))) by assumption; cbn [pbind]; rewrite (proj2 (RW r4 (h_w2 x))) by assumption; cbn [pbind];
         rewrite (proj2 (RT r5 (h_w3 x))) by assumption; cbn [pbind]; destruct x; reflexivity.
Qed.

(** records nothing is made of *)
Fixpoint fields_of (n : nat) (l : list column) : list field :=
  match l with
  | [] => []
  | (_, ty, need) :: l =>
      (n, match ty with FInt => KInt | FFloat => KFloat | FText => KStr | FDigits => KDigits end, negb need) :: fields_of (S n) l
  end.
Lemma fields_of_ok : forall r l, check_fields to_int to_float r (fields_of 0 l) = Ok tt <-> accepts to_int to_float l false r.
Proof.
  intros r l. rewrite accepts_goods, check_fields_ok. generalize 0%nat as n. induction l as [|[[name ty] need] l IH]; intros n; cbn [fields_of goods].
  - split; [trivial | constructor].
  - rewrite Forall_split, IH. cbn [fst snd]. rewrite negb_involutive. destruct ty; cbn [kty]; tauto.
Qed.
Lemma check_dc_iff : forall r1 r2 r3 u, check_dc to_int to_float r1 r2 r3 = Ok u <->
  accepts to_int to_float dc1_layout false r1 /\ accepts to_int to_float dc2_layout false r2 /\ accepts to_int to_float dc3_layout false r3.
Proof.
  intros r1 r2 r3 []. rewrite <- !fields_of_ok. unfold check_dc. split.
  - intros H. apply bind_ok in H as ([] & H1 & H). apply bind_ok in H as ([] & H2 & H). auto.
  - intros (H1 & H2 & H3). rewrite bind_ok. exists tt. split; [exact H1|]. rewrite bind_ok. exists tt. auto.
Qed.
Lemma check_vsc_iff : forall r1 r2 r3 u, check_vsc to_int to_float r1 r2 r3 = Ok u <->
  accepts to_int to_float vsc1_layout true r1 /\ accepts to_int to_float vsc2_layout false r2 /\ accepts to_int to_float vsc2_layout false r3.
Proof.
  intros r1 r2 r3 []. rewrite (accepts_fill _ _ vsc1_layout r1 11) by (vm_compute; lia). rewrite <- !fields_of_ok. unfold check_vsc. split.
  - intros H. apply bind_ok in H as ([] & H1 & H). apply bind_ok in H as ([] & H2 & H). auto.
  - intros (H1 & H2 & H3). rewrite bind_ok. exists tt. split; [exact H1|]. rewrite bind_ok. exists tt. auto.
Qed.
Lemma check_multi_iff : forall r u, check_multi to_int to_float r = Ok u <-> (5 <= List.length r)%nat /\ accepts to_int to_float group_layout true r.
Proof.
  intros r []. unfold check_multi. cbv zeta. rewrite (accepts_fill _ _ group_layout r 13) by (vm_compute; lia). rewrite <- fields_of_ok.
  destruct (Nat.leb_spec 5 (List.length r)) as [L|L]; cbn [andb].
  - assert (E : (if Nat.ltb (List.length r) 13 then fill_row r 13 else r) = fill_row r 13).
    { destruct (Nat.ltb_spec (List.length r) 13) as [K|K]; [reflexivity|]. unfold fill_row. replace (13 - List.length r)%nat with 0%nat by lia. cbn. rewrite app_nil_r. reflexivity. }
    rewrite E. pose proof (fill_len r 13) as F.
    replace (multi_fields (List.length (fill_row r 13))) with (fields_of 0 group_layout); [tauto|].
    unfold multi_fields. replace (Nat.min (List.length (fill_row r 13) - 5) 8) with 8%nat by lia. reflexivity.
  - split; [|lia]. intros H. exfalso. apply check_fields_ok in H. unfold multi_fields in H. rewrite Forall_forall in H.
    assert (I : In (4%nat, KInt, false) (req KInt [0; 1] ++ opt_fields KStr [2] ++ opt_fields KInt [3] ++ req KInt [4] ++ opt_fields KInt (seq 5 (Nat.min (List.length r - 5) 8)))%list).
    { right. right. right. right. left. reflexivity. }
    specialize (H _ I). apply G_len in H. cbn in H. lia.
Qed.
End Records.
