(** Phases and loads of Reader.parse. *)
From Coq Require Import Reals ZArith String Ascii List Bool Lia Lra Arith.
From Verif Require Import PyExc Components UnbalancedLine GlmText SpecGlm GlmBase LineImpedance ThreePhase GlmReader SpecReader ReaderBase.
Import ListNotations.
Local Open Scope string_scope.
Set Implicit Arguments.

(** *** phases *)
Lemma is_mark_chr : forall c, is_mark (chr c) = marker c.
Proof.
  intros c. unfold is_mark, marker, GlmText.mem, chr. cbn [existsb].
  rewrite orb_false_r, !orb_assoc. cbn [String.eqb]. destruct (c =? "N")%char, (c =? "S")%char, (c =? "D")%char, (c =? "G")%char; reflexivity.
Qed.
Lemma phases_of : forall core, filter (fun p => negb (is_mark p)) (letters core) = phase_letters core.
Proof.
  intros core. rewrite letters_chars. unfold phase_letters. induction (chars core) as [| c l IH]; [reflexivity |].
  cbn [map filter]. rewrite is_mark_chr. destruct (marker c); cbn [negb]; [exact IH | cbn [map]; now rewrite IH].
Qed.
Lemma mem_letters : forall c s, GlmText.mem (chr c) (letters s) = true <-> In c (chars s).
Proof. intros. rewrite mem_iff. apply in_letters. Qed.
Definition phases_ok (core : string) (pi : phase_info) : Prop :=
  pi_phases pi = phase_letters core /\ (pi_neutral pi = true <-> In "N"%char (chars core)) /\
  (pi_triplex pi = true <-> In "S"%char (chars core)) /\
  (pi_delta pi = true <-> ~ In "N"%char (chars core) /\ ~ In "S"%char (chars core)).
Lemma bool_ext : forall b c : bool, (b = true <-> c = true) -> b = c.
Proof. intros [] [] H; try reflexivity; [symmetry; tauto | tauto]. Qed.
Lemma parse_phases_ok : forall core s, wrapped core s -> forall pi,
  parse_phases s = Ok pi <->
  phase_letters core <> [] /\ (In "S"%char (chars core) -> List.length (phase_letters core) = 1%nat) /\ phases_ok core pi.
Proof.
  intros core s W pi. unfold parse_phases. rewrite (clean_wrapped W), phases_of.
  change "N" with (chr "N"%char). change "S" with (chr "S"%char).
  pose proof (mem_letters "N"%char core) as HN. pose proof (mem_letters "S"%char core) as HS.
  destruct (GlmText.mem (chr "N"%char) (letters core)); destruct (GlmText.mem (chr "S"%char) (letters core));
    cbn [negb andb]; unfold phases_ok;
    (destruct (Nat.eqb_spec (List.length (phase_letters core)) 0) as [L | L];
     [split; [discriminate | intros (H & _); destruct (phase_letters core); [congruence | discriminate]] |]);
    try (destruct (Nat.ltb_spec 1 (List.length (phase_letters core))) as [L1 | L1]; cbn [orb];
         [split; [discriminate | intros (_ & H & _); specialize (H (proj1 HS eq_refl)); lia] |]);
    (split;
     [intros H; injection H as <-; cbn; split; [intros h; now rewrite h in L |]; split;
        [try (intros _; lia); try (intros h; apply HS in h; discriminate) | intuition congruence]
     |intros (_ & _ & H1 & H2 & H3 & H4); destruct pi as [ps de tr ne]; cbn in *; subst ps; repeat f_equal;
      apply bool_ext; intuition congruence]).
Qed.
Lemma parse_phases_err : forall s e, parse_phases s = Err e -> e = Raised.
Proof.
  intros s e. unfold parse_phases. cbv zeta.
  repeat match goal with |- context [if ?b then _ else _] => destruct b end; congruence.
Qed.
Lemma parse_phases_fail : forall core s, wrapped core s ->
  (phase_letters core = [] \/ In "S"%char (chars core) /\ List.length (phase_letters core) <> 1%nat) <-> parse_phases s = Err Raised.
Proof.
  intros core s W. destruct (parse_phases s) as [pi | e] eqn:P.
  - apply (parse_phases_ok W) in P. destruct P as (H1 & H2 & _). split; [intuition congruence | discriminate].
  - rewrite (parse_phases_err _ P). split; [reflexivity | intros _].
    destruct (phase_letters core) as [| p ps] eqn:L; [tauto |]. right.
    destruct (in_dec ascii_dec "S"%char (chars core)) as [i | n].
    + split; [exact i |]. intros L1.
      assert (X : parse_phases s = Ok {| pi_phases := p :: ps; pi_delta := false; pi_triplex := true;
          pi_neutral := if in_dec ascii_dec "N"%char (chars core) then true else false |}); [| congruence].
      apply (parse_phases_ok W). rewrite L. split; [congruence |]. split; [intros _; exact L1 |].
      unfold phases_ok. cbn. destruct (in_dec ascii_dec "N"%char (chars core)); intuition congruence.
    + assert (X : parse_phases s = Ok {| pi_phases := p :: ps; pi_triplex := false;
          pi_delta := if in_dec ascii_dec "N"%char (chars core) then false else true;
          pi_neutral := if in_dec ascii_dec "N"%char (chars core) then true else false |}); [| congruence].
      apply (parse_phases_ok W). rewrite L. split; [congruence |]. split; [intros h; tauto |].
      unfold phases_ok. cbn. destruct (in_dec ascii_dec "N"%char (chars core)); intuition congruence.
Qed.

(** *** base power *)
Lemma cut_at_free : forall c s, free c s -> cut_at c s = s.
Proof.
  induction s as [| d s IH]; intros F; [reflexivity |]. cbn.
  destruct (Ascii.eqb_spec d c); [subst; destruct F; cbn; tauto |]. f_equal. apply IH. intros H. apply F. cbn. tauto.
Qed.
Lemma star2_split0 : forall a b, free "*" a -> free "*" b -> star2 (a ++ String "*" b) = (a, Some b).
Proof.
  induction a as [| c a IH]; intros b Fa Fb.
  - cbn. now rewrite cut_at_free.
  - cbn [String.append star2]. destruct (Ascii.eqb_spec c "*"); [subst; destruct Fa; cbn; tauto |].
    rewrite IH; [reflexivity | intros H; apply Fa; cbn; tauto | exact Fb].
Qed.
Lemma star2_split : forall a b, free "*" a -> free "*" b -> star2 (a ++ "*" ++ b) = (a, Some b).
Proof. exact star2_split0. Qed.
Lemma base_power_value : forall E sch s v v', base_power E sch s = Ok v' -> base_value E sch s v -> v' = v.
Proof.
  intros E sch s v v' H B. unfold base_power in H. destruct B as [v F | a b x y F S Fa Fb X Y N | a b x y F S Fa Fb N Y X | a b F S Fa Fb N1 N2];
    rewrite F in H.
  - congruence.
  - rewrite S, star2_split in H by assumption. destruct X as (l & r & t & Hs & Hn & Ht).
    assert (D : dget a sch = Some t) by (apply dget_some; eauto). apply dget_none in N. rewrite D, N in H.
    unfold fl in H. rewrite Ht, Y in H. cbn in H. congruence.
  - rewrite S, star2_split in H by assumption. destruct X as (l & r & t & Hs & Hn & Ht).
    assert (D : dget b sch = Some t) by (apply dget_some; eauto). apply dget_none in N. rewrite D, N in H.
    unfold fl in H. rewrite Ht, Y in H. cbn in H. congruence.
  - rewrite S, star2_split in H by assumption. apply dget_none in N1, N2. rewrite N1, N2 in H. cbn in H. congruence.
Qed.
Lemma zip_given_all : forall E o c ks b, zip_given E o c ks = Ok b ->
  if b then forall k, In k ks -> ~ silent o (k ++ c) else exists k, In k ks /\ silent o (k ++ c).
Proof.
  induction ks as [| k ks IH]; intros b H; cbn in H.
  - injection H as <-. cbn. tauto.
  - destruct (gattr o (k ++ c)) as [s |] eqn:G.
    + apply bind_ok in H. destruct H as (x & _ & H). apply IH in H. destruct b.
      * intros k' [<- | I]; [intros S; apply gattr_silent in S; congruence | now apply H].
      * destruct H as (k' & I & S). exists k'. cbn. tauto.
    + injection H as <-. exists k. cbn. apply gattr_silent in G. tauto.
Qed.

(** *** one connection *)
Local Open Scope R_scope.
Definition P := map dp_p. Definition Q := map dp_q.
Definition nz (l : list cnum) : list cnum := filter nonzero l.
Definition all_at (ph : option string) (l : list dphload) : Prop := Forall (fun x => dp_phase x = ph) l.
Record totals (ph : option string) (p q : R) (zs is : list cnum) (l : list dphload) : Prop := {
  t_ph : all_at ph l; t_p : sumR (P l) = p; t_q : sumR (Q l) = q; t_z : nz (map dp_z l) = nz zs; t_i : nz (map dp_i l) = nz is }.
Lemma sumR_app : forall a b, sumR (a ++ b) = sumR a + sumR b.
Proof. unfold sumR. induction a as [| x a IH]; intros b; cbn [app fold_right]; [lra |]. rewrite IH. lra. Qed.
Lemma nz_app : forall a b, nz (a ++ b)%list = (nz a ++ nz b)%list.
Proof. intros. apply filter_app. Qed.
Lemma totals_app : forall ph p q zs is p' q' zs' is' l l',
  totals ph p q zs is l -> totals ph p' q' zs' is' l' -> totals ph (p + p') (q + q') (zs ++ zs')%list (is ++ is')%list (l ++ l')%list.
Proof.
  intros ph p q zs is p' q' zs' is' l l' [] []. constructor; unfold P, Q in *; rewrite ?map_app, ?sumR_app, ?nz_app; try congruence.
  apply Forall_app. tauto.
Qed.
Lemma totals_nil : forall ph, totals ph 0 0 [] [] [].
Proof. intros. constructor; try reflexivity. constructor. Qed.
Lemma both0_iff : forall a b, both0 a b = true <-> a = 0 /\ b = 0.
Proof. intros a b. unfold both0, is0. destruct (Req_EM_T a 0), (Req_EM_T b 0); cbn; split; intros; try tauto; try discriminate; try easy. Qed.

Lemma totals_zero : forall ph p q zs is l, totals ph p q zs is l -> forall p' q' zs' is',
  p = p' -> q = q' -> nz zs = nz zs' -> nz is = nz is' -> totals ph p' q' zs' is' l.
Proof. intros ph p q zs is l [] p' q' zs' is' -> -> Hz Hi. constructor; congruence. Qed.
Lemma nonzero_iff : forall z, nonzero z = false <-> z = (0, 0).
Proof.
  intros [a b]. unfold nonzero. cbn. destruct (both0 a b) eqn:B; cbn.
  - apply both0_iff in B. destruct B. subst. tauto.
  - split; [discriminate |]. intros H. injection H as -> ->. destruct (both0_iff 0 0) as [_ h]. rewrite h in B; [discriminate | tauto].
Qed.
Lemma nz0 : nz [(0, 0)] = [].
Proof. unfold nz. cbn [filter]. now rewrite (proj2 (nonzero_iff (0, 0)) eq_refl). Qed.
Section One.
Variables (E : prims) (sch : list (string * string)) (o : gobj) (delta : bool).
Ltac scan H := unfold power_load, impedance_load, current_load in H; apply bind_ok in H; destruct H as (?x & ?Hx & H); injection H as <-.
Lemma power_totals : forall pre c l s, power_load E o delta pre c = Ok l -> complex0 E o (pre ++ c) s ->
  totals (load_phase delta c) (fst s) (snd s) [] [] l.
Proof.
  intros pre c l s H C. scan H. destruct (cattr_ok _ _ _ Hx) as [[-> S] | (v & -> & V)].
  - rewrite (complex0_none S C). apply totals_nil.
  - rewrite <- (complex0_some V C). destruct (both0 (fst v) (snd v)) eqn:B.
    + apply both0_iff in B. destruct B as [-> ->]. apply totals_nil.
    + constructor; unfold P, Q; cbn; try lra; [constructor; [reflexivity | constructor] | exact nz0 | exact nz0].
Qed.
Lemma impedance_totals : forall pre c l z, impedance_load E o delta pre c = Ok l -> complex0 E o (pre ++ c) z ->
  totals (load_phase delta c) 0 0 [z] [] l.
Proof.
  intros pre c l z H C. scan H. destruct (cattr_ok _ _ _ Hx) as [[-> S] | (v & -> & V)].
  - rewrite (complex0_none S C). eapply totals_zero; [apply totals_nil | reflexivity | reflexivity | symmetry; exact nz0 | reflexivity].
  - rewrite <- (complex0_some V C). destruct (both0 (fst v) (snd v)) eqn:B.
    + apply both0_iff in B. destruct v as [a b]. cbn in B. destruct B as [-> ->].
      eapply totals_zero; [apply totals_nil | reflexivity | reflexivity | symmetry; exact nz0 | reflexivity].
    + constructor; unfold P, Q; cbn; try lra; [constructor; [reflexivity | constructor] | reflexivity | exact nz0].
Qed.
Lemma current_totals : forall c l i, current_load E o delta c = Ok l -> complex0 E o ("constant_current_" ++ c) i ->
  totals (load_phase delta c) 0 0 [] [i] l.
Proof.
  intros c l i H C. scan H. destruct (cattr_ok _ _ _ Hx) as [[-> S] | (v & -> & V)].
  - rewrite (complex0_none S C). eapply totals_zero; [apply totals_nil | reflexivity | reflexivity | reflexivity | symmetry; exact nz0].
  - rewrite <- (complex0_some V C). destruct (both0 (fst v) (snd v)) eqn:B.
    + apply both0_iff in B. destruct v as [a b]. cbn in B. destruct B as [-> ->].
      eapply totals_zero; [apply totals_nil | reflexivity | reflexivity | reflexivity | symmetry; exact nz0].
    + constructor; unfold P, Q; cbn; try lra; [constructor; [reflexivity | constructor] | exact nz0 | reflexivity].
Qed.
Lemma zip_totals : forall c l v, zip_load E sch o delta c = Ok l -> zip_power E sch o c v ->
  totals (load_phase delta c) v 0 [] [] l.
Proof.
  intros c l v H Z. unfold zip_load in H. destruct (gattr o ("base_power_" ++ c)) as [s |] eqn:G.
  - apply bind_ok in H. destruct H as (p & Hp & H). apply bind_ok in H. destruct H as (b & Hb & H). injection H as <-.
    apply zip_given_all in Hb. apply gattr_says in G. destruct b.
    + destruct Z as [[[S | (k & I & S)] _] | (_ & s' & S & B)].
      * destruct (says_silent G S).
      * destruct (Hb k I S).
      * rewrite (says_fun S G) in B. rewrite (base_power_value Hp B).
        constructor; unfold P, Q; cbn; try lra; [constructor; [reflexivity | constructor] | exact nz0 | exact nz0].
    + destruct Z as [[_ ->] | (A & _)]; [apply totals_nil |]. destruct Hb as (k & I & S). destruct (A k I S).
  - injection H as <-. apply gattr_silent in G. destruct Z as [[_ ->] | (_ & s & S & _)]; [apply totals_nil | destruct (says_silent S G)].
Qed.
Lemma phase_totals : forall c l s1 s2 z1 z2 i v, phase_loads E sch o delta c = Ok l ->
  complex0 E o ("power_" ++ c) s1 -> complex0 E o ("constant_power_" ++ c) s2 -> complex0 E o ("impedance_" ++ c) z1 ->
  complex0 E o ("constant_impedance_" ++ c) z2 -> complex0 E o ("constant_current_" ++ c) i -> zip_power E sch o c v ->
  totals (load_phase delta c) (fst s1 + fst s2 + v) (snd s1 + snd s2) [z1; z2] [i] l.
Proof.
  intros c l s1 s2 z1 z2 i v H C1 C2 C3 C4 C5 Z. unfold phase_loads in H.
  apply bind_ok in H; destruct H as (l1 & H1 & H). apply bind_ok in H; destruct H as (l2 & H2 & H).
  apply bind_ok in H; destruct H as (l3 & H3 & H). apply bind_ok in H; destruct H as (l4 & H4 & H).
  apply bind_ok in H; destruct H as (l5 & H5 & H). apply bind_ok in H; destruct H as (l6 & H6 & H). injection H as <-.
  pose proof (totals_app (power_totals _ _ H1 C1) (totals_app (power_totals _ _ H2 C2) (totals_app (impedance_totals _ _ H3 C3)
    (totals_app (impedance_totals _ _ H4 C4) (totals_app (current_totals H5 C5) (zip_totals H6 Z)))))) as T.
  eapply totals_zero; [exact T | lra | lra | reflexivity | reflexivity].
Qed.
(** every phase load has the phase of its connection, whatever the attributes *)
Lemma phase_at : forall c l, phase_loads E sch o delta c = Ok l -> all_at (load_phase delta c) l.
Proof.
  intros c l H. unfold phase_loads in H.
  apply bind_ok in H; destruct H as (l1 & H1 & H). apply bind_ok in H; destruct H as (l2 & H2 & H).
  apply bind_ok in H; destruct H as (l3 & H3 & H). apply bind_ok in H; destruct H as (l4 & H4 & H).
  apply bind_ok in H; destruct H as (l5 & H5 & H). apply bind_ok in H; destruct H as (l6 & H6 & H). injection H as <-.
  unfold all_at. rewrite !Forall_app. scan H1. scan H2. scan H3. scan H4. scan H5.
  unfold zip_load in H6.
  repeat split; try match goal with |- Forall _ (match ?x with _ => _ end) => destruct x as [v |]; [destruct (both0 (fst v) (snd v)) |] end;
    try (repeat constructor; reflexivity).
  destruct (gattr o ("base_power_" ++ c)); [| injection H6 as <-; constructor].
  apply bind_ok in H6; destruct H6 as (? & _ & H6). apply bind_ok in H6; destruct H6 as (b & _ & H6). injection H6 as <-.
  destruct b; repeat constructor.
Qed.

(** *** all connections *)
Lemma mfold_concat : forall A B (f : A -> pres (list B)) cs acc r,
  mfold (fun acc c => do l <- f c; Ok (acc ++ l)%list) cs acc = Ok r ->
  exists g, (forall c, In c cs -> f c = Ok (g c)) /\ r = (acc ++ flat_map g cs)%list.
Proof.
  intros A B f cs. induction cs as [| c cs IH]; intros acc r H.
  - injection H as <-. exists (fun _ => []). split; [easy |]. now rewrite app_nil_r.
  - cbn in H. destruct (f c) as [l |] eqn:F; cbn in H; [| discriminate]. destruct (IH _ _ H) as (g & G & ->).
    exists (fun c => match f c with Ok l => l | Err _ => [] end). split.
    + intros c' [<- | I]; [now rewrite F | now rewrite (G c' I)].
    + cbn. rewrite F, <- app_assoc. do 2 f_equal.
      clear - G. induction cs as [| d cs IH]; [reflexivity |]. cbn. rewrite (G d) by (cbn; tauto).
      f_equal. apply IH. intros. apply G. cbn. tauto.
Qed.
Lemma at_phase_app : forall p a b, at_phase p (a ++ b)%list = (at_phase p a ++ at_phase p b)%list.
Proof. intros. apply filter_app. Qed.
Lemma at_phase_all : forall p l, all_at (Some p) l -> at_phase p l = l.
Proof.
  induction l as [| x l IH]; intros H; [reflexivity |]. inversion H; subst. unfold at_phase in *. cbn.
  match goal with h : dp_phase x = _ |- _ => rewrite h end. rewrite String.eqb_refl. f_equal. now apply IH.
Qed.
Lemma at_phase_other : forall p ph l, all_at ph l -> ph <> Some p -> at_phase p l = [].
Proof.
  induction l as [| x l IH]; intros H N; [reflexivity |]. inversion H as [| y l' Hy Hl]; subst. unfold at_phase in *. cbn.
  destruct (dp_phase x) as [q |]; [destruct (String.eqb_spec q p); [congruence |] |]; now apply IH.
Qed.
Lemma all_loads_at : forall ls c p, all_phase_loads E sch o delta = Ok ls -> lands delta c p ->
  exists l, phase_loads E sch o delta c = Ok l /\ at_phase p ls = l /\ load_phase delta c = Some p.
Proof.
  intros ls c p H L. destruct (mfold_concat _ _ _ H) as (g & G & ->). clear H.
  change load_connections with all_connections in *.
  assert (A : forall c', In c' all_connections -> all_at (load_phase delta c') (g c')) by (intros c' I; apply phase_at; auto).
  assert (I : In c all_connections /\ load_phase delta c = Some p).
  { unfold lands in L. destruct delta.
    - cbn in L. destruct L as [L | [L | [L | []]]]; injection L as <- <-; cbn; tauto.
    - destruct L as [L ->]. tauto. }
  destruct I as [I Lp]. exists (g c). split; [auto |]. split; [| exact Lp]. cbn [app].
  assert (U : forall c', In c' all_connections -> load_phase delta c' = Some p -> c' = c).
  { intros c' I' L'. unfold lands in L. destruct delta.
    - cbn in I', L. clear - I' L L'.
      repeat match goal with h : _ \/ _ |- _ => destruct h as [h | h] end; try tauto; subst;
        match goal with h : (_, _) = _ |- _ => injection h as <- <- | _ => idtac end; cbn in L'; congruence.
    - cbn in L', Lp. congruence. }
  assert (ND : NoDup all_connections).
  { repeat constructor; cbn; intuition discriminate. }
  clear - A U ND I Lp. induction all_connections as [| d l IH]; [destruct I |]. cbn [flat_map]. rewrite at_phase_app. inversion ND; subst.
  destruct (string_dec d c) as [-> | n].
  - rewrite at_phase_all by (rewrite <- Lp; apply A; cbn; tauto).
    assert (Z : at_phase p (flat_map g l) = []); [| now rewrite Z, app_nil_r].
    assert (A' : forall c', In c' l -> at_phase p (g c') = []).
    { intros c' I'. apply at_phase_other with (ph := load_phase delta c'); [apply A; cbn; tauto |].
      intros L'. apply U in L'; [subst; tauto | cbn; tauto]. }
    clear - A'. induction l as [| d l IH]; [reflexivity |]. cbn [flat_map]. rewrite at_phase_app, A' by (cbn; tauto). apply IH. intros. apply A'. cbn. tauto.
  - rewrite at_phase_other with (ph := load_phase delta d); [| apply A; cbn; tauto |].
    + assert (A2 : forall c', In c' l -> all_at (load_phase delta c') (g c')) by (intros; apply A; cbn; tauto).
      assert (U2 : forall c', In c' l -> load_phase delta c' = Some p -> c' = c) by (intros; apply U; cbn; tauto).
      assert (I2 : In c l) by (destruct I; [congruence | assumption]). auto.
    + intros L'. apply U in L'; [congruence | cbn; tauto].
Qed.
End One.
