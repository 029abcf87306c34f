(** What the reader does with schedules. *)
From Coq Require Import String Ascii List Bool Arith Lia ZArith.
From Verif Require Import PyExc GlmText SpecGlm SpecSchedule GlmBase GlmRowProofs GlmProofs GlmFinal.
Import ListNotations.
Local Open Scope string_scope.
Set Implicit Arguments.

Lemma concat_join : forall ws, join ws = String.concat " " ws.
Proof. induction ws as [|w ws IH]; [reflexivity|]. destruct ws; [reflexivity|]. cbn in *. rewrite IH. reflexivity. Qed.

Lemma spaced_split : forall ws t, spaced ws t -> Forall word ws -> forall z, gap z -> split (t ++ z) = (ws ++ split z)%list.
Proof.
  induction 1 as [w|w x ws t B N S IH]; intros F z G; inversion F as [|? ? W F']; subst.
  - rewrite split_word by assumption. reflexivity.
  - rewrite !app_assoc3, split_word; [|exact W|apply gap_blank; assumption]. rewrite split_blank by exact B. cbn. f_equal. apply IH; assumption.
Qed.
Lemma token_word : forall s, token s -> word s.
Proof. intros s H. apply H. Qed.
Lemma tokens_words : forall ws, Forall token ws -> Forall word ws.
Proof. intros ws H. eapply Forall_impl; [|exact H]. exact token_word. Qed.
Lemma spaced_nonempty : forall ws t, spaced ws t -> Forall word ws -> t <> "" /\ ws <> [].
Proof.
  induction 1 as [w|w x ws t B N S IH]; intros F; inversion F as [|? ? W F']; subst; destruct W as [W _]; (split; [|discriminate]).
  - exact W.
  - destruct w; [contradiction|discriminate].
Qed.
Lemma spaced_solid : forall ws t, spaced ws t -> Forall word ws -> solid t.
Proof.
  induction 1 as [w|w x ws t B N S IH]; intros F; inversion F as [|? ? W F']; subst.
  - apply word_solid. exact W.
  - apply solid_app; [apply word_solid; exact W|apply IH; exact F'|exact (proj1 W)|apply (spaced_nonempty S F')].
Qed.
Lemma spaced_comment : forall ws t, spaced ws t -> Forall token ws -> no_comment t /\ forall a, t <> a ++ "/".
Proof.
  induction 1 as [w|w x ws t B N S IH]; intros F; inversion F as [|? ? W F']; subst; destruct W as (Ww & _ & _ & C & L).
  - split; assumption.
  - destruct (IH F') as [C' L']. split.
    + apply no_comment_app2; [exact C| |exact L]. apply no_comment_app2; [apply blank_no_comment; exact B|exact C'|].
      apply blank_no_slash; [exact B|apply nw; tauto].
    + rewrite <- app_assoc3. apply snoc_app; [apply (spaced_nonempty S (tokens_words F'))|exact L'].
Qed.
Lemma spaced_free : forall c ws t, spaced ws t -> Forall (free c) ws -> ~ white c -> free c t.
Proof.
  induction 1 as [w|w x ws t B N S IH]; intros F Nw; inversion F as [|? ? W F']; subst; [exact W|].
  rewrite !free_app. repeat split; [exact W|apply blank_free; assumption|apply IH; assumption].
Qed.

(** what the row becomes: stripped, without comment *)
Lemma body_tail : forall w1 core x e, blank w1 -> solid core -> core <> "" -> no_comment core ->
  (forall a, core <> a ++ "/") -> blank x -> tail e ->
  exists x' s, (x' = "" \/ x' = x) /\ (s = "" \/ s = ";") /\ body_of (w1 ++ core ++ x ++ e) = core ++ x' ++ s.
Proof.
  intros w1 core x e B1 [SL SR] N C S Bx (s & u & -> & Hs & Hu). unfold body_of.
  assert (E0 : forall z, strip (w1 ++ core ++ x ++ z) = rstrip is_ws (core ++ x ++ z)).
  { intro z. unfold strip, strip_by. rewrite lstrip_rstrip_comm, lstrip_blank by exact B1.
    rewrite lstrip_app_nonblank; rewrite SL; [reflexivity|exact N]. }
  rewrite E0.
  assert (Wsemi : ~ white ";"%char) by (apply nw; tauto). assert (Wsl : ~ white "/"%char) by (apply nw; tauto).
  assert (Sx : forall a, core ++ x <> a ++ "/").
  { destruct x as [|d x]; [rewrite app_nil; exact S|]. apply snoc_app; [discriminate|]. apply blank_no_slash; assumption. }
  assert (Cx : no_comment (core ++ x)) by (apply no_comment_app2; [exact C|apply blank_no_comment; exact Bx|exact S]).
  assert (Rc : forall c, rstrip is_ws ("//" ++ c) = "//" ++ rstrip is_ws c) by (intro; cbn [append]; rewrite !rstrip_cons by exact Wsl; reflexivity).
  destruct Hs as [-> | ->]; cbn [append].
  - destruct Hu as [Bu|[c ->]].
    + exists "", "". split; [tauto|split; [tauto|]]. rewrite rstrip_app_blank by (apply blank_app; split; assumption).
      rewrite SR, cut_comment_nil_iff by exact C. cbn. rewrite app_nil. reflexivity.
    + exists x, "". split; [tauto|split; [tauto|]]. rewrite <- app_assoc3, rstrip_app; rewrite Rc; [|discriminate].
      rewrite cut_comment_app2 by assumption. rewrite cut_comment_slash, !app_nil. reflexivity.
  - exists x, ";". split; [tauto|split; [tauto|]].
    rewrite <- (app_assoc3 core x), rstrip_app; rewrite rstrip_cons by exact Wsemi; [|discriminate].
    rewrite cut_comment_app2 by assumption. rewrite app_assoc3. do 2 f_equal.
    rewrite cut_comment_cons by (left; discriminate). f_equal.
    destruct Hu as [Bu|[c ->]]; [rewrite rstrip_blank by exact Bu; reflexivity|]. rewrite Rc. apply cut_comment_slash.
Qed.

(** removing semicolons at both ends *)
Lemma semi_strip : forall core x s, core <> "" -> free ";" core -> blank x -> (s = "" \/ s = ";") ->
  strip_by (Ascii.eqb ";") (core ++ x ++ s) = core ++ x.
Proof.
  intros core x s N F B Hs. unfold strip_by.
  assert (Hf : forall z, free ";" z -> forall c, In c (chars z) -> Ascii.eqb ";" c = false).
  { intros z Fz c I. apply Ascii.eqb_neq. intros <-. exact (Fz I). }
  assert (Fx : free ";" (core ++ x)) by (apply free_app; split; [exact F|apply blank_free; [exact B|apply nw; tauto]]).
  assert (R : rstrip (Ascii.eqb ";") (core ++ x ++ s) = core ++ x).
  { rewrite <- app_assoc3. rewrite rstrip_drop by (destruct Hs as [-> | ->]; reflexivity). apply rstrip_keep. apply Hf. exact Fx. }
  rewrite R. apply lstrip_keep. apply Hf. exact Fx.
Qed.
Lemma starts_not : forall c s, (forall a, s <> String c a) -> starts_with c s = false.
Proof. intros c [|d s] H; [reflexivity|]. cbn. apply Ascii.eqb_neq. intros ->. exact (H s eq_refl). Qed.

Section S.
Variable schema : string -> option (list string).
Variable over12 mega : string -> pres string.
Variable hits : string -> pres bool.
Notation RR := (read_row schema over12 mega hits).
Notation RS := (read_rows schema over12 mega hits).

(** a schedule is open, depth n, and whether it has its value *)
Definition within (s : gstate) (name : string) (n : Z) (f : bool) : Prop :=
  g_cur s = None /\ g_ign s = false /\ g_sched s = Some name /\ g_cnt s = n /\ g_found s = f.
Lemma within_set : forall s name n f n' f', within s name n f -> within (set_sched s (Some name) n' f') name n' f'.
Proof. intros s name n f n' f' (A & B & _). repeat split; assumption. Qed.
Lemma within_same : forall s name n f, within s name n f -> set_sched s (Some name) n f = s.
Proof. intros [] name n f (A & B & C & D & E). cbn in *. subst. reflexivity. Qed.


Lemma row_in : forall s name n f core x e w1, within s name n f -> blank w1 -> solid core -> core <> "" -> no_comment core ->
  (forall a, core <> a ++ "/") -> blank x -> tail e ->
  (forall x' s', blank x' -> s' = "" \/ s' = ";" -> 
     first_is "object" (split (core ++ x' ++ s')) = false /\ first_is "schedule" (split (core ++ x' ++ s')) = false) ->
  exists x' s', blank x' /\ (s' = "" \/ s' = ";") /\ (x = "" -> x' = "") /\
    RR s (w1 ++ core ++ x ++ e) = in_schedule hits s name (core ++ x' ++ s').
Proof.
  intros s name n f core x e w1 (Hc & _ & Hs & _) B1 So N C L Bx T F1.
  destruct (body_tail B1 So N C L Bx T) as (x' & s' & Hx & Hs' & E). exists x', s'.
  assert (Bx' : blank x') by (destruct Hx as [-> | ->]; [apply blank_nil|exact Bx]).
  split; [exact Bx'|split; [exact Hs'|split; [intros ->; tauto|]]].
  rewrite read_row_dispatch, E. unfold dispatch. destruct (F1 x' s' Bx' Hs') as [A1 A2].
  rewrite A1, A2, Hc, Hs. reflexivity.
Qed.
Lemma first_word : forall k z x' s', word k -> free ";" k -> (z = "" \/ gap z /\ z <> "") -> blank x' -> s' = "" \/ s' = ";" ->
  exists l, split (k ++ z ++ x' ++ s') = k :: l \/ split (k ++ z ++ x' ++ s') = (k ++ ";") :: l.
Proof.
  intros k z x' s' W F Z B Hs.
  assert (G : gap (z ++ x' ++ s') \/ z ++ x' ++ s' = ";").
  { destruct Z as [-> | [[->|(c & t & -> & Wc)] Z]]; cbn [append]; [|contradiction|left; right; eexists; eexists; split; [reflexivity|exact Wc]].
    destruct x' as [|d x'].
    - destruct Hs as [-> | ->]; [left; apply gap_nil|right; reflexivity].
    - left. apply gap_blank; [exact B|discriminate]. }
  destruct G as [G | ->].
  - eexists. left. apply split_word; assumption.
  - exists []. right. rewrite <- (app_nil (k ++ ";")) at 1. rewrite split_word; [reflexivity| |apply gap_nil].
    destruct W as [N W]. split; [destruct k; [contradiction|discriminate]|]. intros c. rewrite chars_app, in_app_iff.
    intros [I|[<-|[]]]; [apply W; exact I|apply nw; tauto].
Qed.
Lemma semi_neq : forall k m, free ";" m -> k ++ ";" <> m.
Proof. intros k m F <-. apply F. rewrite chars_app. apply in_or_app. right. left. reflexivity. Qed.
Lemma spaced_head : forall ws t, spaced ws t -> exists k l z, ws = k :: l /\ t = k ++ z /\ (z = "" \/ gap z /\ z <> "").
Proof.
  destruct 1 as [w|w x ws t B N S].
  - exists w, [], "". rewrite app_nil. tauto.
  - exists w, ws, (x ++ t). split; [reflexivity|split; [reflexivity|]]. right. split; [apply gap_blank; assumption|]. destruct x; [contradiction|discriminate].
Qed.

Definition word_effect (s : gstate) (name : string) (n : Z) (f : bool) (ws : list string) : pres gstate :=
  if Nat.ltb 5 (List.length ws) && negb f
  then do h <- hits (String.concat " " (removelast ws));
       Ok (if h then add_sched (set_sched s (Some name) n true) name (last ws "") else s)
  else Ok s.
Lemma words_effect : forall ws r s name n f, words_row ws r -> within s name n f -> n <> 0%Z -> RR s r = word_effect s name n f ws.
Proof.
  intros ws r s name n f (w1 & t & x & e & -> & B1 & Sp & Bx & T & Tk & Hd) W N0.
  pose proof (tokens_words Tk) as Wd. destruct (spaced_comment Sp Tk) as [C L]. destruct (spaced_nonempty Sp Wd) as [Nt Nw].
  destruct (spaced_head Sp) as (k & l & z & Ew & Et & Hz). destruct (Hd k l Ew) as (No & Ns & Nb).
  assert (Tk' : token k) by (rewrite Ew in Tk; inversion Tk; assumption). destruct Tk' as (Wk & Fk & _).
  assert (F1 : forall x' s', blank x' -> s' = "" \/ s' = ";" ->
     first_is "object" (split (t ++ x' ++ s')) = false /\ first_is "schedule" (split (t ++ x' ++ s')) = false).
  { intros x' s' B' H'. rewrite Et, app_assoc3. destruct (first_word Wk Fk Hz B' H') as (l' & [E|E]); rewrite E; cbn [first_is].
    - split; apply String.eqb_neq; assumption.
    - split; apply String.eqb_neq, semi_neq; intros I; cbn in I; intuition discriminate. }
  destruct (row_in W B1 (spaced_solid Sp Wd) Nt C L Bx T F1) as (x' & s' & B' & H' & _ & E). rewrite E. clear E.
  unfold in_schedule.
  assert (Ff : forall c, ~ white c -> (forall w, token w -> free c w) -> free c t).
  { intros c Hc H. apply (spaced_free Sp); [|exact Hc]. eapply Forall_impl; [|exact Tk]. exact H. }
  rewrite semi_strip; [|exact Nt|apply Ff; [apply nw; tauto|intros w Hw; apply Hw]|exact B'|exact H'].
  assert (Es : split (t ++ x') = ws).
  { rewrite (spaced_split Sp Wd) by (apply blank_gap; exact B'). rewrite split_blank_nil by exact B'. apply app_nil_r. }
  rewrite Es.
  assert (Ee : ends_with "}" (t ++ x') = false).
  { apply ends_free. apply free_app. split; [apply Ff; [apply nw; tauto|intros w Hw; apply Hw]|apply blank_free; [exact B'|apply nw; tauto]]. }
  assert (Eb : starts_with "{" (t ++ x') = false).
  { apply starts_not. intros a. rewrite Et. destruct k as [|d k]; [destruct Wk; contradiction|]. cbn. intros H. injection H as -> _. apply (Nb k). reflexivity. }
  destruct W as (Hc & Hg & Hsc & Hn & Hf). rewrite Hf. rewrite concat_join. unfold word_effect.
  assert (Tl : forall (u : gstate), g_sched u = Some name -> g_cnt u = n ->
     match t ++ x' with "" => Ok u | _ => 
       let n := (if ends_with "}" (t ++ x') then g_cnt u - 1 else g_cnt u)%Z in
       let n := (if starts_with "{" (t ++ x') then n + 1 else n)%Z in
       if Z.eqb n 0 then Ok (set_sched u None n false) else Ok (set_sched u (Some name) n (g_found u)) end = Ok u).
  { intros u Hu1 Hu2. destruct (t ++ x') as [|d y]; [reflexivity|]. cbv zeta. rewrite Ee, Eb, Hu2. apply Z.eqb_neq in N0. rewrite N0.
    rewrite <- Hu1, <- Hu2. destruct u; reflexivity. }
  destruct (Nat.ltb 5 (List.length ws) && negb f) eqn:Eq.
  - destruct (hits (String.concat " " (removelast ws))) as [h|er]; [|reflexivity]. cbn [pbind]. rewrite Hn.
    destruct h; apply Tl; try assumption; reflexivity.
  - cbn [pbind]. apply Tl; assumption.
Qed.

Lemma short_effect : forall r s name n f, short_row r -> within s name n f -> n <> 0%Z -> RR s r = Ok s.
Proof.
  intros r s name n f (ws & R & L) W N. rewrite (words_effect R W N). unfold word_effect.
  destruct (Nat.ltb_spec 5 (List.length ws)); [lia|reflexivity].
Qed.
Lemma cron_effect : forall c v r s name n f, cron_row c v r -> within s name n f -> n <> 0%Z ->
  RR s r = if f then Ok s else do h <- hits c; Ok (if h then add_sched (set_sched s (Some name) n true) name v else s).
Proof.
  intros c v r s name n f (ws & R & L & ->) W N. rewrite (words_effect R W N). unfold word_effect.
  rewrite List.app_length. cbn [List.length]. destruct (Nat.ltb_spec 5 (List.length ws + 1)); [|lia].
  rewrite removelast_last, last_last. destruct f; reflexivity.
Qed.
Lemma brace_first : forall b x' s', b = "{" \/ b = "}" -> blank x' -> s' = "" \/ s' = ";" ->
     first_is "object" (split (b ++ x' ++ s')) = false /\ first_is "schedule" (split (b ++ x' ++ s')) = false.
Proof.
  intros b x' s' Hb B H.
  assert (W : word b) by (split; [destruct Hb as [-> | ->]; discriminate|]; intros c I; apply nw; destruct Hb as [-> | ->]; cbn in I; intuition).
  assert (F : free ";" b) by (intros I; destruct Hb as [-> | ->]; cbn in I; intuition discriminate).
  destruct (@first_word b "" x' s' W F (or_introl eq_refl) B H) as (l & [E|E]); cbn [append] in E; rewrite E; destruct Hb as [-> | ->]; split; reflexivity.
Qed.
Lemma one_char : forall c, no_comment (String c "").
Proof. intros c. apply no_comment_iff. cbn. destruct c as [[] [] [] [] [] [] [] []]; reflexivity. Qed.
Lemma solid_brace : forall c, ~ white c -> solid (String c "").
Proof. intros c H. apply nonwhite_solid. intros d [<-|[]]. exact H. Qed.
Lemma open_effect : forall r s name n f, block_open r -> within s name n f -> (0 < n)%Z -> RR s r = Ok (set_sched s (Some name) (n + 1) f).
Proof.
  intros r s name n f (w & x & e & -> & Bw & Bx & T) W N.
  assert (Nw' : ~ white "{"%char) by (apply nw; tauto).
  destruct (@row_in s name n f "{" x e w W Bw (solid_brace Nw')) as (x' & s' & B' & H' & _ & E); try assumption.
  - discriminate.
  - apply one_char.
  - intros a Ea. destruct a as [|d a]; [discriminate|]. injection Ea as _ Ea. destruct a; discriminate.
  - intros. apply brace_first; tauto.
  - rewrite E. unfold in_schedule. rewrite semi_strip; [|discriminate|intros I; cbn in I; intuition discriminate|exact B'|exact H'].
    rewrite split_word; [|split; [discriminate|]; intros c [<-|[]]; exact Nw'|apply blank_gap; exact B']. rewrite split_blank_nil by exact B'.
    cbn [List.length Nat.ltb Nat.leb andb pbind].
    assert (Ee : ends_with "}" ("{" ++ x') = false).
    { apply ends_free, free_app. split; [intros I; cbn in I; intuition discriminate|apply blank_free; [exact B'|apply nw; tauto]]. }
    destruct W as (Hc & Hg & Hsc & Hn & Hf). cbn [append] in *. rewrite Ee. cbn [starts_with Ascii.eqb Bool.eqb]. rewrite Hn, Hf. cbv zeta.
    change (Ascii.eqb "{" "{") with true. cbv iota. destruct (Z.eqb_spec (n + 1) 0); [lia|reflexivity].
Qed.
Lemma close_effect : forall r s name n f, block_close r -> within s name n f ->
  RR s r = Ok (if Z.eqb (n - 1) 0 then set_sched s None 0 false else set_sched s (Some name) (n - 1) f).
Proof.
  intros r s name n f (w & e & -> & Bw & T) W.
  assert (Nw' : ~ white "}"%char) by (apply nw; tauto).
  destruct (@row_in s name n f "}" "" e w W Bw (solid_brace Nw')) as (x' & s' & B' & H' & X & E); try assumption.
  - discriminate.
  - apply one_char.
  - intros a Ea. destruct a as [|d a]; [discriminate|]. injection Ea as _ Ea. destruct a; discriminate.
  - apply blank_nil.
  - intros. apply brace_first; tauto.
  - cbn [append] in E. cbn [append]. rewrite E. rewrite (X eq_refl) in *. unfold in_schedule.
    change (String "}" ("" ++ s')) with ("}" ++ "" ++ s').
    rewrite semi_strip; [|discriminate|intros I; cbn in I; intuition discriminate|exact B'|exact H'].
    destruct W as (Hc & Hg & Hsc & Hn & Hf). change (split ("}" ++ "")) with ["}"]. cbn -[Z.sub Z.eqb]. rewrite Hn, Hf.
    destruct (Z.eqb_spec (n - 1) 0) as [->|]; reflexivity.
Qed.
Lemma schedule_split : forall name r, schedule_row name r -> exists l, split (body_of r) = "schedule" :: name :: l.
Proof.
  intros name r (w1 & w2 & t & -> & B1 & B2 & N2 & G & Wh & Ch).
  assert (Wo := word_schedule). assert (So := word_solid Wo).
  assert (E : exists t', gap t' /\ body_of (w1 ++ "schedule" ++ w2 ++ name ++ t) = "schedule" ++ w2 ++ name ++ t').
  { unfold body_of, strip, strip_by. rewrite lstrip_rstrip_comm, lstrip_blank by exact B1.
    change (lstrip is_ws ("schedule" ++ w2 ++ name ++ t)) with ("schedule" ++ w2 ++ name ++ t).
    assert (Hsol : solid ("schedule" ++ w2 ++ name)) by (apply solid_app; [exact So|apply word_solid; exact Wh|discriminate|exact (proj1 Wh)]).
    assert (Nh : "schedule" ++ w2 ++ name <> "") by discriminate.
    assert (Hnc : no_comment ("schedule" ++ w2 ++ name)).
    { apply no_comment_app2; [apply no_comment_iff; reflexivity| |].
      - apply no_comment_app2; [apply blank_no_comment; exact B2|exact Ch|apply blank_no_slash; [exact B2|apply nw; tauto]].
      - intros a Ea. change ("schedule") with ("schedul" ++ String "e" "") in Ea. apply snoc_inj in Ea. destruct Ea as [_ Ea]. discriminate. }
    assert (Ea : "schedule" ++ w2 ++ name ++ t = ("schedule" ++ w2 ++ name) ++ t) by (rewrite !app_assoc3; reflexivity).
    rewrite Ea. destruct (rstrip is_ws t) as [|d u] eqn:R.
    - destruct (rstrip_decomp t) as (w & Et & Bt). rewrite R in Et. cbn in Et. subst w. rewrite rstrip_app_blank by exact Bt.
      rewrite (proj2 Hsol). exists "". split; [apply gap_nil|]. rewrite cut_comment_nil_iff by exact Hnc. rewrite app_nil. reflexivity.
    - rewrite rstrip_app; rewrite R; [|discriminate].
      destruct G as [->|(d' & t' & -> & Wd)]; [discriminate R|].
      assert (Hd : d = d').
      { destruct (rstrip_decomp (String d' t')) as (w & Et & _). rewrite R in Et. injection Et as -> _. reflexivity. }
      subst d'. assert (Hs := white_sp Wd).
      exists (String d (cut_comment u)). split; [right; exists d, (cut_comment u); split; [reflexivity|exact Wd]|].
      rewrite cut_comment_app; [|exact Hnc|intros r Er; injection Er as -> _; destruct Hs as [Hs _]; apply Hs; reflexivity].
      rewrite cut_comment_cons by (left; exact (proj1 Hs)). rewrite !app_assoc3. reflexivity. }
  destruct E as (t' & G' & E). exists (split t'). rewrite E.
  rewrite split_word; [|exact Wo|apply gap_blank; assumption]. rewrite split_blank by exact B2.
  rewrite split_word by assumption. reflexivity.
Qed.
Lemma schedule_effect : forall name r s, schedule_row name r -> g_sched s = None -> RR s r = Ok (set_sched s (Some name) 1 (g_found s)).
Proof.
  intros name r s R H. rewrite read_row_dispatch. destruct (schedule_split R) as [l E]. unfold dispatch. rewrite E. cbn [first_is].
  change (String.eqb "schedule" "object") with false. change (String.eqb "schedule" "schedule") with true. cbv iota.
  unfold open_schedule. rewrite H. reflexivity.
Qed.
Lemma schedule_again : forall name r s m, schedule_row name r -> g_sched s = Some m -> RR s r = Ok s.
Proof.
  intros name r s m R H. rewrite read_row_dispatch. destruct (schedule_split R) as [l E]. unfold dispatch. rewrite E. cbn [first_is].
  change (String.eqb "schedule" "object") with false. change (String.eqb "schedule" "schedule") with true. cbv iota.
  unfold open_schedule. rewrite H. reflexivity.
Qed.

(** the rows of a schedule taken together *)
Fixpoint outcome (cs : list (string * string)) : pres (option string) :=
  match cs with
  | [] => Ok None
  | (c, v) :: cs => do h <- hits c; if h then Ok (Some v) else outcome cs
  end.
Lemma outcome_app : forall a b, outcome (a ++ b) = do o <- outcome a; match o with Some v => Ok (Some v) | None => outcome b end.
Proof. induction a as [|[c v] a IH]; intro b; cbn; [reflexivity|]. destruct (hits c) as [[|]|]; cbn; [reflexivity|apply IH|reflexivity]. Qed.
Lemma outcome_picks : forall cs o, picks hits cs o -> outcome cs = Ok o.
Proof. induction 1 as [|c v cs H|c v cs o H P IH]; cbn; [reflexivity| |]; rewrite H; cbn; [reflexivity|exact IH]. Qed.
Lemma outcome_breaks : forall e cs, breaks hits e cs -> outcome cs = Err e.
Proof. induction 1 as [c v cs H|c v cs H P IH]; cbn; rewrite H; cbn; [reflexivity|exact IH]. Qed.

Definition took (s : gstate) (name : string) (n : Z) (o : option string) : gstate :=
  match o with Some v => add_sched (set_sched s (Some name) n true) name v | None => s end.
Lemma took_within : forall s name n o, within s name n false -> within (took s name n o) name n (match o with Some _ => true | None => false end).
Proof. intros s name n [v|] W; [|exact W]. destruct W as (A & B & _). repeat split; assumption. Qed.

Lemma body_found : forall cs rows, sched_body cs rows -> forall s name n, within s name n true -> (0 < n)%Z -> RS rows s = Ok s.
Proof.
  induction 1 as [|r cs rows N B IH|r cs rows N B IH|c v r cs rows N B IH|r0 cs1 rows1 r1 cs rows Ho B1 IH1 Hc B2 IH2]; intros s name n W P.
  - reflexivity.
  - rewrite RS_cons, noise_effect by exact N. cbn [pbind]. eapply IH; eassumption.
  - rewrite RS_cons. rewrite (short_effect N W) by lia. cbn [pbind]. eapply IH; eassumption.
  - rewrite RS_cons. rewrite (cron_effect N W) by lia. cbn [pbind]. eapply IH; eassumption.
  - rewrite RS_cons. rewrite (open_effect Ho W) by lia. cbn [pbind]. rewrite RS_app.
    assert (W1 : within (set_sched s (Some name) (n + 1) true) name (n + 1) true) by (eapply within_set; exact W).
    rewrite (IH1 _ name (n + 1)%Z W1) by lia. cbn [pbind]. rewrite RS_cons, (close_effect Hc W1). cbn [pbind].
    destruct (Z.eqb_spec (n + 1 - 1) 0); [lia|]. replace (n + 1 - 1)%Z with n by lia.
    replace (set_sched (set_sched s (Some name) (n + 1) true) (Some name) n true) with s; [eapply IH2; eassumption|].
    rewrite <- (within_same W) at 1. reflexivity.
Qed.
Lemma body_effect : forall cs rows, sched_body cs rows -> forall s name n, within s name n false -> (0 < n)%Z ->
  RS rows s = do o <- outcome cs; Ok (took s name n o).
Proof.
  induction 1 as [|r cs rows N B IH|r cs rows N B IH|c v r cs rows N B IH|r0 cs1 rows1 r1 cs rows Ho B1 IH1 Hc B2 IH2]; intros s name n W P.
  - reflexivity.
  - rewrite RS_cons, noise_effect by exact N. cbn [pbind]. apply IH; assumption.
  - rewrite RS_cons. rewrite (short_effect N W) by lia. cbn [pbind]. apply IH; assumption.
  - rewrite RS_cons. rewrite (cron_effect N W) by lia. cbn [outcome]. destruct (hits c) as [[|]|e]; cbn [pbind]; [|apply IH; assumption|reflexivity].
    assert (W' := took_within (Some v) W). cbn [took] in *. apply (body_found B W'). exact P.
  - rewrite RS_cons. rewrite (open_effect Ho W) by lia. cbn [pbind]. rewrite RS_app.
    assert (W1 : within (set_sched s (Some name) (n + 1) false) name (n + 1) false) by (eapply within_set; exact W).
    rewrite (IH1 _ name (n + 1)%Z W1) by lia. rewrite outcome_app. destruct (outcome cs1) as [o|e]; [|reflexivity]. cbn [pbind].
    assert (W2 := took_within o W1). rewrite RS_cons, (close_effect Hc W2). cbn [pbind].
    destruct (Z.eqb_spec (n + 1 - 1) 0); [lia|]. replace (n + 1 - 1)%Z with n by lia.
    destruct o as [v|].
    + cbn [took pbind]. assert (W3 := took_within (Some v) W). cbn [took] in W3. apply (body_found B2 W3). exact P.
    + cbn [took]. replace (set_sched (set_sched s (Some name) (n + 1) false) (Some name) n false) with s; [apply IH2; assumption|].
      rewrite <- (within_same W) at 1. reflexivity.
Qed.

(** at rest, with no schedule open *)
Definition rest (s : gstate) : Prop := idle s /\ g_found s = false.
Definition noted (s : gstate) (name : string) (o : option string) : gstate :=
  match o with Some v => add_sched (set_sched s None 0 false) name v | None => set_sched s None 0 false end.
Lemma within_open : forall s name, rest s -> within (set_sched s (Some name) 1 (g_found s)) name 1 false.
Proof. intros s name ((A & B & C) & D). repeat split; try assumption. Qed.
Lemma schedule_whole : forall sc rows s, one_schedule sc rows -> rest s ->
  RS rows s = do o <- outcome (snd sc); Ok (noted s (fst sc) o).
Proof.
  intros sc rows s (r0 & body & r1 & -> & H0 & Hb & H1) R. rewrite RS_cons. rewrite (schedule_effect _ H0) by apply R. cbn [pbind].
  assert (W := within_open (fst sc) R). rewrite RS_app, (body_effect Hb W) by lia.
  destruct (outcome (snd sc)) as [o|e]; [|reflexivity]. cbn [pbind]. rewrite RS_cons, (close_effect H1 (took_within o W)). cbn [pbind].
  change (Z.eqb (1 - 1) 0) with true. cbv iota. destruct o; reflexivity.
Qed.
Lemma schedule_breaks : forall name r0 cs body s e more, schedule_row name r0 -> sched_body cs body -> breaks hits e cs -> rest s ->
  RS ((r0 :: body) ++ more) s = Err e.
Proof.
  intros name r0 cs body s e more H0 Hb Br R. cbn [app]. rewrite RS_cons. rewrite (schedule_effect _ H0) by apply R. cbn [pbind].
  assert (W := within_open name R). rewrite RS_app, (body_effect Hb W) by lia. rewrite (outcome_breaks Br). reflexivity.
Qed.
Lemma noted_rest : forall s name o, rest s -> rest (noted s name o).
Proof. intros s name [v|] ((A & B & C) & D); repeat split; assumption. Qed.

Definition note (d : list (string * string)) (v : string * option string) : list (string * string) :=
  match snd v with Some x => dset (fst v) x d | None => d end.
Lemma noted_scheds : forall s name o, g_scheds (noted s name o) = note (g_scheds s) (name, o) /\ g_objs (noted s name o) = g_objs s.
Proof. intros s name [v|]; split; reflexivity. Qed.

Lemma full_effect : forall os ss rows, full_file os ss rows -> forall s vs, rest s -> Forall (legal schema) os -> valued hits ss vs ->
  exists s', RS rows s = Ok s' /\ rest s' /\ g_objs s' = fold_left put os (g_objs s) /\ g_scheds s' = fold_left note vs (g_scheds s).
Proof.
  induction 1 as [|r os ss rows O F IH|cls kvs b os ss rows O F IH|sc b os ss rows O F IH]; intros s vs R L V.
  - inversion V; subst. exists s. repeat split; try reflexivity; apply R.
  - rewrite RS_cons. rewrite outside_effect by (try exact O; apply R). cbn [pbind]. apply IH; assumption.
  - inversion L as [|x l Lo Lr]; subst. destruct (name_of kvs) as [n|] eqn:En; [|destruct Lo as (_ & _ & Hn); cbn in Hn; congruence].
    destruct R as [I Hf]. rewrite RS_app, (nesting_effect _ _ _ (one_nesting O) I Lo En). cbn [pbind].
    destruct (IH (store s n (stored (cls, kvs))) vs) as (s' & E & I' & Hd & Hsc); [split; [apply store_idle; exact I|exact Hf]|exact Lr|exact V|].
    exists s'. split; [exact E|split; [exact I'|split; [|rewrite Hsc; reflexivity]]]. rewrite Hd. cbn [fold_left]. unfold put at 3. cbn [snd]. rewrite En. reflexivity.
  - inversion V as [|x [m o] l l' [Hn Hp] V']; subst. cbn [fst snd] in *. subst m.
    rewrite RS_app, (schedule_whole O R), (outcome_picks Hp). cbn [pbind].
    destruct (IH (noted s (fst sc) o) l' (noted_rest _ _ R) L V') as (s' & E & I' & Hd & Hsc).
    destruct (noted_scheds s (fst sc) o) as [A B]. exists s'. rewrite B in Hd. rewrite A in Hsc.
    split; [exact E|split; [exact I'|split; [exact Hd|exact Hsc]]].
Qed.

(** the brace of a schedule on a row of its own *)
Lemma braced_first : forall sc rows s, braced_schedule sc rows -> rest s ->
  RS rows s = do o <- outcome (snd sc); Ok (set_sched (took s (fst sc) 1 o) (Some (fst sc)) 1 (match o with Some _ => true | None => false end)).
Proof.
  intros sc rows s (r0 & r0' & body & r1 & -> & H0 & H0' & Hb & H1) R. rewrite RS_cons. rewrite (schedule_effect _ H0) by apply R. cbn [pbind].
  assert (W := within_open (fst sc) R). rewrite RS_cons, (open_effect H0' W) by lia. cbn [pbind].
  assert (W1 := within_set (1 + 1) false W). rewrite RS_app, (body_effect Hb W1) by lia.
  destruct (outcome (snd sc)) as [o|e]; [|reflexivity]. cbn [pbind]. rewrite RS_cons, (close_effect H1 (took_within o W1)). cbn [pbind].
  change (Z.eqb (1 + 1 - 1) 0) with false. cbv iota. destruct o; reflexivity.
Qed.
Lemma braced_next : forall sc rows s name f, braced_schedule sc rows -> within s name 1 f ->
  RS rows s = if f then Ok s else do o <- outcome (snd sc); Ok (took s name 1 o).
Proof.
  intros sc rows s name f (r0 & r0' & body & r1 & -> & H0 & H0' & Hb & H1) W. rewrite RS_cons.
  rewrite (schedule_again _ H0 (proj1 (proj2 (proj2 W)))). cbn [pbind].
  rewrite RS_cons, (open_effect H0' W) by lia. cbn [pbind].
  assert (W1 := within_set (1 + 1) f W). rewrite RS_app. destruct f.
  - rewrite (body_found Hb W1) by lia. cbn [pbind]. rewrite RS_cons, (close_effect H1 W1). cbn [pbind].
    change (Z.eqb (1 + 1 - 1) 0) with false. cbv iota. change (1 + 1 - 1)%Z with 1%Z. 
    replace (set_sched (set_sched s (Some name) (1 + 1) true) (Some name) 1 true) with s; [reflexivity|]. rewrite <- (within_same W) at 1. reflexivity.
  - rewrite (body_effect Hb W1) by lia. destruct (outcome (snd sc)) as [o|e]; [|reflexivity]. cbn [pbind].
    rewrite RS_cons, (close_effect H1 (took_within o W1)). cbn [pbind].
    change (Z.eqb (1 + 1 - 1) 0) with false. cbv iota. change (1 + 1 - 1)%Z with 1%Z. destruct o; [reflexivity|]. cbn [took].
    replace (set_sched (set_sched s (Some name) (1 + 1) false) (Some name) 1 false) with s; [reflexivity|]. rewrite <- (within_same W) at 1. reflexivity.
Qed.
Lemma braced_all : forall scs rows, Forall2 braced_schedule scs rows -> forall s name f, within s name 1 f ->
  RS (List.concat rows) s = if f then Ok s else do o <- outcome (flat_map snd scs); Ok (took s name 1 o).
Proof.
  induction 1 as [|sc r scs rows H F IH]; intros s name f W.
  - cbn. destruct f; reflexivity.
  - cbn [List.concat flat_map]. rewrite RS_app, (braced_next H W). destruct f.
    + cbn [pbind]. exact (IH s name true W).
    + rewrite outcome_app. destruct (outcome (snd sc)) as [o|e]; [|reflexivity]. cbn [pbind].
      rewrite (IH _ name _ (took_within o W)). destruct o; [reflexivity|]. reflexivity.
Qed.
End S.

Lemma note_get : forall vs d n, dget n (fold_left note vs d) = match last_value n vs with Some x => Some x | None => dget n d end.
Proof.
  intros vs d n. induction vs as [|[m o] vs IH] using rev_ind; [reflexivity|].
  unfold last_value in *. rewrite !fold_left_app. cbn [fold_left]. unfold note at 1. cbn [snd fst].
  destruct o as [x|]; [|exact IH]. rewrite dget_dset, String.eqb_sym. destruct (String.eqb m n); [reflexivity|exact IH].
Qed.
Lemma dset_keys : forall A k (v : A) d, map fst (dset k v d) = if existsb (String.eqb k) (map fst d) then map fst d else (map fst d ++ [k])%list.
Proof.
  induction d as [|[k' v'] d IH]; cbn; [reflexivity|]. destruct (String.eqb_spec k k'); cbn; [reflexivity|]. rewrite IH.
  destruct (existsb (String.eqb k) (map fst d)); reflexivity.
Qed.
Lemma note_keys : forall vs d, NoDup (map fst d) -> NoDup (map fst (fold_left note vs d)).
Proof.
  induction vs as [|[m [x|]] vs IH]; intros d H; cbn [fold_left]; [exact H| |apply IH; exact H].
  apply IH. unfold note. cbn [snd fst]. rewrite dset_keys. destruct (existsb (String.eqb m) (map fst d)) eqn:E; [exact H|].
  rewrite <- (rev_involutive (map fst d ++ [m])), rev_app_distr. apply NoDup_rev. cbn. constructor; [|apply NoDup_rev; exact H].
  rewrite <- in_rev. intros I. assert (existsb (String.eqb m) (map fst d) = true); [|congruence].
  apply existsb_exists. exists m. split; [exact I|apply String.eqb_refl].
Qed.
Lemma dget_In : forall A (d : list (string * A)) n x, NoDup (map fst d) -> (In (n, x) d <-> dget n d = Some x).
Proof.
  induction d as [|[k v] d IH]; intros n x H; cbn; [split; [contradiction|discriminate]|].
  cbn in H. inversion H as [|? ? N D]; subst. destruct (String.eqb_spec n k) as [->|E].
  - split; [intros [E|I]; [injection E as ->; reflexivity|]|intros E; injection E as ->; left; reflexivity].
    exfalso. apply N. apply in_map_iff. exists (k, x). split; [reflexivity|exact I].
  - rewrite <- IH by exact D. split; [intros [F|I]; [injection F as -> _; contradiction|exact I]|intros I; right; exact I].
Qed.
Lemma note_dictionary : forall vs, schedule_dictionary vs (fold_left note vs []).
Proof.
  intros vs. assert (N : NoDup (map fst (fold_left note vs []))) by (apply note_keys; constructor). split; [exact N|].
  intros n x. rewrite dget_In by exact N. rewrite note_get. cbn [dget]. destruct (last_value n vs); reflexivity.
Qed.
