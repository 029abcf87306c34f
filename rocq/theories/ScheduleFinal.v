(** Schedules in files: the statements behind C149. *)
From Coq Require Import String Ascii List Bool Arith Lia ZArith.
From Verif Require Import PyExc GlmText SpecGlm SpecSchedule GlmBase GlmRowProofs GlmProofs GlmFinal ScheduleProofs.
Import ListNotations.
Local Open Scope string_scope.
Set Implicit Arguments.

Lemma start_rest : rest g_start.
Proof. repeat split. Qed.
Lemma body_app : forall cs1 a, sched_body cs1 a -> forall cs2 b, sched_body cs2 b -> sched_body (cs1 ++ cs2) (a ++ b).
Proof.
  induction 1 as [|r cs rows N B IH|r cs rows N B IH|c v r cs rows N B IH|r0 cs1 rows1 r1 cs rows Ho B1 IH1 Hc B2 IH2]; intros cs2 b Hb; cbn [app].
  - exact Hb.
  - apply sb_noise; [exact N|apply IH; exact Hb].
  - apply sb_short; [exact N|apply IH; exact Hb].
  - apply sb_cron; [exact N|apply IH; exact Hb].
  - rewrite <- !app_assoc. cbn [app]. apply sb_block; try assumption. apply IH2. exact Hb.
Qed.
Lemma outside_full : forall c, Forall outside c -> full_file [] [] c.
Proof. induction 1; [apply full_nil|apply full_outside; assumption]. Qed.

Section F.
Variable schema : string -> option (list string).
Variable over12 mega : string -> pres string.
Variable hits : string -> pres bool.
Variable files : string -> option (list string).
Notation RR := (read_row schema over12 mega hits).
Notation RS := (read_rows schema over12 mega hits).
Notation RG := (read_glm schema over12 mega hits files).

Lemma read_schedules : forall input rows more os1 os2 ss1 ss2 vs, files input = Some rows -> included files rows more ->
  full_file os1 ss1 rows -> full_file os2 ss2 more -> Forall (legal schema) (os1 ++ os2) -> valued hits (ss1 ++ ss2) vs ->
  exists objs scheds, RG input = Ok (objs, scheds) /\ dictionary (os1 ++ os2) (found objs) /\ schedule_dictionary vs scheds.
Proof.
  intros input rows more os1 os2 ss1 ss2 vs Hf Hi F1 F2 L V. unfold read_glm. rewrite Hf, (included_ok Hi). cbn [pbind].
  pose proof L as L'. rewrite Forall_app in L'. destruct L' as [L1 L2].
  apply Forall2_app_inv_l in V. destruct V as (v1 & v2 & V1 & V2 & ->).
  destruct (@full_effect schema over12 mega hits os1 ss1 rows F1 g_start v1 start_rest L1 V1) as (s1 & E1 & R1 & D1 & S1).
  destruct (@full_effect schema over12 mega hits os2 ss2 more F2 s1 v2 R1 L2 V2) as (s2 & E2 & R2 & D2 & S2).
  rewrite RS_app, E1. cbn [pbind]. rewrite E2. cbn [pbind]. exists (g_objs s2), (g_scheds s2). split; [reflexivity|].
  rewrite D2, D1, S2, S1, <- !fold_left_app. split; [apply (put_dictionary (schema := schema)); exact L|apply note_dictionary].
Qed.
Lemma bad_cron : forall os ss vs rows1 name r0 cs body e more, full_file os ss rows1 -> Forall (legal schema) os -> valued hits ss vs ->
  schedule_row name r0 -> sched_body cs body -> breaks hits e cs ->
  RS (rows1 ++ (r0 :: body) ++ more) g_start = Err e.
Proof.
  intros os ss vs rows1 name r0 cs body e more F L V H0 Hb Br.
  destruct (@full_effect schema over12 mega hits os ss rows1 F g_start vs start_rest L V) as (s1 & E1 & R1 & _).
  rewrite RS_app, E1. cbn [pbind]. apply (schedule_breaks schema over12 mega more H0 Hb Br R1).
Qed.
Lemma braced_merged : forall os ss vs rows1 sc b scs bs o, full_file os ss rows1 -> Forall (legal schema) os -> valued hits ss vs ->
  braced_schedule sc b -> Forall2 braced_schedule scs bs -> picks hits (snd sc ++ flat_map snd scs) o ->
  exists s', RS (rows1 ++ b ++ List.concat bs) g_start = Ok s' /\ schedule_dictionary (vs ++ [(fst sc, o)]) (g_scheds s')
    /\ g_sched s' = Some (fst sc).
Proof.
  intros os ss vs rows1 sc b scs bs o F L V B Bs P.
  destruct (@full_effect schema over12 mega hits os ss rows1 F g_start vs start_rest L V) as (s1 & E1 & R1 & D1 & S1).
  rewrite RS_app, E1. cbn [pbind]. rewrite RS_app, (braced_first schema over12 mega hits B R1).
  apply outcome_picks in P. rewrite outcome_app in P. destruct (outcome hits (snd sc)) as [o1|]; [|discriminate]. cbn [pbind] in *.
  assert (W : within (set_sched (took s1 (fst sc) 1 o1) (Some (fst sc)) 1 (match o1 with Some _ => true | None => false end)) (fst sc) 1
                (match o1 with Some _ => true | None => false end)).
  { destruct R1 as ((A & B1 & C) & D). destruct o1; repeat split; assumption. }
  rewrite (braced_all schema over12 mega hits Bs W).
  assert (Sd : forall x : option string, schedule_dictionary (vs ++ [(fst sc, x)]) (note (g_scheds s1) (fst sc, x))).
  { intro x. rewrite S1. change (note (fold_left note vs (g_scheds g_start)) (fst sc, x)) with (fold_left note [(fst sc, x)] (fold_left note vs [])).
    rewrite <- fold_left_app. apply note_dictionary. }
  destruct o1 as [v|].
  - injection P as <-. eexists. split; [reflexivity|]. split; [exact (Sd (Some v))|reflexivity].
  - rewrite P. cbn [pbind]. eexists. split; [reflexivity|]. destruct o as [v|]; (split; [|reflexivity]); [exact (Sd (Some v))|exact (Sd None)].
Qed.
Lemma named_block : forall input rows name r0 cs1 a m cs2 b r1 c o, files input = Some rows -> included files rows [] ->
  rows = (r0 :: (a ++ m :: b) ++ r1 :: c)%list -> schedule_row name r0 -> sched_body cs1 a -> short_row m -> sched_body cs2 b ->
  block_close r1 -> Forall outside c -> picks hits (cs1 ++ cs2) o ->
  RG input = Ok ([], match o with Some v => [(name, v)] | None => [] end).
Proof.
  intros input rows name r0 cs1 a m cs2 b r1 c o Hf Hi -> H0 Ha Hm Hb H1 Ho P.
  assert (S : one_schedule (name, (cs1 ++ cs2)%list) (r0 :: (a ++ m :: b) ++ [r1])).
  { exists r0, (a ++ m :: b)%list, r1. split; [reflexivity|split; [exact H0|split; [|exact H1]]]. apply (body_app Ha). apply sb_short; assumption. }
  unfold read_glm. rewrite Hf, (included_ok Hi). cbn [pbind]. rewrite app_nil_r.
  replace (r0 :: (a ++ m :: b) ++ r1 :: c)%list with ((r0 :: (a ++ m :: b) ++ [r1]) ++ c)%list by (cbn; rewrite <- app_assoc; reflexivity).
  rewrite RS_app, (schedule_whole schema over12 mega hits S start_rest). cbn [fst snd]; rewrite (outcome_picks P); cbn [pbind].
  destruct (@full_effect schema over12 mega hits [] [] c (outside_full Ho) (noted g_start name o) [] (noted_rest name o start_rest)) as (s' & E & _ & D & Sc); [constructor|constructor|].
  rewrite E. cbn [pbind]. rewrite D, Sc. destruct o; reflexivity.
Qed.
End F.

Section G.
Variable schema : string -> option (list string).
Variable over12 mega : string -> pres string.
Variable hits : string -> pres bool.
Notation RR := (read_row schema over12 mega hits).
Notation RS := (read_rows schema over12 mega hits).
Lemma spaced_semi : forall ws v t, spaced (ws ++ [v]) t -> spaced (ws ++ [v ++ ";"]) (t ++ ";").
Proof.
  induction ws as [|w ws IH]; intros v t H; cbn [app] in *.
  - inversion H as [? Ew|? ? ? ? ? ? S]; subst; [apply spaced_one|inversion S].
  - inversion H as [? Ew|? x ? u Bx Nx S]; subst; [destruct ws; discriminate|]. rewrite !app_assoc3. apply spaced_more; [exact Bx|exact Nx|apply IH; exact S].
Qed.
Lemma late_effect : forall c v r s name, late_comment_row c v r -> within s name 1 false -> hits c = Ok true ->
  RR s r = Ok (add_sched (set_sched s (Some name) 1 true) name (v ++ ";")).
Proof.
  intros c v r s name (ws & w1 & t & x & m & -> & B1 & Sp & Bx & Nx & Tk & Le & -> & Hd) W H.
  pose proof (tokens_words Tk) as Wd. destruct (spaced_comment Sp Tk) as [C L]. destruct (spaced_nonempty Sp Wd) as [Nt Nw'].
  destruct (spaced_head schema over12 mega hits Sp) as (k & l & z & Ew & Et & Hz).
  assert (Hk : exists l', ws = k :: l') by (destruct ws as [|k' ws']; [cbn in Le; lia|injection Ew as -> _; eexists; reflexivity]).
  destruct Hk as [l' Hk]. destruct (Hd k l' Hk) as (No & Ns & Nb).
  assert (Tk' : token k) by (rewrite Ew in Tk; inversion Tk; assumption). destruct Tk' as (Wk & Fk & _).
  assert (Wsl : ~ white "/"%char) by (apply nw; tauto).
  assert (E : body_of (w1 ++ t ++ ";" ++ x ++ "//" ++ m) = (t ++ ";") ++ x).
  { destruct (spaced_solid Sp Wd) as [SL SR]. unfold body_of, strip, strip_by. rewrite lstrip_rstrip_comm, lstrip_blank by exact B1.
    rewrite lstrip_app_nonblank; rewrite SL; [|exact Nt].
    assert (Ea : t ++ ";" ++ x ++ "//" ++ m = ((t ++ ";") ++ x) ++ "//" ++ m) by (rewrite !app_assoc3; reflexivity). rewrite Ea.
    assert (R : rstrip is_ws ("//" ++ m) = "//" ++ rstrip is_ws m) by (cbn [append]; rewrite !rstrip_cons by exact Wsl; reflexivity).
    rewrite rstrip_app; rewrite R; [|discriminate]. rewrite cut_comment_app2; [rewrite cut_comment_slash, app_nil; reflexivity| |].
    - rewrite app_assoc3. apply no_comment_app2; [exact C| |exact L]. apply no_comment_app2; [apply no_comment_iff; reflexivity|apply blank_no_comment; exact Bx|].
      intros a Ea'. destruct a as [|d a]; [discriminate|]. injection Ea' as _ Ea'. destruct a; discriminate.
    - apply snoc_app; [exact Nx|]. apply blank_no_slash; assumption. }
  rewrite read_row_dispatch, E. unfold dispatch.
  pose proof (spaced_semi _ _ Sp) as Sp'.
  assert (Wd' : Forall word (ws ++ [v ++ ";"])).
  { apply Forall_app in Wd. destruct Wd as [Wa Wb]. apply Forall_app. split; [exact Wa|]. inversion Wb as [|? ? Wv _]; subst.
    constructor; [|constructor]. destruct Wv as [Nv Wv]. split; [destruct v; [contradiction|discriminate]|]. intros d. rewrite chars_app, in_app_iff.
    intros [I|[<-|[]]]; [apply Wv; exact I|apply nw; tauto]. }
  assert (Es : split ((t ++ ";") ++ x) = (ws ++ [(v ++ ";")%string])%list).
  { rewrite (spaced_split Sp' Wd') by (apply blank_gap; exact Bx). rewrite split_blank_nil by exact Bx. apply app_nil_r. }
  rewrite Es, Hk. cbn [app]. rewrite !first_is_false by assumption. destruct W as (Hc & Hg & Hsc & Hn & Hf). rewrite Hc, Hsc. cbn [pbind fst snd].
  unfold in_schedule.
  assert (St : strip_by (Ascii.eqb ";") ((t ++ ";") ++ x) = (t ++ ";") ++ x).
  { destruct k as [|d k]; [destruct Wk; contradiction|].
    assert (Nd : Ascii.eqb ";" d = false) by (apply Ascii.eqb_neq; intros <-; apply Fk; left; reflexivity).
    unfold strip_by. assert (Rk : rstrip (Ascii.eqb ";") ((t ++ ";") ++ x) = (t ++ ";") ++ x).
    { destruct (snoc_cases x) as [->|(y & d' & ->)]; [contradiction|]. rewrite <- app_assoc3.
      assert (Nd' : Ascii.eqb ";" d' = false).
      { apply Ascii.eqb_neq. intros <-. apply (@nw ";"%char); [tauto|]. apply Bx. rewrite chars_app. apply in_or_app. right. left. reflexivity. }
      clear - Nd'. induction ((t ++ ";") ++ y) as [|a u IH]; cbn [append rstrip]; [rewrite Nd'; reflexivity|]. rewrite IH. destruct u; reflexivity. }
    rewrite Rk, Et. cbn [append lstrip]. rewrite Nd. reflexivity. }
  rewrite St, Es, Hf. rewrite List.app_length. cbn [List.length].
  destruct (Nat.ltb_spec 5 (List.length ws + 1)); [|lia]. cbn [andb negb]. rewrite removelast_last, last_last, concat_join, H. cbn [pbind].
  assert (Ee : ends_with "}" ((t ++ ";") ++ x) = false) by (rewrite ends_app by exact Nx; apply ends_white; [exact Bx|exact Nx|apply nw; tauto]).
  assert (Eb : starts_with "{" ((t ++ ";") ++ x) = false).
  { apply starts_not. intros a. rewrite Et. destruct k as [|d k]; [destruct Wk; contradiction|]. cbn. intros H'. injection H' as -> _. apply (Nb k). reflexivity. }
  destruct ((t ++ ";") ++ x) as [|d y]; [cbn in Ee; destruct s; cbn in *; subst; reflexivity|]. cbv zeta. rewrite Ee, Eb.
  cbn [add_sched set_sched g_cnt]. rewrite Hn. cbn. reflexivity.
Qed.
Lemma late_comment : forall name r0 c v r r1, schedule_row name r0 -> late_comment_row c v r -> block_close r1 -> hits c = Ok true ->
  exists s', RS [r0; r; r1] g_start = Ok s' /\ g_scheds s' = [(name, v ++ ";")].
Proof.
  intros name r0 c v r r1 H0 H H1 Hc. rewrite RS_cons. rewrite (schedule_effect schema over12 mega hits _ H0) by reflexivity. cbn [pbind].
  assert (W := within_open name start_rest). rewrite RS_cons, (late_effect H W Hc). cbn [pbind].
  assert (W' : within (add_sched (set_sched (set_sched g_start (Some name) 1 (g_found g_start)) (Some name) 1 true) name (v ++ ";")) name 1 true) by (repeat split).
  rewrite RS_cons, (close_effect schema over12 mega hits H1 W'). cbn. eexists. split; reflexivity.
Qed.
End G.
