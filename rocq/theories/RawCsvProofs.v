(** Reading the fields of a line as they were written. *)
From Coq Require Import Reals ZArith String Ascii List Bool Lia.
From Verif Require Import PyExc GlmText GlmBase RawText SpecRawText RawFieldProofs.
Import ListNotations.
Local Open Scope string_scope.

Lemma app_assoc_s : forall a b c : string, (a ++ b) ++ c = a ++ b ++ c.
Proof. induction a as [|x a IH]; intros b c; cbn; [reflexivity | rewrite IH; reflexivity]. Qed.
Lemma csv_app : forall d l m s, csv_chars d s (l ++ m) = csv_chars d (csv_chars d s l) m.
Proof. induction l as [|c l IH]; intros m s; cbn; [reflexivity | apply IH]. Qed.
Lemma blanks_cases : forall s, blanks s -> s = "" \/ exists r, s = String " " r /\ blanks r.
Proof. intros s [[|n] ->]; [left; reflexivity | right]. exists (string_of_list_ascii (repeat " "%char n)). split; [reflexivity | exists n; reflexivity]. Qed.
Lemma blanks_ind' : forall P : string -> Prop, P "" -> (forall r, blanks r -> P r -> P (String " " r)) -> forall s, blanks s -> P s.
Proof.
  intros P H0 H1 s [n ->]. induction n as [|n IH]; [exact H0|]. apply H1; [exists n; reflexivity | exact IH].
Qed.
Lemma blanks_app : forall a b, blanks a -> blanks b -> blanks (a ++ b).
Proof. intros a b [n ->] [m ->]. exists (n + m)%nat. rewrite repeat_app. induction n as [|n IH]; cbn; [reflexivity | rewrite IH; reflexivity]. Qed.
Lemma blanks_start : forall d p row, blanks p ->
  csv_chars d {| cs_mode := StartField; cs_field := ""; cs_row := row |} p = {| cs_mode := StartField; cs_field := ""; cs_row := row |}.
Proof. intros d p row H. revert p H. apply blanks_ind'; [reflexivity | intros r _ IH; exact IH]. Qed.
Lemma chars_in : forall d t f row, lacks d t ->
  csv_chars d {| cs_mode := InField; cs_field := f; cs_row := row |} t = {| cs_mode := InField; cs_field := f ++ t; cs_row := row |}.
Proof.
  intros d t. induction t as [|c t IH]; intros f row H; cbn [csv_chars]; [rewrite app_nil_str; reflexivity|].
  assert (E : Ascii.eqb c d = false) by (apply Ascii.eqb_neq; intros ->; apply (H "" t); reflexivity).
  unfold csv_char at 1. cbn [cs_mode]. rewrite E. unfold add_char. cbn [cs_field cs_row]. rewrite IH.
  - rewrite app_assoc_s. reflexivity.
  - intros a b K. apply (H (String c a) b). cbn. congruence.
Qed.
Lemma chars_quoted : forall d v w f row, doubled v w ->
  csv_chars d {| cs_mode := InQuoted; cs_field := f; cs_row := row |} w = {| cs_mode := InQuoted; cs_field := f ++ v; cs_row := row |}.
Proof.
  intros d v w f row H. revert f. induction H as [|v w H IH|c v w N H IH]; intros f; cbn [csv_chars]; [rewrite app_nil_str; reflexivity| |].
  - change (csv_chars d {| cs_mode := InQuoted; cs_field := f ++ "'"; cs_row := row |} w = {| cs_mode := InQuoted; cs_field := f ++ String "'" v; cs_row := row |}). rewrite IH, app_assoc_s. reflexivity.
  - unfold csv_char at 1. cbn [cs_mode]. apply Ascii.eqb_neq in N. rewrite N. unfold add_char. cbn [cs_field cs_row]. rewrite IH, app_assoc_s. reflexivity.
Qed.
Lemma lacks_blanks : forall d q, d <> " "%char -> blanks q -> lacks d q.
Proof.
  intros d q N. revert q. apply (blanks_ind' (lacks d)); [intros [|] b E; discriminate|].
  intros r _ IH a b E. destruct a as [|c a]; cbn in E; [injection E as E _; congruence | injection E as _ E; exact (IH a b E)].
Qed.
Lemma lacks_app : forall d a b, lacks d a -> lacks d b -> lacks d (a ++ b).
Proof.
  intros d a b HA HB. induction a as [|c a IH]; [exact HB|]. intros x y E. destruct x as [|e x]; cbn in E.
  - injection E as -> _. apply (HA "" a). reflexivity.
  - injection E as -> E. apply (IH ltac:(intros p q K; apply (HA (String e p) q); cbn; congruence) x y E).
Qed.
(** *** stripping blanks *)
Lemma rstrip_all : forall q, blanks q -> rstrip is_ws q = "".
Proof. apply (blanks_ind' (fun q => rstrip is_ws q = "")); [reflexivity|]. intros r _ IH. cbn. rewrite IH. reflexivity. Qed.
Lemma rstrip_app : forall x q, blanks q -> rstrip is_ws (x ++ q) = rstrip is_ws x.
Proof. intros x q H. induction x as [|c x IH]; cbn; [apply rstrip_all; exact H | rewrite IH; reflexivity]. Qed.
Lemma lstrip_app : forall p x, blanks p -> lstrip is_ws (p ++ x) = lstrip is_ws x.
Proof. intros p x H. revert p H. apply (blanks_ind' (fun p => lstrip is_ws (p ++ x) = lstrip is_ws x)); [reflexivity|]. intros r _ IH. exact IH. Qed.
Lemma strip_blanks : forall i v j, blanks i -> blanks j -> trimmed v -> strip (i ++ v ++ j) = v.
Proof.
  intros i v j HI HJ T. unfold strip, strip_by. rewrite lstrip_rstrip_comm, lstrip_app by exact HI. rewrite <- lstrip_rstrip_comm, rstrip_app by exact HJ.
  exact (trimmed_strip v T).
Qed.
(** *** a field *)
Definition closes (d : ascii) (s : csv_state) : Prop :=
  cs_mode s = InField \/ cs_mode s = QuoteInQuoted \/ cs_mode s = StartField /\ d <> " "%char.
Lemma field_read : forall d t v row, d <> "'"%char -> written d t v ->
  exists s, csv_chars d {| cs_mode := StartField; cs_field := ""; cs_row := row |} t = s /\ cs_row s = row /\ strip (cs_field s) = v /\ closes d s.
Proof.
  intros d t v row Nd H. destruct H as [p v q BP BQ T L NQ S|p i v j w q BP BI BJ BQ T D S].
  - rewrite csv_app, blanks_start by exact BP. destruct v as [|c v].
    + assert (N : d <> " "%char) by (intros E; apply (proj1 (S E)); reflexivity).
      cbn [append]. rewrite blanks_start by exact BQ. eexists. split; [reflexivity|]. split; [reflexivity|]. split; [reflexivity | right; right; auto].
    + assert (W : c <> " "%char) by (intros ->; apply (proj1 T " "%char v eq_refl); right; split; cbn; lia).
      assert (Q : c <> "'"%char) by (intros ->; exact (NQ v eq_refl)).
      assert (N : c <> d) by (intros ->; apply (L "" v); reflexivity).
      cbn [append csv_chars]. unfold csv_char at 1. cbn [cs_mode]. apply Ascii.eqb_neq in W, Q, N. rewrite Q, W, N.
      unfold add_char. cbn [cs_field cs_row append]. rewrite chars_in.
      * eexists. split; [reflexivity|]. split; [reflexivity|]. split; [|left; reflexivity]. cbn [cs_field].
        change (strip ("" ++ (String c v) ++ q) = String c v). apply strip_blanks; [exists 0%nat; reflexivity | exact BQ | exact T].
      * apply lacks_app; [intros a b E; apply (L (String c a) b); cbn; congruence|].
        destruct (ascii_dec d " ") as [E|E]; [rewrite (proj2 (S E)); intros [|] b K; discriminate | apply lacks_blanks; assumption].
  - rewrite csv_app, blanks_start by exact BP. cbn [csv_chars]. unfold csv_char at 1. cbn [cs_mode]. change (Ascii.eqb "'" "'") with true. cbv iota.
    unfold go_mode. cbn [cs_field cs_row]. rewrite csv_app, (chars_quoted d (i ++ v ++ j)) by exact D. cbn [csv_chars append]. unfold csv_char at 1. cbn [cs_mode].
    change (Ascii.eqb "'" "'") with true. cbv iota. unfold go_mode. cbn [cs_field cs_row].
    destruct (blanks_cases q BQ) as [->|(r & -> & BR)].
    + eexists. split; [reflexivity|]. split; [reflexivity|]. split; [apply strip_blanks; assumption | right; left; reflexivity].
    + assert (N : d <> " "%char) by (intros E; specialize (S E); discriminate).
      cbn [csv_chars]. unfold csv_char at 1. cbn [cs_mode]. change (Ascii.eqb " " "'") with false. cbv iota.
      assert (N' : Ascii.eqb " " d = false) by (apply Ascii.eqb_neq; congruence). rewrite N'. unfold add_char. cbn [cs_field cs_row].
      rewrite chars_in by (apply lacks_blanks; assumption). eexists. split; [reflexivity|]. split; [reflexivity|]. split; [|left; reflexivity].
      cbn [cs_field]. rewrite !app_assoc_s. apply strip_blanks; [exact BI | | exact T]. apply blanks_app; [exact BJ|].
      change (blanks (" " ++ r)). apply blanks_app; [exists 1%nat; reflexivity | exact BR].
Qed.
Lemma closes_delim : forall d s, d <> "'"%char -> closes d s -> csv_char d s d = save_field s.
Proof.
  intros d [m f r] N H. unfold csv_char. cbn [cs_mode]. apply Ascii.eqb_neq in N. rewrite N.
  destruct H as [H|[H|[H K]]]; cbn in H; subst m; rewrite ?Ascii.eqb_refl; try reflexivity.
  apply Ascii.eqb_neq in K. rewrite K. reflexivity.
Qed.
Lemma line_read : forall d l vs row, d <> "'"%char -> written_line d l vs ->
  exists s, csv_chars d {| cs_mode := StartField; cs_field := ""; cs_row := row |} l = s /\ closes d s /\
    exists last, map strip (cs_row (save_field s)) = (map strip row ++ last)%list /\ last = vs.
Proof.
  intros d l vs row N H. revert row. induction H as [t v W|t v l vs W H IH]; intros row.
  - destruct (field_read d t v row N W) as (s & -> & R & F & C). eexists. split; [reflexivity|]. split; [exact C|].
    exists [v]. split; [|reflexivity]. cbn. rewrite R, map_app. cbn. rewrite F. reflexivity.
  - destruct (field_read d t v row N W) as (s & E & R & F & C). rewrite csv_app, E. cbn [csv_chars]. rewrite (closes_delim d s N C). unfold save_field at 1.
    destruct (IH (cs_row s ++ [cs_field s])%list) as (s2 & -> & C2 & last & L & ->). eexists. split; [reflexivity|]. split; [exact C2|].
    exists (v :: vs). split; [|reflexivity]. rewrite L, map_app, R. cbn. rewrite F, <- app_assoc. reflexivity.
Qed.
Lemma lines_read : forall d lines rows, d <> "'"%char -> Forall2 (written_row d) lines rows -> map (map strip) (csv_lines d None lines) = rows.
Proof.
  intros d lines rows N H. induction H as [|l r lines rows W H IH]; [reflexivity|]. destruct W as [[-> ->]|[NE W]].
  - cbn. rewrite IH. reflexivity.
  - destruct l as [|c l]; [congruence|]. destruct (line_read d _ r [] N W) as (s & E & C & last & L & ->).
    cbn [csv_lines]. unfold new_record. rewrite E.
    assert (M : cs_mode s <> InQuoted) by (destruct C as [M|[M|[M _]]]; rewrite M; discriminate).
    destruct (cs_mode s); try congruence; cbn [map]; rewrite IH, L; reflexivity.
Qed.
Lemma has_char_iff : forall c s, has_char c s = true <-> exists a b, s = a ++ String c b.
Proof.
  intros c s. induction s as [|x s IH]; cbn.
  - split; [discriminate | intros ([|] & b & E); discriminate].
  - rewrite orb_true_iff, Ascii.eqb_eq, IH. split.
    + intros [->|(a & b & ->)]; [exists "", s; reflexivity | exists (String x a), b; reflexivity].
    + intros ([|y a] & b & E); cbn in E; injection E as -> E; [left; reflexivity | right; eauto].
Qed.
Lemma rows_read : forall lines rows, written_file lines rows -> rows_of lines = Ok rows.
Proof.
  intros lines rows (first & more & d & -> & D & H). cbn [rows_of].
  replace (find_delim first) with d; [f_equal; apply lines_read; [destruct D as [[-> _]|[-> _]]; intros K; discriminate K | exact H]|]. unfold find_delim. destruct D as [[-> E]|[-> E]].
  - rewrite (proj2 (has_char_iff "," first)); [reflexivity | exact E].
  - destruct (has_char "," first) eqn:K; [|reflexivity]. apply has_char_iff in K as (a & b & K). exfalso. exact (E a b K).
Qed.
Lemma rows_trimmed : forall lines rows, rows_of lines = Ok rows -> Forall (Forall trimmed) rows.
Proof.
  intros [|l lines] rows H; [discriminate|]. cbn [rows_of] in H. injection H as <-. apply Forall_forall. intros r Hr.
  apply in_map_iff in Hr as (x & <- & _). apply Forall_forall. intros t Ht. apply in_map_iff in Ht as (y & <- & _). apply strip_trimmed.
Qed.
