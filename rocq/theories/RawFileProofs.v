(** Longer files, the order of the records, the slack buses, the network. *)
From Coq Require Import Reals ZArith String Ascii List Bool Lia Permutation.
From Verif Require Import PyExc RawTransformers RawParser SpecRaw GlmText RawText SpecRawText RawKeyProofs RawFieldProofs RawLoopProofs RawBodyProofs
  RawCsvProofs RawCaseProofs RawProofs.
Import ListNotations.
Local Open Scope string_scope.

Section File.
Variable to_int : string -> option Z.
Variable to_float : string -> option R.
Notation record := (record to_int to_float).
Notation loop := (loop to_int to_float).
Notation heading := (heading to_int to_float).
Notation body := (body to_int to_float).

(** *** rows added at the end *)
Lemma ahead_more : forall rest m k r, ahead rest k = Ok r -> ahead (rest ++ m) k = Ok r.
Proof.
  intros rest m k r H. apply ahead_iff in H. apply ahead_iff. rewrite nth_error_app1; [exact H|]. apply nth_error_Some. congruence.
Qed.
Lemma record_more : forall rev s t r rest m x, record rev s t r rest = Ok x -> record rev s t r (rest ++ m) = Ok x.
Proof.
  intros rev s t r rest m x. destruct s; cbn [RawText.record]; intros H; try exact H.
  - apply bind_ok in H as (k & HK & H). apply bind_ok in H as (r2 & H2 & H). apply bind_ok in H as (r3 & H3 & H). apply bind_ok in H as (r4 & H4 & H).
    rewrite HK. cbn [pbind]. rewrite (ahead_more _ m _ _ H2). cbn [pbind]. rewrite (ahead_more _ m _ _ H3). cbn [pbind]. rewrite (ahead_more _ m _ _ H4). cbn [pbind].
    destruct (String.eqb k "0"); [exact H|]. apply bind_ok in H as (r5 & H5 & H). rewrite (ahead_more _ m _ _ H5). exact H.
  - apply bind_ok in H as (r2 & H2 & H). apply bind_ok in H as (r3 & H3 & H). rewrite (ahead_more _ m _ _ H2). cbn [pbind]. rewrite (ahead_more _ m _ _ H3). exact H.
  - apply bind_ok in H as (r2 & H2 & H). apply bind_ok in H as (r3 & H3 & H). rewrite (ahead_more _ m _ _ H2). cbn [pbind]. rewrite (ahead_more _ m _ _ H3). exact H.
Qed.
Definition more (m : list row) (o : option (list row)) : option (list row) := option_map (fun r => (r ++ m)%list) o.
Lemma loop_more : forall rev s m rows n t t' o, loop rev s n rows t = Ok (t', o) -> loop rev s n (rows ++ m) t = Ok (t', more m o).
Proof.
  intros rev s m. induction rows as [|r rows IH]; intros n t t' o H; [destruct n; discriminate|]. destruct n as [|n]; cbn [app RawText.loop] in *; [|apply IH; exact H].
  apply bind_ok in H as (a & -> & H). cbn [pbind]. destruct a; [apply IH; exact H|]. apply bind_ok in H as (f & -> & H). cbn [pbind].
  destruct f; [injection H as <- <-; reflexivity|]. destruct (section_end r); [injection H as <- <-; reflexivity|].
  apply bind_ok in H as (x & E & H). rewrite (record_more _ _ _ _ _ m _ E). cbn [pbind]. apply IH. exact H.
Qed.
Lemma system_more : forall m rows o, loop_system rows = Ok o -> loop_system (rows ++ m) = Ok (more m o).
Proof.
  intros m. induction rows as [|r rows IH]; intros o H; [discriminate|]. cbn [app loop_system] in *. apply bind_ok in H as (f & -> & H). cbn [pbind].
  destruct f; [injection H as <-; reflexivity|]. destruct (section_end r); [injection H as <-; reflexivity | apply IH; exact H].
Qed.
Lemma stale_more : forall m rows b o, loop_stale b rows = Ok o -> loop_stale b (rows ++ m) = Ok (more m o).
Proof.
  intros m. induction rows as [|r rows IH]; intros b o H; [discriminate|]. cbn [app loop_stale] in *. apply bind_ok in H as (a & -> & H). cbn [pbind].
  destruct a; [apply IH; exact H|]. destruct b; [apply IH; exact H|]. apply bind_ok in H as (f & -> & H). cbn [pbind].
  destruct f; [injection H as <-; reflexivity|]. destruct (section_end r); [injection H as <-; reflexivity | apply IH; exact H].
Qed.
Lemma section_more : forall rev s m rows t t' o, run_section to_int to_float rev s rows t = Ok (t', o) ->
  run_section to_int to_float rev s (rows ++ m) t = Ok (t', more m o).
Proof.
  intros rev s m rows t t' o. destruct s; cbn [run_section]; try apply loop_more; intros H; apply bind_ok in H as (x & E & H); injection H as <- <-.
  - rewrite (system_more m _ _ E). reflexivity.
  - rewrite (stale_more m _ _ _ E). reflexivity.
  - rewrite (stale_more m _ _ _ E). reflexivity.
  - rewrite (stale_more m _ _ _ E). reflexivity.
Qed.
Lemma sections_more : forall rev m ss rows t t', run_sections to_int to_float rev ss rows t = Ok t' -> run_sections to_int to_float rev ss (rows ++ m) t = Ok t'.
Proof.
  intros rev m. induction ss as [|s ss IH]; intros rows t t' H; cbn [run_sections] in *; [exact H|]. apply bind_ok in H as ([t1 o] & E & H). cbn [fst snd] in H.
  rewrite (section_more _ _ m _ _ _ _ E). cbn [pbind fst snd]. destruct o as [rest|]; [apply IH; exact H | exact H].
Qed.
Lemma skip_at_more : forall m rows r, skip_at rows = Ok r -> skip_at (rows ++ m) = Ok r.
Proof.
  intros m. induction rows as [|x rows IH]; intros r H; [discriminate|]. cbn [app skip_at] in *. apply bind_ok in H as (a & -> & H). cbn [pbind].
  destruct a; [apply IH; exact H | exact H].
Qed.
Lemma case_id_more : forall two m rows x, case_id to_int to_float two rows = Ok x -> case_id to_int to_float two (rows ++ m) = Ok x.
Proof. intros two m rows x H. unfold case_id in *. apply bind_ok in H as (r & E & H). rewrite (skip_at_more m _ _ E). exact H. Qed.
Lemma skipn_more : forall n (rows m : list row) r, nth_error rows n = Some r -> skipn (S n) (rows ++ m) = (skipn (S n) rows ++ m)%list.
Proof.
  intros n rows m r H. assert (L : (n < List.length rows)%nat) by (apply nth_error_Some; congruence).
  rewrite skipn_app. replace (S n - List.length rows)%nat with 0%nat by lia. reflexivity.
Qed.
Lemma rows_more : forall rows m f, read_rows to_int to_float rows = Ok f -> read_rows to_int to_float (rows ++ m) = Ok f.
Proof.
  intros rows m f H. unfold read_rows in *. apply bind_ok in H as (r0 & H0 & H). apply bind_ok in H as (a & HA & H). rewrite (ahead_more _ m _ _ H0). cbn [pbind]. rewrite HA. cbn [pbind].
  assert (E : (if a then skipn 1 (rows ++ m) else rows ++ m)%list = ((if a then skipn 1 rows else rows) ++ m)%list).
  { destruct a; [|reflexivity]. apply (skipn_more 0 rows m r0). apply ahead_iff. exact H0. }
  rewrite E. set (b := if a then skipn 1 rows else rows) in *. clearbody b.
  apply bind_ok in H as (r1 & H1 & H). apply bind_ok in H as (r2 & H2 & H). apply bind_ok in H as (r3 & H3 & H). apply bind_ok in H as (id & HI & H).
  rewrite (ahead_more _ m _ _ H1). cbn [pbind]. rewrite (ahead_more _ m _ _ H2). cbn [pbind]. rewrite (ahead_more _ m _ _ H3). cbn [pbind].
  rewrite (case_id_more _ m _ _ HI). cbn [pbind]. apply bind_ok in H as (u & HG & H). rewrite HG. cbn [pbind].
  apply bind_ok in H as (t & HT & H). apply ahead_iff in H3. rewrite (skipn_more 2 b m r3 H3). rewrite (sections_more _ m _ _ _ _ HT). exact H.
Qed.
Lemma lines_more : forall d lines rows m, d <> "'"%char -> Forall2 (written_row d) lines rows ->
  map (map strip) (csv_lines d None (lines ++ m)) = (rows ++ map (map strip) (csv_lines d None m))%list.
Proof.
  intros d lines rows m N H. induction H as [|l r lines rows W H IH]; [reflexivity|]. destruct W as [[-> ->]|[NE W]].
  - cbn. rewrite IH. reflexivity.
  - destruct l as [|c l]; [congruence|]. destruct (line_read d _ r [] N W) as (s & E & C & last & L & ->).
    cbn [app csv_lines]. unfold new_record. rewrite E.
    assert (M : cs_mode s <> InQuoted) by (destruct C as [M|[M|[M _]]]; rewrite M; discriminate).
    destruct (cs_mode s); try congruence; cbn [map app]; rewrite IH, L; reflexivity.
Qed.
Lemma rows_of_more : forall lines rows m, written_file lines rows -> exists xs, rows_of (lines ++ m) = Ok (rows ++ xs)%list.
Proof.
  intros lines rows m (first & rest & d & -> & D & H).
  assert (N : d <> "'"%char) by (destruct D as [[-> _]|[-> _]]; discriminate).
  assert (E : find_delim first = d).
  { unfold find_delim. destruct D as [[-> E]|[-> E]].
    - rewrite (proj2 (has_char_iff "," first)); [reflexivity | exact E].
    - destruct (has_char "," first) eqn:K; [|reflexivity]. apply has_char_iff in K as (a & b & K). exfalso. exact (E a b K). }
  exists (map (map strip) (csv_lines d None m)). rewrite <- (lines_more d _ _ m N H). cbn [app rows_of]. rewrite E. reflexivity.
Qed.
Lemma read_more : forall lines rows c m, written_file lines rows -> read_raw to_int to_float lines = Ok c ->
  read_raw to_int to_float (lines ++ m) = Ok c.
Proof.
  intros lines rows c m W H. unfold read_raw in *. rewrite (rows_read lines rows W) in H. cbn [pbind] in H. apply bind_ok in H as (f & F & H).
  destruct (rows_of_more lines rows m W) as (xs & ->). apply bind_ok. exists (rows ++ xs)%list. split; [reflexivity|]. apply bind_ok. exists f. split; [apply rows_more; exact F | exact H].
Qed.

(** *** what the records determine *)
Lemma read_items : forall lines rows rev sb rest is c, written_file lines rows -> heading rows rev sb rest -> body rev (order rev) rest is ->
  (read_raw to_int to_float lines = Ok c <-> case_from rev sb is c).
Proof.
  intros lines rows rev sb rest is c W H B. pose proof (rows_read lines rows W) as E.
  pose proof (proj2 (read_rows_iff to_int to_float rows {| rf_rev := rev; rf_sbase := sb; rf_tables := put_items no_tables is |} (rows_trimmed _ _ E))
    (ex_intro _ rest (ex_intro _ is (conj H (conj B eq_refl))))) as F.
  unfold read_raw. rewrite E. cbn [pbind]. rewrite F. cbn [pbind]. apply case_of_iff.
Qed.
Lemma collected_perm : forall A (l l' : list (key * A)) out, NoDup (map fst l) -> Permutation l l' -> collected l out -> collected l' out.
Proof.
  intros A l l' out N P (es & -> & S & H). exists es. split; [reflexivity|]. split; [exact S|]. intros k x. rewrite H.
  assert (N' : NoDup (map fst l')) by (apply (Permutation_NoDup (Permutation_map fst P)); exact N).
  rewrite (last_with_key_nodup A l k x N), (last_with_key_nodup A l' k x N'). split; apply Permutation_in; [exact P | apply Permutation_sym; exact P].
Qed.
Lemma case_perm : forall rev sb is is' c, distinct_records is -> Permutation is is' -> case_from rev sb is c -> case_from rev sb is' c.
Proof.
  intros rev sb is is' c (N1 & N2 & N3 & N4 & N5 & N6 & N7 & N8) P (R & S & G & C1 & C2 & C3 & C4 & C5 & C6 & C7 & C8).
  assert (F : forall A (f : item -> list A), Permutation (flat_map f is) (flat_map f is')) by (intros A f; apply Permutation_flat_map; exact P).
  split; [exact R|]. split; [exact S|]. split.
  - intros I. apply (Permutation_in _ (Permutation_sym P)) in I. specialize (G I). apply Permutation_nil. rewrite <- G. apply F.
  - repeat split; (eapply collected_perm; [|apply F|]; eassumption).
Qed.
Lemma distinct_perm : forall is is', distinct_records is -> Permutation is is' -> distinct_records is'.
Proof.
  intros is is' (N1 & N2 & N3 & N4 & N5 & N6 & N7 & N8) P.
  repeat split; (eapply Permutation_NoDup; [apply Permutation_map, Permutation_flat_map; exact P | assumption]).
Qed.
Lemma read_order : forall lines rows lines' rows' rev sb rest rest' is is',
  written_file lines rows -> heading rows rev sb rest -> body rev (order rev) rest is ->
  written_file lines' rows' -> heading rows' rev sb rest' -> body rev (order rev) rest' is' ->
  distinct_records is -> Permutation is is' -> forall c, read_raw to_int to_float lines = Ok c <-> read_raw to_int to_float lines' = Ok c.
Proof.
  intros lines rows lines' rows' rev sb rest rest' is is' W H B W' H' B' D P c.
  rewrite (read_items lines rows rev sb rest is c W H B), (read_items lines' rows' rev sb rest' is' c W' H' B'). split.
  - apply case_perm; assumption.
  - apply case_perm; [exact (distinct_perm is is' D P) | apply Permutation_sym; exact P].
Qed.

(** *** slack buses *)
Lemma slack_items : forall is t n, In n (rt_slack (put_items t is)) <-> In n (rt_slack t) \/ exists b, In (IBus b) is /\ b_ide b = 3%Z /\ b_num b = n.
Proof.
  induction is as [|i is IH]; intros t n; [cbn; split; [auto | intros [H|(b & [] & _)]; exact H]|].
  change (put_items t (i :: is)) with (put_items (put_item t i) is). rewrite IH.
  assert (E : In n (rt_slack (put_item t i)) <-> In n (rt_slack t) \/ exists b, i = IBus b /\ b_ide b = 3%Z /\ b_num b = n).
  { destruct i as [r| | | | | | | |]; cbn [put_item put_bus put_load put_fs put_gen put_branch put_x2 put_x3 put_ss rt_slack fst snd];
      try (split; [auto | intros [H|(y & H & _)]; [exact H | discriminate]]).
    destruct (Z.eqb_spec (b_ide r) 3) as [E|E].
    - rewrite in_app_iff. cbn. split; [intros [H|[H|[]]]; [auto | right; exists r; auto] | intros [H|(x & H & _ & K)]; [auto | injection H as <-; auto]].
    - split; [auto | intros [H|(x & H & K & _)]; [exact H | injection H as <-; contradiction]]. }
  rewrite E. split.
  - intros [[H|(b & -> & H)]|(b & I & H)]; [auto | right; exists b; split; [left; reflexivity | exact H] | right; exists b; split; [right; exact I | exact H]].
  - intros [H|(b & [I|I] & H)]; [auto | left; right; exists b; auto | right; exists b; auto].
Qed.
Lemma bus_items_in : forall is k b, In (k, b) (bus_items is) <-> In (IBus b) is /\ k = [KI (b_num b)].
Proof.
  intros is k b. unfold bus_items. rewrite in_flat_map. split.
  - intros (i & I & H). destruct i; cbn in H; try contradiction; destruct H as [H|[]]; injection H as <- <-; auto.
  - intros (I & ->). exists (IBus b). split; [exact I | left; reflexivity].
Qed.
Lemma collected_in : forall A (l : list (key * A)) out x, collected l out -> (In x out <-> exists k, last_with_key l k x).
Proof.
  intros A l out x (es & -> & _ & H). rewrite in_map_iff. split.
  - intros ([k y] & <- & I). exists k. apply H. exact I.
  - intros (k & I). exists (k, x). split; [reflexivity | apply H; exact I].
Qed.
Lemma last_in : forall A (l : list (key * A)) k x, last_with_key l k x -> In (k, x) l.
Proof. intros A l k x (b & a & -> & _). apply in_or_app. right. left. reflexivity. Qed.
Lemma slack_agrees : forall rev sb is c, NoDup (map fst (bus_items is)) -> case_from rev sb is c ->
  forall n, slack_bus (rc_buses c) n = true <-> In n (rt_slack (put_items no_tables is)).
Proof.
  intros rev sb is c N (_ & _ & _ & C & _) n. rewrite slack_items. cbn [no_tables rt_slack]. unfold slack_bus. rewrite existsb_exists. split.
  - intros (b & I & H). right. exists b. apply (collected_in _ _ _ _ C) in I as (k & I). apply last_in, bus_items_in in I as [I _].
    apply andb_true_iff in H as [H1 H2]. apply Z.eqb_eq in H1, H2. auto.
  - intros [[]|(b & I & E1 & E2)]. exists b. split; [|rewrite E1, E2, !Z.eqb_refl; reflexivity].
    apply (collected_in _ _ _ _ C). exists [KI (b_num b)]. apply (last_with_key_nodup _ _ _ _ N). apply bus_items_in. auto.
Qed.

(** *** the network *)
Lemma case_buses : forall rev sb is c, case_from rev sb is c -> NoDup (map b_num (rc_buses c)).
Proof.
  intros rev sb is c (_ & _ & _ & (es & -> & S & H) & _). rewrite map_map.
  assert (K : forall e, In e es -> fst e = [KI (b_num (snd e))]).
  { intros [k b] I. apply H, last_in, bus_items_in in I as [_ ->]. reflexivity. }
  clear H. induction es as [|e es IH]; [constructor|]. cbn [map]. constructor.
  - intros I. apply in_map_iff in I as (f & E & I). apply In_nth_error in I as (j & I).
    pose proof (S 0%nat (Datatypes.S j) e f ltac:(lia) eq_refl I) as L. rewrite (K e (or_introl eq_refl)), (K f (or_intror (nth_error_In _ _ I))), E in L.
    exact (key_lt_irrefl _ L).
  - apply IH; [|intros f I; apply K; right; exact I]. intros i j a b L A B. exact (S (Datatypes.S i) (Datatypes.S j) a b ltac:(lia) A B).
Qed.
Lemma load_raw_iff : forall lines rows rev sb rest is net, written_file lines rows -> heading rows rev sb rest -> body rev (order rev) rest is ->
  (forall b, In (IBus b) is -> b_num b <> (-1)%Z) ->
  (load_raw to_int to_float lines = Ok net <-> exists c, case_from rev sb is c /\ raw_ok c /\ raw_net c net).
Proof.
  intros lines rows rev sb rest is net W H B M. unfold load_raw. rewrite bind_ok.
  assert (X : forall c, case_from rev sb is c -> (parse_raw c = Ok net <-> raw_ok c /\ raw_net c net)).
  { intros c C. apply raw_exact; [exact (case_buses rev sb is c C)|]. intros (b & (I & E) & _).
    destruct C as (_ & _ & _ & C & _). apply (collected_in _ _ _ _ C) in I as (k & I). apply last_in, bus_items_in in I as [I _]. exact (M b I E). }
  split; intros (c & C & P); exists c.
  - apply (read_items lines rows rev sb rest is c W H B) in C. split; [exact C|]. apply (X c C). exact P.
  - split; [apply (read_items lines rows rev sb rest is c W H B); exact C | apply (X c C); exact P].
Qed.
End File.

(** *** short generator rows *)
Section Short.
Variable to_int : string -> option Z.
Variable to_float : string -> option R.
Lemma short_refused : forall lines rows rev sb rest is, written_file lines rows -> heading to_int to_float rows rev sb rest ->
  body to_int to_float rev (order rev) rest is -> In IShort is -> (exists id g, In (IGen id g) is) -> read_raw to_int to_float lines = Err TypeError.
Proof.
  intros lines rows rev sb rest is W H B S (id & g & I). pose proof (rows_read lines rows W) as E.
  pose proof (proj2 (read_rows_iff to_int to_float rows {| rf_rev := rev; rf_sbase := sb; rf_tables := put_items no_tables is |} (rows_trimmed _ _ E))
    (ex_intro _ rest (ex_intro _ is (conj H (conj B eq_refl))))) as F.
  unfold read_raw. rewrite E. cbn [pbind]. rewrite F. cbn [pbind]. unfold case_of. cbn [rf_tables].
  destruct (tables_of is no_tables) as (_ & _ & _ & E4 & _). rewrite E4. cbn [no_tables rt_gens].
  destruct (get_gens (puts (option raw_gen) (gen_entries is) [])) as [gs|e] eqn:G.
  - exfalso. apply get_gens_iff in G as [G _]. exact (nil_items is (G S) id g I).
  - cbn [pbind]. unfold get_gens, guard in G. destruct (negb _); [discriminate|]. cbn in G. congruence.
Qed.
Lemma filter_flat : forall A (f : item -> list A) is, f IShort = [] -> flat_map f (filter (fun i => match i with IShort => false | _ => true end) is) = flat_map f is.
Proof. intros A f is H. induction is as [|i is IH]; [reflexivity|]. destruct i; cbn; rewrite ?IH, ?H; reflexivity. Qed.
Lemma short_dropped : forall lines rows rev sb rest is, written_file lines rows -> heading to_int to_float rows rev sb rest ->
  body to_int to_float rev (order rev) rest is -> (forall id g, ~ In (IGen id g) is) ->
  forall c, read_raw to_int to_float lines = Ok c <-> case_from rev sb (filter (fun i => match i with IShort => false | _ => true end) is) c.
Proof.
  intros lines rows rev sb rest is W H B N c. rewrite (read_items to_int to_float lines rows rev sb rest is c W H B). unfold case_from.
  unfold bus_items, load_items, fs_items, gen_items, branch_items, x2_items, x3_items, ss_items. rewrite !filter_flat by reflexivity.
  assert (Z : flat_map (fun i => match i with IGen id x => [([KI (g_bus x); KS id], x)] | _ => [] end) is = []).
  { clear - N. induction is as [|i is IH]; [reflexivity|]. cbn. rewrite IH by (intros id g K; exact (N id g (or_intror K))).
    destruct i; try reflexivity. exfalso. eapply N. left. reflexivity. }
  rewrite !Z. tauto.
Qed.
End Short.
