(** From the records of a RAW file to the case. *)
From Coq Require Import Reals ZArith String Ascii List Bool Lia.
From Verif Require Import PyExc RawTransformers RawParser GlmText RawText SpecRawText RawKeyProofs RawFieldProofs RawLoopProofs RawBodyProofs RawCsvProofs.
Import ListNotations.
Local Open Scope string_scope.

(** what the generator section puts into its dictionary *)
Definition gen_entries (is : list item) : list (key * option raw_gen) :=
  flat_map (fun i => match i with IGen id x => [([KI (g_bus x); KS id], Some x)] | IShort => [([KNone; KS "1"], None)] | _ => [] end) is.
Lemma tables_of : forall is t, let t' := put_items t is in
  rt_buses t' = puts _ (bus_items is) (rt_buses t) /\ rt_loads t' = puts _ (load_items is) (rt_loads t) /\ rt_fs t' = puts _ (fs_items is) (rt_fs t) /\
  rt_gens t' = puts _ (gen_entries is) (rt_gens t) /\ rt_branches t' = puts _ (branch_items is) (rt_branches t) /\ rt_x2 t' = puts _ (x2_items is) (rt_x2 t) /\
  rt_x3 t' = puts _ (x3_items is) (rt_x3 t) /\ rt_ss t' = puts _ (ss_items is) (rt_ss t).
Proof.
  induction is as [|i is IH]; intros t; [repeat split|]. cbn zeta. change (put_items t (i :: is)) with (put_items (put_item t i) is).
  specialize (IH (put_item t i)). cbn zeta in IH. destruct i; exact IH.
Qed.
Lemma gen_entries_in : forall is k o, In (k, o) (gen_entries is) <->
  (exists id x, In (IGen id x) is /\ k = [KI (g_bus x); KS id] /\ o = Some x) \/ (In IShort is /\ k = [KNone; KS "1"] /\ o = None).
Proof.
  intros is k o. unfold gen_entries. rewrite in_flat_map. split.
  - intros (i & I & H). destruct i; cbn in H; try contradiction; destruct H as [H|[]]; injection H as <- <-; eauto 7.
  - intros [(id & x & I & -> & ->)|(I & -> & ->)]; eexists; (split; [exact I | left; reflexivity]).
Qed.
Lemma gen_items_in : forall is k g, In (k, g) (gen_items is) <-> exists id, In (IGen id g) is /\ k = [KI (g_bus g); KS id].
Proof.
  intros is k g. unfold gen_items. rewrite in_flat_map. split.
  - intros (i & I & H). destruct i; cbn in H; try contradiction; destruct H as [H|[]]; injection H as <- <-; eauto.
  - intros (id & I & ->); eexists; (split; [exact I | left; reflexivity]).
Qed.
Definition lift (e : key * raw_gen) : key * option raw_gen := (fst e, Some (snd e)).
Lemma no_short : forall is, ~ In IShort is -> gen_entries is = map lift (gen_items is).
Proof.
  induction is as [|i is IH]; intros H; [reflexivity|]. assert (E := IH (fun K => H (or_intror K))). unfold gen_entries, gen_items in *. cbn [flat_map].
  destruct i; cbn; rewrite ?E; try reflexivity. exfalso. apply H. left. reflexivity.
Qed.
Lemma put_lift : forall k x d, put k (Some x) (map lift d) = map lift (put k x d).
Proof. intros k x d. induction d as [|[k' v] d IH]; cbn; [reflexivity|]. destruct (key_eqb k k'); cbn; [reflexivity | rewrite IH; reflexivity]. Qed.
Lemma puts_lift : forall es d, puts _ (map lift es) (map lift d) = map lift (puts _ es d).
Proof. induction es as [|[k x] es IH]; intros d; cbn; [reflexivity|]. rewrite put_lift. apply IH. Qed.
Lemma insert_lift : forall e l, insert (lift e) (map lift l) = map lift (insert e l).
Proof. intros e l. induction l as [|f l IH]; cbn; [reflexivity|]. destruct (key_compare _ _); cbn; rewrite ?IH; reflexivity. Qed.
Lemma sort_lift : forall l, sort (map lift l) = map lift (sort l).
Proof. induction l as [|e l IH]; [reflexivity|]. change (insert (lift e) (sort (map lift l)) = map lift (insert e (sort l))). rewrite IH. apply insert_lift. Qed.
Lemma short_lift : forall l, existsb short_gen (map lift l) = false.
Proof. induction l; cbn; auto. Qed.
Lemma some_lift : forall l, flat_map (fun o : option raw_gen => match o with Some g => [g] | None => [] end) (map snd (map lift l)) = map snd l.
Proof. induction l as [|e l IH]; cbn; [reflexivity|]. f_equal. exact IH. Qed.
Lemma nil_items : forall is, gen_items is = [] -> forall id x, ~ In (IGen id x) is.
Proof.
  intros is H id x I. assert (K : In ([KI (g_bus x); KS id], x) (gen_items is)) by (apply gen_items_in; eauto). rewrite H in K. destruct K.
Qed.
Lemma short_only : forall is d, (forall id x, ~ In (IGen id x) is) -> d = [] \/ d = [([KNone; KS "1"], None)] ->
  puts _ (gen_entries is) d = [] \/ puts _ (gen_entries is) d = [([KNone; KS "1"], None)].
Proof.
  induction is as [|i is IH]; intros d N D; [exact D|].
  assert (N' : forall id x, ~ In (IGen id x) is) by (intros id x K; exact (N id x (or_intror K))).
  destruct i; try (exact (IH d N' D)).
  - exfalso. eapply N. left. reflexivity.
  - change (gen_entries (IShort :: is)) with (([KNone; KS "1"], None) :: gen_entries is). cbn [puts fold_left]. apply (IH _ N'). destruct D as [-> | ->]; right; reflexivity.
Qed.
Lemma get_gens_iff : forall is gs, get_gens (puts _ (gen_entries is) []) = Ok gs <->
  (In IShort is -> gen_items is = []) /\ gs = values (puts _ (gen_items is) []).
Proof.
  intros is gs. unfold get_gens.
  assert (DEC : In IShort is \/ ~ In IShort is).
  { induction is as [|i is IH]; [right; intros []|]. destruct IH as [IH|IH]; [left; right; exact IH|].
    destruct i; try (right; intros [K|K]; [discriminate | exact (IH K)]). left; left; reflexivity. }
  destruct DEC as [S|S].
  - destruct (gen_items is) as [|e l] eqn:EG.
    + match goal with |- context [puts _ (gen_entries is) ?n] => destruct (short_only is n (nil_items is EG) (or_introl eq_refl)) as [E|E] end; rewrite E; cbn; (split; [intros H; injection H as <-; auto | intros [_ ->]; reflexivity]).
    + split; [|intros [H _]; specialize (H S); discriminate]. intros H. exfalso.
      assert (X : existsb short_gen (puts _ (gen_entries is) []) = true).
      { apply existsb_exists. exists ([KNone; KS "1"], None). split; [|reflexivity]. apply puts_last.
        assert (K : In ([KNone; KS "1"], None) (gen_entries is)) by (apply gen_entries_in; auto).
        assert (U : forall o, In ([KNone; KS "1"], o) (gen_entries is) -> o = None).
        { intros o I. apply gen_entries_in in I as [(id & x & _ & E & _)|(_ & _ & E)]; [discriminate | exact E]. }
        clear - K U. induction (gen_entries is) as [|f fs IH]; [destruct K|].
        assert (DEC : In ([KNone; KS "1"], None) fs \/ forall y, ~ In ([KNone; KS "1"], y) fs).
        { clear - U. assert (U' : forall o, In ([KNone; KS "1"], o) fs -> o = None) by (intros o I; apply U; right; exact I). clear U.
          induction fs as [|g fs IH]; [right; intros y []|]. destruct IH as [IH|IH]; [intros o I; apply U'; right; exact I | left; right; exact IH|].
          destruct g as [k o]. destruct (key_eqb k [KNone; KS "1"]) eqn:E.
          - apply key_eqb_iff in E. subst k. left. left. rewrite (U' o (or_introl eq_refl)). reflexivity.
          - apply key_eqb_neq in E. right. intros y [I|I]; [congruence | exact (IH y I)]. }
        destruct DEC as [D|D].
        - destruct (IH D (fun o I => U o (or_intror I))) as (b & a & -> & Q). exists (f :: b), a. split; [reflexivity | exact Q].
        - destruct K as [->|K]; [|exfalso; exact (D _ K)]. exists [], fs. split; [reflexivity | exact D]. }
      rewrite X in H. cbn [andb negb] in H.
      assert (Y : exists k x, In (k, Some x) (puts _ (gen_entries is) [])).
      { destruct e as [k x]. assert (I : In (k, x) (gen_items is)) by (rewrite EG; left; reflexivity). apply gen_items_in in I as (id & I & ->).
        assert (K : In ([KI (g_bus x); KS id]) (keys _ (puts _ (gen_entries is) []))).
        { assert (KI' : In [KI (g_bus x); KS id] (map fst (gen_entries is))).
          { change ([KI (g_bus x); KS id]) with (fst ([KI (g_bus x); KS id], Some x)). apply in_map. apply gen_entries_in. left. eauto. }
          clear - KI'. assert (GEN : forall es d, In [KI (g_bus x); KS id] (map fst es) \/ In [KI (g_bus x); KS id] (keys _ d) -> In [KI (g_bus x); KS id] (keys _ (puts (option raw_gen) es d))).
          { induction es as [|f es IH]; intros d [H|H]; cbn in *; [destruct H | exact H | |].
            - apply IH. destruct H as [H|H]; [right; apply put_keys; left; symmetry; exact H | left; exact H].
            - apply IH. right. apply put_keys. right. exact H. }
          apply GEN. left. exact KI'. }
        apply in_map_iff in K as ([k o] & E & K). cbn in E. subst k. pose proof K as K2. apply puts_last in K2 as (b & a & EQ & _).
        assert (I2 : In ([KI (g_bus x); KS id], o) (gen_entries is)) by (rewrite EQ; apply in_or_app; right; left; reflexivity).
        apply gen_entries_in in I2 as [(id' & x' & _ & _ & ->)|(_ & E & _)]; [eauto | discriminate]. }
      destruct Y as (k & x & Y). apply existsb_exists in X as (f & X1 & X2).
      destruct (puts _ (gen_entries is) []) as [|a [|b m]]; [destruct Y | | discriminate].
      destruct Y as [->|[]]. destruct X1 as [<-|[]]. discriminate.
  - rewrite (no_short is S). change (@nil (key * option raw_gen)) with (map lift []). rewrite puts_lift, short_lift. cbn [andb negb guard pbind].
    unfold values. rewrite sort_lift, some_lift. split.
    + intros H. injection H as <-. split; [tauto | reflexivity].
    + intros [_ ->]. reflexivity.
Qed.
Lemma case_of_iff : forall rev sb is c,
  case_of {| rf_rev := rev; rf_sbase := sb; rf_tables := put_items no_tables is |} = Ok c <-> case_from rev sb is c.
Proof.
  intros rev sb is c. unfold case_of, case_from. cbn [rf_rev rf_sbase rf_tables].
  destruct (tables_of is no_tables) as (E1 & E2 & E3 & E4 & E5 & E6 & E7 & E8).
  rewrite E1, E2, E3, E4, E5, E6, E7, E8. cbn [no_tables rt_buses rt_loads rt_fs rt_gens rt_branches rt_x2 rt_x3 rt_ss]. split.
  - intros H. apply bind_ok in H as (gs & G & H). apply get_gens_iff in G as [G ->]. injection H as <-.
    cbn [rc_rev rc_sbase rc_buses rc_loads rc_fs rc_gens rc_branches rc_x2 rc_x3 rc_ss].
    do 2 (split; [reflexivity|]). split; [exact G|]. repeat split; apply collected_sort.
  - intros (<- & <- & G & C1 & C2 & C3 & C4 & C5 & C6 & C7 & C8).
    rewrite (proj2 (get_gens_iff is (values (puts _ (gen_items is) [])))) by auto. cbn [pbind].
    destruct c; cbn in *. f_equal. f_equal; eapply collected_unique; try eassumption; apply collected_sort.
Qed.

Section Reading.
Variable to_int : string -> option Z.
Variable to_float : string -> option R.
Notation heading := (heading to_int to_float).
Notation body := (body to_int to_float).
Lemma rows_case_iff : forall rows c, trimmed_rows rows ->
  ((do f <- read_rows to_int to_float rows; case_of f) = Ok c <->
   exists rev sb rest is, heading rows rev sb rest /\ body rev (order rev) rest is /\ case_from rev sb is c).
Proof.
  intros rows c T. split.
  - intros H. apply bind_ok in H as ([rev sb t] & F & H). apply (read_rows_iff to_int to_float rows _ T) in F as (rest & is & HH & HB & E).
    cbn [rf_rev rf_sbase rf_tables] in *. subst t. exists rev, sb, rest, is. split; [exact HH|]. split; [exact HB|]. apply case_of_iff. exact H.
  - intros (rev & sb & rest & is & HH & HB & HC).
    rewrite (proj2 (read_rows_iff to_int to_float rows {| rf_rev := rev; rf_sbase := sb; rf_tables := put_items no_tables is |} T)) by eauto.
    cbn [pbind]. apply case_of_iff. exact HC.
Qed.
Lemma read_raw_iff : forall lines rows c, written_file lines rows ->
  (read_raw to_int to_float lines = Ok c <->
   exists rev sb rest is, heading rows rev sb rest /\ body rev (order rev) rest is /\ case_from rev sb is c).
Proof.
  intros lines rows c W. pose proof (rows_read lines rows W) as E. unfold read_raw. rewrite E. cbn [pbind]. apply rows_case_iff. exact (rows_trimmed lines rows E).
Qed.
End Reading.
