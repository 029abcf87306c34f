(** Nominal voltages of nodes after the loop of Reader.parse. *)
From Coq Require Import Reals ZArith String Ascii List Bool Lia Lra Arith Permutation.
From Verif Require GlmProofs.
From Verif Require Import PyExc SpecComponents SpecUnbalanced Components UnbalancedLine GlmText SpecGlm GlmBase LineImpedance ThreePhase GlmReader SpecReader ReaderBase ReaderLoadProofs ReaderFrame ReaderStore ReaderFile ReaderFrame2 ReaderVisit SpecLineZ SpecReader2 LineFile ReaderTurns OverheadFile SpecReader3 XfmrFile RegFile.
Import ListNotations.
Local Open Scope string_scope.
Set Implicit Arguments.

Definition nnames (ms : list dmodel) : list string := flat_map (fun m => match m with MNode n => [dn_name n] | _ => [] end) ms.
Lemma nnames_app : forall a b, nnames (a ++ b)%list = (nnames a ++ nnames b)%list.
Proof. intros a b. unfold nnames. apply flat_map_app. Qed.
Lemma nnames_in : forall ms n, In (MNode n) ms -> In (dn_name n) (nnames ms).
Proof. intros ms n I. apply in_flat_map. exists (MNode n). split; [exact I | now left]. Qed.
Lemma set_vnom_names : forall par v ms, nnames (set_vnom par v ms) = nnames ms.
Proof.
  intros par v ms. induction ms as [| m ms IH]; [reflexivity |].
  destruct m as [n | | | | | | |]; cbn; try exact IH. destruct (negb (dn_source n) && String.eqb (dn_name n) par)%bool; cbn; [reflexivity | now apply f_equal].
Qed.
Lemma set_vnom_in : forall par v ms, NoDup (nnames ms) -> forall n', In (MNode n') (set_vnom par v ms) ->
  (In (MNode n') ms /\ (dn_source n' = true \/ dn_name n' <> par)) \/
  (dn_source n' = false /\ dn_name n' = par /\ dn_vnom n' = v /\ exists n, In (MNode n) ms /\ dn_name n = par /\ dn_source n = false).
Proof.
  intros par v ms. induction ms as [| m ms IH]; intros ND n' I; [destruct I |].
  assert (T : NoDup (nnames ms)) by (cbn in ND; destruct m as [n | | | | | | |]; cbn in ND; try exact ND; now inversion ND).
  assert (R : In (MNode n') (set_vnom par v ms) -> (In (MNode n') (m :: ms) /\ (dn_source n' = true \/ dn_name n' <> par)) \/
    (dn_source n' = false /\ dn_name n' = par /\ dn_vnom n' = v /\ exists n, In (MNode n) (m :: ms) /\ dn_name n = par /\ dn_source n = false)).
  { intros J. destruct (IH T n' J) as [[J1 J2] | (J1 & J2 & J3 & n & J4 & J5)]; [left; split; [now right | exact J2] | right]. split; [exact J1 |]. split; [exact J2 |]. split; [exact J3 |].
    exists n. split; [now right | exact J5]. }
  destruct m as [n | | | | | | |]; cbn in I; try (destruct I as [I | I]; [discriminate I | now apply R]).
  destruct (negb (dn_source n) && String.eqb (dn_name n) par)%bool eqn:Q.
  - apply andb_true_iff in Q. destruct Q as [Q1 Q2]. apply negb_true_iff in Q1. apply String.eqb_eq in Q2. destruct I as [I | I].
    + injection I as <-. right. cbn. split; [exact Q1 |]. split; [exact Q2 |]. split; [reflexivity |]. exists n. split; [now left | tauto].
    + left. split; [now right |]. right. intros Z. cbn in ND. inversion ND as [| ? ? N1 N2]. apply N1. rewrite Q2, <- Z. now apply nnames_in.
  - destruct I as [I | I]; [| now apply R]. injection I as <-. left. split; [now left |]. destruct (dn_source n); [now left | right]. cbn in Q. now apply String.eqb_neq in Q.
Qed.

Section Vnom.
Variables (E : prims) (sch : list (string * string)).
Definition own (o : gobj) (n : dnode) : Prop := opt_number E o "nominal_voltage" (dn_vnom n).
Definition node_class (o : gobj) : Prop := go_class o = "node" \/ go_class o = "meter".
Lemma load_nodes : forall name o ms, read_load E sch name o = Ok ms -> (nnames ms = [] \/ nnames ms = [name]) /\ forall n, In (MNode n) ms -> own o n.
Proof.
  intros name o ms H. unfold read_load in H. do 4 inv H. injection H as <-. apply fattr_opt in Hx. destruct (gattr o "parent").
  - split; [now left |]. intros n [Z | []]. discriminate Z.
  - split; [now right |]. intros n [Z | [Z | []]]; [discriminate Z |]. injection Z as <-. exact Hx.
Qed.
Lemma vturn : forall s name s' o, read_object E sch s name = Ok s' -> dget name (r_objs s) = Some o ->
  (node_class o /\ exists n, dn_name n = name /\ own o n /\
     r_store s' = match gattr o "parent" with Some par => set_vnom par (dn_vnom n) (r_store s ++ [MNode n])%list | None => (r_store s ++ [MNode n])%list end) \/
  (~ node_class o /\ exists ms, r_store s' = (r_store s ++ ms)%list /\ (nnames ms = [] \/ nnames ms = [name]) /\ forall n, In (MNode n) ms -> own o n).
Proof.
  intros s name s' o H D. unfold read_object in H. inv H. apply obj_at_dget in Hx. assert (x = o) as -> by congruence. clear Hx.
  assert (Q0 : forall ms, (forall n, ~ In (MNode n) ms) -> (nnames ms = [] \/ nnames ms = [name]) /\ forall n, In (MNode n) ms -> own o n).
  { intros ms N. split; [| intros n I; now destruct (N n)]. left. induction ms as [| m ms IH]; [reflexivity |]. destruct m as [n | | | | | | |]; cbn; try (apply IH; intros n I; apply (N n); now right).
    destruct (N n). now left. }
  destruct (GlmText.mem (go_class o) shared_config_objects) eqn:M.
  { injection H as <-. right. split; [intros [C | C]; rewrite C in M; discriminate M |]. exists []. rewrite app_nil_r. split; [reflexivity |]. now apply Q0. }
  cbv zeta in H. inv H. inv H.
  assert (NC : class_of o <> "node" -> class_of o <> "meter" -> ~ node_class o).
  { intros A B [C | C]; [apply A | apply B]; unfold class_of; rewrite C; reflexivity. }
  destruct (String.eqb_spec (class_of o) "node") as [C | n1]; [| destruct (String.eqb_spec (class_of o) "meter") as [C | n2]]; cbn [orb] in H.
  1, 2: apply class_other in C; [| discriminate]; destruct C as [C _]; left; (split; [unfold node_class; tauto |]); inv H; injection H as <-;
    unfold read_node in Hx1; apply check_ok in Hx1; destruct Hx1 as [_ Hx1]; do 4 inv Hx1; cbv zeta in Hx1; injection Hx1 as Hx1; cbn [with_store r_store]; match type of Hx1 with context [MNode ?n] => exists n end;
    (split; [| split; [| rewrite <- Hx1; reflexivity]]); [reflexivity | unfold own; cbn [dn_vnom]; now apply fattr_opt].
  right. split; [now apply NC |]. clear NC n1 n2.
  repeat match type of H with (if ?b then _ else _) = _ => destruct b end; try discriminate H.
  - inv H. injection H as <-. exists [x1]. split; [reflexivity |]. unfold read_triplex_meter in Hx1. apply check_ok in Hx1. destruct Hx1 as [_ Hx1]. do 3 inv Hx1. injection Hx1 as <-.
    split; [now right |]. intros n [Z | []]. injection Z as <-. unfold own. cbn [dn_vnom]. now apply fattr_opt.
  - apply xfmr_adds in H. destruct H as (z & _ & ->). exists [MXfmr z]. split; [reflexivity |]. apply Q0. intros n [Z | []]. discriminate Z.
  - inv H. injection H as <-. exists x1. split; [reflexivity |]. eapply load_nodes; eauto.
  - inv H. injection H as <-. exists [x1]. split; [reflexivity |]. apply Q0. unfold read_fuse in Hx1. inv Hx1. injection Hx1 as <-. intros n [Z | []]. discriminate Z.
  - injection H as <-. eexists. split; [reflexivity |]. apply Q0. intros n [Z | []]. discriminate Z.
  - apply overhead_adds in H; [| exact D]. destruct H as (z & _ & ->). exists [MLine z]. split; [reflexivity |]. apply Q0. intros n [Z | []]. discriminate Z.
  - apply triplex_adds in H; [| exact D]. destruct H as (z & _ & ->). exists [MLine z]. split; [reflexivity |]. apply Q0. intros n [Z | []]. discriminate Z.
  - apply underground_adds in H; [| exact D]. destruct H as (z & _ & ->). exists [MLine z]. split; [reflexivity |]. apply Q0. intros n [Z | []]. discriminate Z.
  - inv H. injection H as <-. exists [x1]. split; [reflexivity |]. apply Q0. unfold read_cap in Hx1. do 7 inv Hx1. injection Hx1 as <-. intros n [Z | []]. discriminate Z.
  - apply reg_adds in H. destruct H as (z & _ & ->). exists [MReg z]. split; [reflexivity |]. apply Q0. intros n [Z | []]. discriminate Z.
Qed.

(** *** one more object *)
Lemma nth_snoc : forall A (l : list A) x j y, nth_error (l ++ [x]) j = Some y -> (j < List.length l)%nat /\ nth_error l j = Some y \/ j = List.length l /\ y = x.
Proof.
  intros A l x j y H. destruct (Nat.lt_ge_cases j (List.length l)) as [L | L]; [left; rewrite nth_error_app1 in H by exact L; auto |].
  rewrite nth_error_app2 in H by exact L. destruct (j - List.length l)%nat as [| m] eqn:Q; cbn in H; [right; injection H as <-; split; [lia | reflexivity] | destruct m; discriminate H].
Qed.
Lemma nth_snoc_l : forall A (l : list A) x j y, nth_error l j = Some y -> nth_error (l ++ [x]) j = Some y.
Proof. intros A l x j y H. rewrite nth_error_app1; [exact H |]. apply nth_error_Some. congruence. Qed.
Lemma nth_snoc_r : forall A (l : list A) x, nth_error (l ++ [x]) (List.length l) = Some x.
Proof. intros A l x. rewrite nth_error_app2 by lia. now rewrite Nat.sub_diag. Qed.
Lemma nth_lt : forall A (l : list A) j y, nth_error l j = Some y -> (j < List.length l)%nat.
Proof. intros A l j y H. apply nth_error_Some. congruence. Qed.
Lemma volt_old : forall pre name o i nm oi n, node_voltage E pre i nm oi n -> dn_source n = true \/ ~ child_of nm o -> node_voltage E (pre ++ [(name, o)])%list i nm oi n.
Proof.
  intros pre name o i nm oi n [A B] N. split; [exact A |]. intros S. destruct (B S) as [B1 B2]. destruct N as [N | N]; [congruence |]. split.
  - intros j nj oj L Hj C Lst. destruct (nth_snoc _ _ _ Hj) as [[Lj Hj'] | [_ Q]]; [| injection Q as -> ->; contradiction].
    apply (B1 j nj oj L Hj' C). intros k nk ok Lk Hk. apply (Lst k nk ok Lk). now apply nth_snoc_l.
  - intros K. apply B2. intros j nj oj L Hj. apply (K j nj oj L). now apply nth_snoc_l.
Qed.
Lemma volt_child : forall pre name o i nm oi n, (i < List.length pre)%nat -> dn_source n = false -> child_of nm o -> own o n -> node_voltage E (pre ++ [(name, o)])%list i nm oi n.
Proof.
  intros pre name o i nm oi n L S C O. split; [congruence |]. intros _. split.
  - intros j nj oj Lj Hj Cj Lst. destruct (nth_snoc _ _ _ Hj) as [[L2 _] | [_ Q]]; [| injection Q as -> ->; exact O].
    destruct (Lst _ _ _ L2 (nth_snoc_r pre (name, o)) C).
  - intros K. destruct (K _ _ _ L (nth_snoc_r pre (name, o)) C).
Qed.
Lemma volt_new : forall pre name o n, own o n -> node_voltage E (pre ++ [(name, o)])%list (List.length pre) name o n.
Proof.
  intros pre name o n O. split; [auto |]. intros _. split; [| auto]. intros j nj oj L Hj. apply nth_lt in Hj. rewrite app_length in Hj. cbn in Hj. lia.
Qed.
Definition volts_inv (pre : objects) (ms : list dmodel) : Prop :=
  NoDup (nnames ms) /\ forall n, In (MNode n) ms -> exists i o, nth_error pre i = Some (dn_name n, o) /\ node_voltage E pre i (dn_name n) o n.
Lemma inv_names : forall pre ms x, volts_inv pre ms -> In x (nnames ms) -> In x (map fst pre).
Proof.
  intros pre ms x [_ V] I. apply in_flat_map in I. destruct I as (m & Im & I). destruct m as [n | | | | | | |]; try destruct I as []. subst x. 2: contradiction.
  destruct (V n Im) as (i & o & H & _). apply nth_error_In in H. apply in_map_iff. exists (dn_name n, o). auto.
Qed.
Lemma inv_step : forall pre name o o1 s s', ~ In name (map fst pre) -> rwl o o1 -> dget name (r_objs s) = Some o1 -> volts_inv pre (r_store s) -> read_object E sch s name = Ok s' ->
  volts_inv (pre ++ [(name, o)])%list (r_store s').
Proof.
  intros pre name o o1 s s' NI R D V H. pose proof (@inv_names pre (r_store s)) as IN.
  assert (OW : forall n, own o1 n -> own o n).
  { intros n [[S Q] | (x & X & Q)]; [left; split; [apply (silent_back R); [key | exact S] | exact Q] | right; exists x; split; [apply (number_back R); [key | exact X] | exact Q]]. }
  assert (CL : go_class o1 = go_class o) by (destruct R as [C _]; congruence).
  assert (PA : gattr o1 "parent" = gattr o "parent") by (apply (rwl_plain R); key).
  assert (NEW : forall ms, (nnames ms = [] \/ nnames ms = [name]) -> NoDup (nnames (r_store s ++ ms)%list)).
  { intros ms [Q | Q]; rewrite nnames_app, Q; [rewrite app_nil_r; apply V |].
    assert (X : NoDup (name :: nnames (r_store s))) by (constructor; [intros I; apply NI; now apply IN | apply V]).
    eapply Permutation.Permutation_NoDup; [| exact X]. apply Permutation.Permutation_cons_append. }
  destruct (vturn _ _ H D) as [(NC & n0 & Q0 & O0 & ->) | (NC & ms & -> & NN & OO)].
  - assert (SING : nnames [MNode n0] = [name]) by (cbn; now rewrite Q0).
    pose proof (NEW [MNode n0] (or_intror SING)) as ND. apply OW in O0.
    assert (OLD : forall n, In (MNode n) (r_store s ++ [MNode n0])%list -> dn_source n = true \/ ~ child_of (dn_name n) o -> exists i o', nth_error (pre ++ [(name, o)])%list i = Some (dn_name n, o') /\ node_voltage E (pre ++ [(name, o)])%list i (dn_name n) o' n).
    { intros n I K. apply in_app_or in I. destruct I as [I | [I | []]].
      - destruct (proj2 V n I) as (i & o' & Hi & W). exists i, o'. split; [now apply nth_snoc_l | now apply volt_old].
      - injection I as <-. exists (List.length pre), o. rewrite Q0. split; [apply nth_snoc_r | now apply volt_new]. }
    destruct (gattr o1 "parent") as [par |] eqn:G.
    + split; [now rewrite set_vnom_names |]. intros n' I. destruct (set_vnom_in _ _ _ ND _ I) as [[J K] | (S & Qn & Qv & n & J & Qm & Sm)].
      * apply OLD; [exact J |]. destruct K as [K | K]; [now left | right]. intros [_ C]. apply gattr_says in C. congruence.
      * assert (CH : child_of par o). { split; [rewrite <- CL; exact NC | apply gattr_says; congruence]. }
        assert (O' : own o n') by (unfold own; rewrite Qv; exact O0).
        apply in_app_or in J. destruct J as [J | [J | []]].
        -- destruct (proj2 V n J) as (i & o' & Hi & W). exists i, o'. rewrite Qn. rewrite Qm in Hi. split; [now apply nth_snoc_l | apply volt_child; [eapply nth_lt; eauto | exact S | exact CH | exact O']].
        -- injection J as <-. exists (List.length pre), o. assert (Q : dn_name n' = name) by congruence. rewrite Q. split; [apply nth_snoc_r | now apply volt_new].
    + split; [exact ND |]. intros n I. apply OLD; [exact I |]. right. intros [_ C]. apply gattr_says in C. congruence.
  - split; [now apply NEW |]. intros n I. apply in_app_or in I. destruct I as [I | I].
    + destruct (proj2 V n I) as (i & o' & Hi & W). exists i, o'. split; [now apply nth_snoc_l | apply volt_old; [exact W |]]. right. intros [C _]. apply NC. unfold node_class. now rewrite CL.
    + assert (Q : dn_name n = name). { apply nnames_in in I. destruct NN as [NN | NN]; rewrite NN in I; [destruct I | destruct I as [I | []]; congruence]. }
      exists (List.length pre), o. rewrite Q. split; [apply nth_snoc_r | apply volt_new; now apply OW, OO].
Qed.
Lemma inv_loop : forall objs, NoDup (map fst objs) -> forall pre post s, objs = (pre ++ post)%list -> mfold (read_object E sch) (map fst pre) (start objs) = Ok s -> volts_inv pre (r_store s).
Proof.
  intros objs ND pre. pose proof (@nodup_dget objs ND) as DG. induction pre as [| [n o] pre IH] using rev_ind; intros post s EQ H.
  - injection H as <-. split; [constructor | intros n []].
  - rewrite map_app in H. cbn [map fst] in H. apply mfold_split in H. destruct H as (s1 & H1 & H2). cbn [mfold] in H2. inv H2. injection H2 as <-.
    rewrite <- app_assoc in EQ. cbn [List.app] in EQ.
    assert (Do : dget n objs = Some o) by (apply DG; rewrite EQ; apply in_or_app; right; now left).
    destruct (@loop_turns E sch _ _ _ H1 n o Do) as (o1 & D1 & R1 & _).
    eapply inv_step; [| exact R1 | exact D1 | exact (IH _ _ EQ H1) | exact Hx].
    rewrite EQ, map_app in ND. cbn [map fst] in ND. apply NoDup_remove_2 in ND. intros X. apply ND. apply in_or_app. now left.
Qed.
Lemma nodes_voltage : forall objs ms, NoDup (map fst objs) -> read_store E sch objs = Ok ms ->
  forall i name o n, nth_error objs i = Some (name, o) -> In (MNode n) ms -> dn_name n = name -> node_voltage E objs i name o n.
Proof.
  intros objs ms ND H i name o n Hi I Q. unfold read_store in H. inv H. injection H as <-.
  destruct (@inv_loop objs ND objs [] x (eq_sym (app_nil_r objs)) Hx) as [_ V]. destruct (V n I) as (j & o' & Hj & W). rewrite Q in *.
  assert (X : i = j). { apply (proj1 (NoDup_nth_error (map fst objs)) ND).
    - rewrite map_length. eapply nth_lt; eauto.
    - rewrite (map_nth_error fst _ _ Hi), (map_nth_error fst _ _ Hj). reflexivity. }
  subst j. assert (o' = o) as -> by congruence. exact W.
Qed.
End Vnom.
