(** Distances by position, and impedances given directly. *)
From Coq Require Import Reals ZArith String Ascii List Bool Lia Lra Arith.
From Verif Require Import PyExc SpecComponents SpecUnbalanced Components UnbalancedLine GlmText LineImpedance ThreePhase GlmReader SpecReader ReaderBase SpecLineZ KronProofs CarsonProofs SpacingProofs.
Import ListNotations.
Local Open Scope string_scope.
Set Implicit Arguments.

Lemma places_unique : forall E o l l', places E o l -> places E o l' -> l = l'.
Proof.
  intros E o l l' (f & F & ->) (g & G & ->). apply filter_ext_in. intros p I. specialize (F p I). specialize (G p I).
  destruct (f p), (g p); try reflexivity; intuition congruence.
Qed.
Lemma spots_nodup : NoDup spots.
Proof. repeat constructor; cbn; intuition discriminate. Qed.
Lemma places_nodup : forall E o l, places E o l -> NoDup l.
Proof. intros E o l (f & _ & ->). apply NoDup_filter, spots_nodup. Qed.
Lemma nodup_nth : forall (l : list string) i j p q, NoDup l -> nth_error l i = Some p -> nth_error l j = Some q -> i <> j -> p <> q.
Proof.
  intros l i j p q ND Hi Hj N Q. subst q. apply N. apply (proj1 (NoDup_nth_error l) ND); [| congruence]. apply nth_error_Some. congruence.
Qed.
(** the i-th and the j-th wire get the distance between the i-th and the j-th place *)
Lemma spacing_positions : forall E o phases o' d ws l, overhead_spacing E o phases = Ok (o', d) -> places E o l ->
  NoDup (map w_phase ws) -> incl (map w_phase ws) line_phases ->
  (forall w r g, In w ws -> w_res w = Some r -> w_gmr w = Some g -> (0 < g)%R) ->
  List.length ws <= List.length l ->
  (forall i j p q, i < List.length ws -> j < List.length ws -> i <> j -> nth_error l i = Some p -> nth_error l j = Some q ->
     exists x, gap E o p q x /\ (0 < x)%R) ->
  exists D, wired ws (strip_dist d) D /\
    forall i j p q, i < List.length ws -> j < List.length ws -> i <> j -> nth_error l i = Some p -> nth_error l j = Some q -> gap E o p q (D i j).
Proof.
  intros E o phases o' d ws l H P ND In Da Le G. destruct (spacing_ok _ _ _ H) as (l' & P' & T). rewrite <- (places_unique P P') in T. clear l' P'.
  pose proof (places_nodup P) as NDl. destruct T as [T1 T2].
  assert (X : forall i j, i < List.length ws -> j < List.length ws -> i <> j -> exists row, nth_error (strip_dist d) i = Some row /\
    nth_error row j = Some (nth j (nth i (strip_dist d) []) 0%R) /\ (0 < nth j (nth i (strip_dist d) []) 0)%R /\
    forall p q, nth_error l i = Some p -> nth_error l j = Some q -> gap E o p q (nth j (nth i (strip_dist d) []) 0%R)).
  { intros i j Hi Hj N. destruct (nth_error l i) as [p |] eqn:Np; [| apply nth_error_None in Np; lia].
    destruct (nth_error l j) as [q |] eqn:Nq; [| apply nth_error_None in Nq; lia].
    destruct (T2 i p Np) as (row & R1 & R2 & R3). destruct (R3 j q Nq) as (x & X1 & _ & X2 & _).
    destruct (G i j p q Hi Hj N Np Nq) as (y & Y1 & Y2). rewrite (X2 y (@nodup_nth l i j p q NDl Np Nq N) Y1) in X1.
    exists row. rewrite (nth_error_nth _ _ [] R1), (nth_error_nth _ _ 0%R X1). split; [exact R1 |]. split; [exact X1 |]. split; [exact Y2 |].
    intros p' q' E1 E2. injection E1 as <-. injection E2 as <-. exact Y1. }
  exists (fun i j => nth j (nth i (strip_dist d) []) 0%R). split.
  - split; [exact ND |]. split; [exact In |]. split; [exact Da |]. intros i j Hi Hj N. destruct (X i j Hi Hj N) as (row & X1 & X2 & X3 & _). eauto.
  - intros i j p q Hi Hj N Np Nq. destruct (X i j Hi Hj N) as (_ & _ & _ & _ & X4). now apply X4.
Qed.
Lemma nodup_prefix : forall A (l m : list A), NoDup (l ++ m) -> NoDup l.
Proof.
  intros A l m. induction l as [| a l IH]; cbn; intros H; [constructor |]. inversion H; subst. constructor; [| now apply IH].
  intros I. apply H2. apply in_or_app. now left.
Qed.
(** a configuration whose conductors are the first places has the right distances *)
Lemma spacing_right : forall E o phases o' d ws m, overhead_spacing E o phases = Ok (o', d) -> places E o (map w_phase ws ++ m) ->
  incl (map w_phase ws) line_phases ->
  (forall w r g, In w ws -> w_res w = Some r -> w_gmr w = Some g -> (0 < g)%R) ->
  (forall v w, In v ws -> In w ws -> w_phase v <> w_phase w -> exists x, gap E o (w_phase v) (w_phase w) x /\ (0 < x)%R) ->
  exists D, wired ws (strip_dist d) D /\
    forall i j v w, nth_error ws i = Some v -> nth_error ws j = Some w -> i <> j -> gap E o (w_phase v) (w_phase w) (D i j).
Proof.
  intros E o phases o' d ws m H P In Da G. pose proof (places_nodup P) as NDl.
  assert (At : forall i w, nth_error ws i = Some w -> nth_error (map w_phase ws ++ m)%list i = Some (w_phase w)).
  { intros i w Hw. rewrite nth_error_app1; [now apply map_nth_error |]. rewrite map_length. apply nth_error_Some. congruence. }
  destruct (@spacing_positions E o phases o' d ws _ H P) as (D & W & GD); try assumption.
  - now apply nodup_prefix in NDl.
  - rewrite app_length, map_length. lia.
  - intros i j p q Hi Hj N Np Nq. destruct (nth_error ws i) as [v |] eqn:Hv; [| apply nth_error_None in Hv; lia].
    destruct (nth_error ws j) as [w |] eqn:Hw; [| apply nth_error_None in Hw; lia].
    rewrite (At _ _ Hv) in Np. rewrite (At _ _ Hw) in Nq. injection Np as <-. injection Nq as <-.
    apply G; [eapply nth_error_In; eauto | eapply nth_error_In; eauto |]. eapply nodup_nth; [exact NDl | apply At; eauto | apply At; eauto | exact N].
  - exists D. split; [exact W |]. intros i j v w Hv Hw N. apply GD; try (apply nth_error_Some; congruence); [exact N | now apply At | now apply At].
Qed.

(** *** impedances given directly *)
Lemma no_underscore : forall E pre o, (forall e, In e direct_lookup -> forall k, pre ++ fst e <> "_" ++ k) -> load_direct E pre o = Ok None.
Proof.
  intros E pre o N. unfold load_direct. assert (X : forall l, incl l direct_lookup -> mfold (direct_step E pre o) l None = Ok None).
  { induction l as [| e l IH]; intros I; [reflexivity |]. cbn [mfold]. unfold direct_step at 1.
    assert (Z : py_hasattr o (pre ++ fst e) = false).
    { unfold py_hasattr. rewrite <- not_true_iff_false. intros X. apply existsb_exists in X. destruct X as (kv & _ & X). apply String.eqb_eq in X.
      exact (N e (I e (or_introl eq_refl)) _ X). }
    rewrite Z. cbn [negb pbind]. apply IH. intros x Ix. apply I. now right. }
  apply X, incl_refl.
Qed.
Lemma direct_never : forall E pre o, pre = "z" \/ pre = "c" -> load_direct E pre o = Ok None.
Proof. intros E pre o [-> | ->]; apply no_underscore; intros e _ k; discriminate. Qed.
