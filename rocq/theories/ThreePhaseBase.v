(** Lemmas about names, the bus table and the frame of element creation. *)
From Coq Require Import Reals ZArith String Ascii List Bool Lia Arith.
From Verif Require Import PyExc Components Devices UnbalancedLine ThreePhase SpecThreePhase.
Import ListNotations.
Local Open Scope R_scope.

(** *** strings *)
Lemma sapp_assoc a b c : ((a ++ b) ++ c = a ++ (b ++ c))%string.
Proof. induction a as [|x a IH]; cbn; congruence. Qed.
Lemma sapp_nil a : (a ++ "" = a)%string.
Proof. induction a as [|x a IH]; cbn; congruence. Qed.
Lemma app_last_inj : forall a b c d, (a ++ String c "" = b ++ String d "")%string -> a = b /\ c = d.
Proof.
  induction a as [|x a IH]; intros [|y b] c d E; cbn in E.
  - injection E as ->. auto.
  - injection E as -> E. destruct b; discriminate.
  - injection E as -> E. destruct a; discriminate.
  - injection E as -> E. destruct (IH _ _ _ E) as [-> ->]. auto.
Qed.
Lemma sapp_inj_r : forall s a b, (a ++ s = b ++ s)%string -> a = b.
Proof.
  induction s as [|c s IH]; intros a b E; [rewrite !sapp_nil in E; exact E|].
  change (String c s) with (String c "" ++ s)%string in E. rewrite <- !sapp_assoc in E.
  apply IH, app_last_inj in E. tauto.
Qed.
Lemma key_inj a b p q : one_letter p -> one_letter q -> key a p = key b q -> a = b /\ p = q.
Proof.
  intros [c ->] [d ->] E. unfold key in E. rewrite <- !sapp_assoc in E.
  apply app_last_inj in E as [E ->]. split; [|reflexivity]. exact (sapp_inj_r _ _ _ E).
Qed.
Lemma known_letter p : known p -> one_letter p.
Proof. intros H. cbn in H. unfold one_letter. intuition subst; eexists; reflexivity. Qed.
Lemma known_angle p : known p <-> exists a, phase_angle p = Some a.
Proof.
  unfold known, phase_angle. cbn. split.
  - intuition (subst; cbn; eauto).
  - intros [a H].
    destruct (String.eqb_spec p "A"); [subst; auto|].
    destruct (String.eqb_spec p "B"); [subst; auto|].
    destruct (String.eqb_spec p "C"); [subst; auto|].
    destruct (String.eqb_spec p "1"); [subst; auto 6|].
    destruct (String.eqb_spec p "2"); [subst; auto 7|discriminate].
Qed.

(** *** the monad *)
Lemma bind_ok A B (m : pres A) (f : A -> pres B) b : pbind m f = Ok b -> exists a, m = Ok a /\ f a = Ok b.
Proof. destruct m; cbn; [eauto|discriminate]. Qed.
Lemma guard_ok b e u : guard b e = Ok u -> b = true.
Proof. destruct b; [reflexivity|discriminate]. Qed.
Lemma mfold_inv S X (f : S -> X -> pres S) (P : S -> Prop) l :
  (forall s x s', In x l -> P s -> f s x = Ok s' -> P s') -> forall s s', P s -> mfold f l s = Ok s' -> P s'.
Proof.
  induction l as [|x l IH]; intros H s s' HP E; cbn in E.
  - injection E as <-. exact HP.
  - apply bind_ok in E as (s1 & E1 & E2). refine (IH _ s1 s' _ E2).
    + intros. eapply H; eauto. now right.
    + eapply H; eauto. now left.
Qed.
Lemma mfold_app S X (f : S -> X -> pres S) l m s : mfold f (l ++ m) s = pbind (mfold f l s) (mfold f m).
Proof. revert s. induction l as [|x l IH]; intros s; cbn; [reflexivity|]. destruct (f s x); cbn; auto. Qed.
Lemma mfold_ext S X (f : S -> X -> pres S) (R : S -> S -> Prop) l :
  (forall s, R s s) -> (forall a b c, R a b -> R b c -> R a c) ->
  (forall s x s', In x l -> f s x = Ok s' -> R s s') -> forall s s', mfold f l s = Ok s' -> R s s'.
Proof.
  intros Rr Rt H s s' E.
  refine (mfold_inv _ _ f (fun t => R s t) l _ s s' (Rr s) E).
  intros a x b HI Ha Hf. exact (Rt _ _ _ Ha (H _ _ _ HI Hf)).
Qed.

Ltac okb H :=
  lazymatch type of H with
  | pbind _ _ = Ok _ => let a := fresh "a" in let E := fresh "E" in apply bind_ok in H as (a & E & H); okb H
  | _ => idtac
  end.

(** *** lookups *)
Lemma assoc_cons k k' v m : assoc k ((k', v) :: m) = if String.eqb k k' then Some v else assoc k m.
Proof. reflexivity. Qed.
Lemma lookup_ok n a p b : lookup n a p = Ok b <-> assoc (key a p) (nt_map n) = Some b.
Proof. unfold lookup. destruct (assoc _ _); split; intros H; congruence. Qed.
Lemma lookup_o_ok n a p b : lookup_o n a p = Ok b <-> exists s, a = Some s /\ lookup n s p = Ok b.
Proof. destruct a as [s|]; cbn; split; [eauto|intros (t & E & H); congruence|discriminate|intros (t & E & H); discriminate]. Qed.
Lemma assoc_in k m b : assoc k m = Some b -> In (k, b) m.
Proof.
  induction m as [|[k' v] m IH]; cbn; [discriminate|].
  destruct (String.eqb_spec k k') as [->|]; [injection 1 as ->; auto|auto].
Qed.

(** *** a well-formed table: bus numbers are positions and the map is closed *)
Definition wf (n : net) : Prop :=
  map tb_id (nt_buses n) = seq 0 (nt_next n) /\ Forall (fun e => (snd e < nt_next n)%nat) (nt_map n).
Lemma wf_length n : wf n -> List.length (nt_buses n) = nt_next n.
Proof. intros [H _]. rewrite <- (map_length tb_id), H, seq_length. reflexivity. Qed.
Lemma wf_lookup n a p b : wf n -> lookup n a p = Ok b -> (b < nt_next n)%nat.
Proof.
  intros [_ H] E. apply lookup_ok, assoc_in in E. rewrite Forall_forall in H. exact (H _ E).
Qed.
Lemma wf_lookup_o n a p b : wf n -> lookup_o n a p = Ok b -> (b < nt_next n)%nat.
Proof. intros W E. apply lookup_o_ok in E as (s & _ & E). exact (wf_lookup _ _ _ _ W E). Qed.
Lemma wf_nth n i b : wf n -> nth_error (nt_buses n) i = Some b -> tb_id b = i.
Proof.
  intros [H _] E. apply (map_nth_error tb_id) in E. rewrite H in E.
  assert (L : (i < nt_next n)%nat).
  { rewrite <- (seq_length (nt_next n) 0). apply nth_error_Some. congruence. }
  rewrite (nth_error_nth' _ 0%nat) in E by (rewrite seq_length; exact L).
  rewrite seq_nth in E by exact L. injection E as <-. reflexivity.
Qed.
Lemma wf_empty : wf empty_net.
Proof. split; constructor. Qed.
Lemma wf_create n vm va name p v : wf n -> wf (fst (create_bus n vm va name p v)).
Proof.
  intros [H1 H2]. split; cbn.
  - rewrite map_app, H1. cbn. change (0 :: seq 1 (nt_next n))%nat with (seq 0 (S (nt_next n))). rewrite seq_S. reflexivity.
  - constructor; cbn; [lia|]. eapply Forall_impl; [|exact H2]. cbn. lia.
Qed.
Lemma set_init_ids n i vr vi : map tb_id (nt_buses (set_init n i vr vi)) = map tb_id (nt_buses n).
Proof. cbn. rewrite map_map. apply map_ext. intros b. destruct (Nat.eqb _ _); reflexivity. Qed.
Lemma set_init_ident n i vr vi : map ident (nt_buses (set_init n i vr vi)) = map ident (nt_buses n).
Proof. cbn. rewrite map_map. apply map_ext. intros b. destruct (Nat.eqb _ _); reflexivity. Qed.
Lemma wf_set_init n i vr vi : wf n -> wf (set_init n i vr vi).
Proof. intros [H1 H2]. split; [rewrite set_init_ids; exact H1|exact H2]. Qed.
Lemma wf_set_map n k b : wf n -> (b < nt_next n)%nat -> wf (set_map n k b).
Proof. intros [H1 H2] L. split; [exact H1|]. constructor; auto. Qed.
Lemma wf_add_slack n s : wf n -> wf (add_slack n s).
Proof. intros H. exact H. Qed.
Lemma wf_add_elems n e : wf n -> wf (add_elems n e).
Proof. intros H. exact H. Qed.

(** *** what element creation leaves alone *)
Record ext (n n' : net) : Prop := {
  ext_next : (nt_next n <= nt_next n')%nat;
  ext_slack : nt_slack n' = nt_slack n;
  ext_buses : exists l, map ident (nt_buses n') = map ident (nt_buses n) ++ l /\ Forall (fun i => snd (fst i) = true) l;
  ext_map : forall name p, one_letter p -> ~ interior_name name -> assoc (key name p) (nt_map n') = assoc (key name p) (nt_map n) }.
Lemma ext_refl n : ext n n.
Proof. constructor; auto. exists []. rewrite app_nil_r. auto. Qed.
Lemma ext_trans a b c : ext a b -> ext b c -> ext a c.
Proof.
  intros [A1 A2 (l1 & A3 & A4) A5] [B1 B2 (l2 & B3 & B4) B5]. constructor.
  - lia.
  - congruence.
  - exists (l1 ++ l2). rewrite B3, A3, app_assoc. split; [reflexivity|]. apply Forall_app; auto.
  - intros. rewrite B5, A5; auto.
Qed.
Lemma ext_create n vm va name p : one_letter p -> interior_name name -> ext n (fst (create_bus n vm va name p true)).
Proof.
  intros Hp Hn. constructor; cbn.
  - lia.
  - reflexivity.
  - eexists. rewrite map_app. split; [reflexivity|]. constructor; [reflexivity|constructor].
  - intros a q Hq Ha. destruct (String.eqb_spec (key a q) (key name p)) as [E|]; [|reflexivity].
    apply key_inj in E as [-> _]; tauto.
Qed.
Lemma ext_set_init n i vr vi : ext n (set_init n i vr vi).
Proof. constructor; auto. exists []. rewrite app_nil_r, set_init_ident. auto. Qed.
Lemma ext_add n e : ext n (add_elems n e).
Proof. constructor; auto. exists []. rewrite app_nil_r. auto. Qed.
