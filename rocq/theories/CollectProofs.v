(** The collections built from segments satisfy the stamper's preconditions, and the assembled system is
    the linearisation of the network equations. *)
From Coq Require Import ZArith Reals List String Bool Arith Lia Lra Permutation.
From Verif Require Import Expr Segment SpecSegment ExprProofs SegmentProofs Stamper SpecStamper StamperProofs Collect SpecSystem.
Import ListNotations.
Local Open Scope R_scope.

(** ** sums *)
Fixpoint rsum {A} (f : A -> R) (l : list A) : R := match l with [] => 0 | x :: r => f x + rsum f r end.

Lemma rsum_app : forall {A} (f : A -> R) a b, rsum f (a ++ b) = rsum f a + rsum f b.
Proof. induction a; simpl; intros; [ring|]. rewrite IHa. ring. Qed.
Lemma rsum_perm : forall {A} (f : A -> R) a b, Permutation a b -> rsum f a = rsum f b.
Proof. intros A f a b H. induction H; simpl; try lra. Qed.
Lemma rsum_map : forall {A B} (g : A -> B) (f : B -> R) l, rsum f (map g l) = rsum (fun x => f (g x)) l.
Proof. induction l; simpl; auto. now rewrite IHl. Qed.
Lemma rsum_flat_map : forall {A B} (g : A -> list B) (f : B -> R) l, rsum f (flat_map g l) = rsum (fun x => rsum f (g x)) l.
Proof. induction l; simpl; auto. now rewrite rsum_app, IHl. Qed.
Lemma rsum_ext : forall {A} (f g : A -> R) l, (forall x, In x l -> f x = g x) -> rsum f l = rsum g l.
Proof. induction l; simpl; intros H; auto. rewrite H, IHl; auto. Qed.
Lemma rsum_filter2 : forall {A} (p : A -> bool) (f : A -> R) l,
  rsum f (filter p l) + rsum f (filter (fun x => negb (p x)) l) = rsum f l.
Proof. induction l; simpl; [ring|]. destruct (p a); simpl; lra. Qed.
Lemma rsum_zero : forall {A} (f : A -> R) l, (forall x, In x l -> f x = 0) -> rsum f l = 0.
Proof. induction l; simpl; intros H; auto. rewrite H, IHl by auto. ring. Qed.
Lemma rsum_plus : forall {A} (f g : A -> R) l, rsum (fun x => f x + g x) l = rsum f l + rsum g l.
Proof. induction l; simpl; [ring|]. rewrite IHl. ring. Qed.
Lemma rsum_minus : forall {A} (f g : A -> R) l, rsum (fun x => f x - g x) l = rsum f l - rsum g l.
Proof. induction l; simpl; [ring|]. rewrite IHl. ring. Qed.
Lemma rsum_scal : forall {A} (f : A -> R) k l, rsum (fun x => k * f x) l = k * rsum f l.
Proof. induction l; simpl; [ring|]. rewrite IHl. ring. Qed.
Lemma rsum_one : forall {A} (f : A -> R) l x, NoDup l -> In x l -> (forall y, In y l -> y <> x -> f y = 0) -> rsum f l = f x.
Proof.
  induction l as [|a l IH]; simpl; intros x Hn Hx H0; [contradiction|].
  inversion Hn; subst. destruct Hx as [->|Hx].
  - rewrite rsum_zero; [ring|]. intros y Hy. apply H0; auto. intros ->. contradiction.
  - rewrite (IH x); auto. rewrite H0; auto; [ring|]. intros ->. contradiction.
Qed.

Definition evYrow (v : nat -> R) (r : nat) (ev : @event R) : R :=
  match ev with EvY r' c x => if Nat.eqb r' r then x * v c else 0 | EvJ _ _ => 0 end.
Definition evJ (r : nat) (ev : @event R) : R :=
  match ev with EvJ r' x => if Nat.eqb r' r then x else 0 | EvY _ _ _ => 0 end.
Definition evY (r c : nat) (ev : @event R) : R :=
  match ev with EvY r' c' x => if Nat.eqb r' r && Nat.eqb c' c then x else 0 | EvJ _ _ => 0 end.

Lemma Yrow_rsum : forall l v r, Yrow l v r = rsum (evYrow v r) l.
Proof. induction l as [|[r' c x|r' x] l IH]; simpl; intros; auto; rewrite IH; ring. Qed.
Lemma Jentry_rsum : forall l r, Jentry l r = rsum (evJ r) l.
Proof. induction l as [|[r' c x|r' x] l IH]; simpl; intros; auto; rewrite IH; ring. Qed.
Lemma Yentry_rsum : forall l r c, Yentry l r c = rsum (evY r c) l.
Proof. induction l as [|[r' c' x|r' x] l IH]; simpl; intros; auto; rewrite IH; ring. Qed.
Lemma Rrow_rsum : forall {M} (l : list (M * nat * R)) r, Rrow l r = rsum (fun x => if Nat.eqb (snd (fst x)) r then snd x else 0) l.
Proof. induction l as [|a l IH]; simpl; intros; auto. now rewrite IH. Qed.

(** ** boolean equalities *)
Lemma list_eqb_eq : forall {A} (eqb : A -> A -> bool), (forall a b, eqb a b = true <-> a = b) ->
  forall a b, list_eqb eqb a b = true <-> a = b.
Proof.
  intros A eqb H. induction a as [|x a IH]; destruct b as [|y b]; simpl; try (split; intros; congruence).
  rewrite andb_true_iff, H, IH. split; [intros [-> ->]; auto|]. intros E; injection E; auto.
Qed.
Lemma opt_eqb_eq : forall {A} (eqb : A -> A -> bool), (forall a b, eqb a b = true <-> a = b) ->
  forall a b, opt_eqb eqb a b = true <-> a = b.
Proof.
  intros A eqb H. destruct a as [x|], b as [y|]; simpl; try (split; intros; congruence).
  rewrite H. split; congruence.
Qed.
Lemma Reqb_eq : forall a b, Reqb a b = true <-> a = b.
Proof. intros. unfold Reqb. destruct (Req_EM_T a b); split; intros; congruence. Qed.
Lemma seg_eqb_eq : forall a b, seg_eqb a b = true <-> a = b.
Proof.
  intros [l1 c1 p1 d1] [l2 c2 p2 d2]. unfold seg_eqb. simpl.
  rewrite !andb_true_iff, expr_eqb_eq, !(list_eqb_eq String.eqb String.eqb_eq).
  split; [intros [[[-> ->] ->] ->]; auto|]. intros E; injection E; auto.
Qed.
Lemma skey_eqb_eq : forall a b, skey_eqb a b = true <-> a = b.
Proof.
  intros [[[[s1 x1] y1] l1] t1] [[[[s2 x2] y2] l2] t2]. unfold skey_eqb.
  rewrite !andb_true_iff, seg_eqb_eq, String.eqb_eq, (opt_eqb_eq String.eqb String.eqb_eq),
    (opt_eqb_eq Nat.eqb Nat.eqb_eq), Bool.eqb_true_iff.
  split; [intros [[[[-> ->] ->] ->] ->]; auto|]. intros E; injection E; auto.
Qed.
Lemma rkey_eqb_eq : forall a b, rkey_eqb a b = true <-> a = b.
Proof.
  intros [s1 x1] [s2 x2]. unfold rkey_eqb. simpl. rewrite andb_true_iff, seg_eqb_eq, String.eqb_eq.
  split; [intros [-> ->]; auto|]. intros E; injection E; auto.
Qed.
Lemma pkey_eqb_eq : forall a b, pkey_eqb a b = true <-> a = b.
Proof. apply (list_eqb_eq String.eqb String.eqb_eq). Qed.
Lemma input_eqb_sound : forall a b, input_eqb a b = true -> a = b.
Proof.
  intros [c1 p1 d1] [c2 p2 d2]. unfold input_eqb. simpl.
  rewrite !andb_true_iff, (list_eqb_eq Reqb Reqb_eq), !(list_eqb_eq _ (opt_eqb_eq Nat.eqb Nat.eqb_eq)).
  intros [[-> ->] ->]. auto.
Qed.

(** ** names and positions *)
Lemma index_of_In : forall x l, (exists n, index_of x l = Some n) <-> In x l.
Proof.
  induction l as [|y l IH]; simpl.
  - split; [intros [n H]; discriminate|intros []].
  - destruct (String.eqb_spec x y).
    + subst. split; eauto.
    + split.
      * intros [n0 H]. destruct (index_of x l) as [m|]; [|discriminate]. right. apply IH. eauto.
      * intros [->|H]; [congruence|]. apply IH in H as [m ->]. eauto.
Qed.
Lemma index_of_None : forall x l, index_of x l = None <-> ~ In x l.
Proof.
  intros. rewrite <- index_of_In. destruct (index_of x l); split; intros; try congruence.
  - exfalso. apply H. eauto.
  - intros [n H']. discriminate.
Qed.
Lemma index_of_lt : forall x l n, index_of x l = Some n -> (n < List.length l)%nat.
Proof.
  induction l as [|y l IH]; simpl; intros n H; [discriminate|].
  destruct (String.eqb x y); [injection H as <-; lia|].
  destruct (index_of x l); [|discriminate]. injection H as <-. specialize (IH _ eq_refl). lia.
Qed.
Lemma index_of_nth : forall x l n, index_of x l = Some n -> nth_error l n = Some x.
Proof.
  induction l as [|y l IH]; simpl; intros n H; [discriminate|].
  destruct (String.eqb_spec x y); [injection H as <-; subst; auto|].
  destruct (index_of x l); [|discriminate]. injection H as <-. simpl. auto.
Qed.
Lemma index_of_app : forall x a b, index_of x (a ++ b) =
  match index_of x a with
  | Some n => Some n
  | None => match index_of x b with Some n => Some (List.length a + n)%nat | None => None end
  end.
Proof.
  induction a as [|y a IH]; simpl; intros.
  - destruct (index_of x b); auto.
  - destruct (String.eqb x y); auto. rewrite IH. destruct (index_of x a); auto. destruct (index_of x b); auto.
Qed.

Lemma arg_env_app : forall A B a b s, List.length A = List.length a ->
  arg_env (A ++ B) (a ++ b) s = match index_of s A with Some _ => arg_env A a s | None => arg_env B b s end.
Proof.
  intros. unfold arg_env. rewrite index_of_app. destruct (index_of s A) as [n|] eqn:E.
  - apply app_nth1. rewrite <- H. eapply index_of_lt; eauto.
  - destruct (index_of s B) as [n|]; auto. rewrite app_nth2 by lia. f_equal. lia.
Qed.

Lemma arg_env_map : forall l s (f : option nat -> R) g is, all_some (map g l) = Some is -> In s l ->
  exists i, g s = Some i /\ arg_env l (map f is) s = f i.
Proof.
  induction l as [|x l IH]; simpl; intros s f g is H Hs; [contradiction|].
  destruct (g x) as [i|] eqn:Eg; [|discriminate].
  destruct (all_some (map g l)) as [is'|] eqn:E; [|discriminate]. injection H as <-.
  unfold arg_env. simpl. destruct (String.eqb_spec s x).
  - subst. eauto.
  - destruct Hs as [->|Hs]; [congruence|]. destruct (IH s f g is' E Hs) as [j [Ej A]].
    exists j. split; auto. unfold arg_env in A. destruct (index_of s l); auto.
Qed.

Lemma all_some_length : forall {A} (l : list (option A)) l', all_some l = Some l' -> List.length l' = List.length l.
Proof.
  induction l as [|[a|] l IH]; simpl; intros l' H; try discriminate.
  - injection H as <-. auto.
  - destruct (all_some l) as [m|]; [|discriminate]. injection H as <-. simpl. now rewrite (IH m).
Qed.

Lemma nth_put_tx : forall (l : list R) n x m, (n < List.length l)%nat ->
  nth m (put_tx l n x) 0 = if Nat.eqb m n then x else nth m l 0.
Proof.
  induction l as [|y l IH]; simpl; intros n x m H; [lia|].
  destruct n; simpl; destruct m; simpl; auto. rewrite IH by lia. reflexivity.
Qed.

(** ** one element *)
Section Elem.
Variable nan : R.
Variable opt : bool.
Variable d : details.
Variable cv : list R.
Hypothesis ok : element_ok opt (d, cv).
Variable ps ds : list (option nat).
Hypothesis Eps : all_some (map (col_index d) (sg_primals (sd_seg d))) = Some ps.
Hypothesis Eds : all_some (map (col_index d) (sg_duals (sd_seg d))) = Some ds.

Let i : @input R := {| in_consts := cv; in_primals := ps; in_duals := ds |}.
Let s := sd_seg d.
Definition the_args (pt : @point R) : list R := element_args 0 nan opt (sg_tx_index s) pt i.
Definition the_env (pt : @point R) : env := arg_env (sg_parameters s) (the_args pt).

Lemma input_ok_i : input_ok (List.length (sg_parameters s)) (sg_tx_index s) i.
Proof.
  split.
  - unfold input_len, i, sg_parameters, sg_variables. simpl. rewrite !app_length.
    rewrite (all_some_length _ _ Eps), (all_some_length _ _ Eds), !map_length.
    pose proof (eo_consts _ _ ok). simpl in *. fold s in H. unfold s in *. lia.
  - unfold sg_tx_index. destruct (index_of tx_factor (sg_constants s)) eqn:E; auto. simpl.
    pose proof (eo_consts _ _ ok). simpl in H. fold s in H. rewrite H. eapply index_of_lt; eauto.
Qed.

Lemma consts_length : forall pt, List.length (sg_constants s) = List.length (const_values (sg_tx_index s) pt (in_consts i)).
Proof.
  intros. rewrite const_values_length. symmetry. apply (eo_consts _ _ ok).
Qed.

Lemma the_env_split : forall pt x, the_env pt x =
  match index_of x (sg_constants s) with
  | Some _ => arg_env (sg_constants s) (const_values (sg_tx_index s) pt cv) x
  | None => match index_of x (sg_primals s) with
            | Some _ => arg_env (sg_primals s) (map (var_value 0 pt) ps) x
            | None => arg_env (sg_duals s) (map (dual_value 0 nan opt pt) ds) x
            end
  end.
Proof.
  intros. unfold the_env, the_args, element_args, sg_parameters, sg_variables.
  rewrite arg_env_app by apply consts_length. simpl in_consts. simpl in_primals. simpl in_duals.
  destruct (index_of x (sg_constants s)); auto.
  rewrite arg_env_app; auto. rewrite map_length, (all_some_length _ _ Eps), map_length. reflexivity.
Qed.

Lemma const_part : forall v tx x n, index_of x (sg_constants s) = Some n ->
  arg_env (sg_constants s) (const_values (sg_tx_index s) {| pt_v := v; pt_tx := Some tx |} cv) x
  = if String.eqb x tx_factor then tx else nth n cv 0.
Proof.
  intros v tx x n E. unfold arg_env. rewrite E. unfold const_values, sg_tx_index. simpl.
  destruct (index_of tx_factor (sg_constants s)) as [m|] eqn:Et.
  - rewrite nth_put_tx.
    + destruct (Nat.eqb_spec n m).
      * subst. apply index_of_nth in E, Et. replace x with tx_factor by congruence. now rewrite String.eqb_refl.
      * destruct (String.eqb_spec x tx_factor); auto. subst. congruence.
    + pose proof (eo_consts _ _ ok). simpl in H. rewrite H. eapply index_of_lt; eauto.
  - destruct (String.eqb_spec x tx_factor); auto. subst. congruence.
Qed.

Lemma the_env_sym_val : forall v tx x, In x (sg_parameters s) ->
  the_env {| pt_v := v; pt_tx := Some tx |} x = sym_val (d, cv) v tx x.
Proof.
  intros v tx x Hx. rewrite the_env_split. unfold sym_val. simpl. fold s.
  destruct (index_of x (sg_constants s)) as [n|] eqn:E.
  - now apply const_part.
  - unfold sg_parameters, sg_variables in Hx. rewrite !in_app_iff in Hx. apply index_of_None in E.
    destruct (index_of x (sg_primals s)) as [m|] eqn:Ep.
    + assert (Hp : In x (sg_primals s)) by (apply index_of_In; eauto).
      destruct (arg_env_map _ x (var_value 0 {| pt_v := v; pt_tx := Some tx |}) _ _ Eps Hp) as [j [Ej A]].
      fold s in A. rewrite A. unfold col_index in Ej. rewrite Ej. destruct j; reflexivity.
    + apply index_of_None in Ep. assert (Hd : In x (sg_duals s)) by tauto.
      destruct (arg_env_map _ x (dual_value 0 nan opt {| pt_v := v; pt_tx := Some tx |}) _ _ Eds Hd) as [j [Ej A]].
      fold s in A. rewrite A. unfold col_index in Ej. rewrite Ej. destruct j as [j|]; auto. simpl.
      destruct opt eqn:Eo; auto.
      pose proof (eo_duals _ _ ok eq_refl x Hd) as Hn. simpl in Hn. rewrite Ej in Hn. discriminate.
Qed.

(** constants do not depend on the unknowns *)
Lemma the_env_nonvar : forall v v' tx x, ~ In x (sg_variables s) ->
  the_env {| pt_v := v; pt_tx := tx |} x = the_env {| pt_v := v'; pt_tx := tx |} x.
Proof.
  intros v v' tx x H. rewrite !the_env_split. unfold sg_variables in H. rewrite in_app_iff in H.
  destruct (index_of x (sg_constants s)) as [n|] eqn:E; auto.
  destruct (index_of x (sg_primals s)) eqn:Ep.
  - exfalso. apply H. left. apply index_of_In. eauto.
  - unfold arg_env. destruct (index_of x (sg_duals s)) eqn:Ed; auto.
    exfalso. apply H. right. apply index_of_In. eauto.
Qed.

Lemma NoDup_app_r : forall {A} (a b : list A), NoDup (a ++ b) -> NoDup b.
Proof. induction a; simpl; intros b H; auto. inversion H; subst. auto. Qed.
Lemma NoDup_app_disj : forall {A} (a b : list A) x, NoDup (a ++ b) -> In x a -> ~ In x b.
Proof.
  induction a; simpl; intros b x H Hx Hb; [contradiction|]. inversion H; subst. destruct Hx as [->|Hx].
  - apply H2. apply in_or_app. auto.
  - eapply IHa; eauto.
Qed.

Lemma vars_nodup : NoDup (sg_variables s).
Proof. pose proof (eo_params _ _ ok) as H. simpl in H. unfold sg_parameters in H. eapply NoDup_app_r; eauto. Qed.

Lemma var_value_of : forall v tx y, In y (sg_variables s) ->
  the_env {| pt_v := v; pt_tx := Some tx |} y = match lookup (sd_var d) y with Some (Some n) => v n | _ => 0 end.
Proof.
  intros v tx y Hy. rewrite the_env_sym_val by (apply in_or_app; auto).
  unfold sym_val. simpl. destruct (index_of y (sg_constants (sd_seg d))) eqn:E; auto.
  exfalso. pose proof (eo_params _ _ ok) as H. simpl in H. unfold sg_parameters in H.
  eapply NoDup_app_disj; [exact H| |exact Hy]. apply index_of_In. eauto.
Qed.

(** the value a stamped entry takes *)
Lemma stamp_sum : forall (f : @event R -> R) (g : sym -> evaluation -> R) pt l ss,
  build_stamps d i l = Some ss ->
  (forall x ev, In (x, ev) l ->
     g x ev = match row_index d x with
              | Some (Some r) =>
                  match ev_yth ev with
                  | None => f (EvJ r (den (ev_expr ev) (the_env pt)))
                  | Some y => match col_index d y with
                              | Some (Some c) => f (EvY r c (den (ev_expr ev) (the_env pt)))
                              | _ => 0
                              end
                  end
              | _ => 0
              end) ->
  rsum f (map (stamp_event 0 nan opt pt) ss) = rsum (fun xe => g (fst xe) (snd xe)) l.
Proof.
  intros f g pt. induction l as [|[x ev] l IH]; simpl; intros ss H Hg.
  - injection H as <-. reflexivity.
  - rewrite (Hg x ev) by auto.
    assert (Hl : forall ss', build_stamps d i l = Some ss' ->
       rsum f (map (stamp_event 0 nan opt pt) ss') = rsum (fun xe => g (fst xe) (snd xe)) l).
    { intros ss' E. apply IH; auto. }
    destruct (row_index d x) as [[r|]|]; try discriminate.
    + destruct (ev_yth ev) as [y|] eqn:Ey.
      * destruct (col_index d y) as [[c|]|]; try discriminate.
        { destruct (build_stamps d i l) as [ss'|]; [|discriminate]. injection H as <-. simpl.
          rewrite Hl by auto. f_equal. unfold stamp_event. simpl. rewrite Ey. reflexivity. }
        { rewrite Hl by auto. ring. }
      * destruct (build_stamps d i l) as [ss'|]; [|discriminate]. injection H as <-. simpl.
        rewrite Hl by auto. f_equal. unfold stamp_event. simpl. rewrite Ey. reflexivity.
    + rewrite Hl by auto. ring.
Qed.

Lemma rsum_exprs : forall (g : sym -> evaluation -> R),
  rsum (fun xe => g (fst xe) (snd xe)) (stamp_exprs d)
  = rsum (fun x => rsum (g x) (dv_evals (gen_derivative s x))) (first_orders d).
Proof.
  intros. unfold stamp_exprs. rewrite rsum_flat_map. apply rsum_ext. intros x _. rewrite rsum_map. reflexivity.
Qed.

Lemma Ysum_rsum : forall evs rho, Ysum evs rho =
  rsum (fun ev => match ev_yth ev with Some x => den (ev_expr ev) rho * rho x | None => 0 end) evs.
Proof. induction evs; simpl; intros; auto. now rewrite IHevs. Qed.
Lemma Jsum_rsum : forall evs rho, Jsum evs rho =
  rsum (fun ev => match ev_yth ev with Some _ => 0 | None => den (ev_expr ev) rho end) evs.
Proof. induction evs; simpl; intros; auto. now rewrite IHevs. Qed.
Lemma Ycoef_rsum : forall evs x rho, Ycoef evs x rho =
  rsum (fun ev => match ev_yth ev with Some y => if String.eqb y x then den (ev_expr ev) rho else 0 | None => 0 end) evs.
Proof. induction evs; simpl; intros; auto. now rewrite IHevs. Qed.

Lemma in_stamp_exprs : forall x ev, In (x, ev) (stamp_exprs d) -> In x (first_orders d) /\ In ev (dv_evals (gen_derivative s x)).
Proof.
  intros x ev H. unfold stamp_exprs in H. apply in_flat_map in H as [x' [Hx H]].
  apply in_map_iff in H as [ev' [E H]]. injection E as -> ->. auto.
Qed.

Definition at_row (x : sym) (r : nat) : bool :=
  match row_index d x with Some (Some r') => Nat.eqb r' r | _ => false end.

Lemma elem_Yrow : forall v tx r ss, build_stamps d i (stamp_exprs d) = Some ss ->
  let pt := {| pt_v := v; pt_tx := Some tx |} in
  rsum (evYrow v r) (map (stamp_event 0 nan opt pt) ss)
  = rsum (fun x => if at_row x r then Ysum (dv_evals (gen_derivative s x)) (the_env pt) else 0) (first_orders d).
Proof.
  intros v tx r ss H pt.
  pose (g := (fun (x : sym) (ev : evaluation) => if at_row x r then match ev_yth ev with Some y => den (ev_expr ev) (the_env pt) * the_env pt y | None => 0 end else 0)).
  rewrite (stamp_sum (evYrow v r) g pt (stamp_exprs d) ss H).
  - rewrite rsum_exprs. apply rsum_ext. intros x _. unfold g. destruct (at_row x r).
    + now rewrite Ysum_rsum.
    + now apply rsum_zero.
  - intros x ev Hin. apply in_stamp_exprs in Hin as [_ Hin]. unfold g, at_row.
    destruct (row_index d x) as [[r'|]|]; auto. simpl. destruct (ev_yth ev) as [y|] eqn:Ey.
    + assert (Hy : In y (sg_variables s)) by (eapply evals_unknowns; eauto).
      unfold pt. rewrite (var_value_of v tx y Hy). unfold col_index.
      destruct (lookup (sd_var d) y) as [[c|]|]; destruct (Nat.eqb r' r); try ring; auto.
    + destruct (Nat.eqb r' r); auto.
Qed.

Lemma elem_J : forall v tx r ss, build_stamps d i (stamp_exprs d) = Some ss ->
  let pt := {| pt_v := v; pt_tx := Some tx |} in
  rsum (evJ r) (map (stamp_event 0 nan opt pt) ss)
  = rsum (fun x => if at_row x r then Jsum (dv_evals (gen_derivative s x)) (the_env pt) else 0) (first_orders d).
Proof.
  intros v tx r ss H pt.
  pose (g := (fun (x : sym) (ev : evaluation) => if at_row x r then match ev_yth ev with Some y => 0 | None => den (ev_expr ev) (the_env pt) end else 0)).
  rewrite (stamp_sum (evJ r) g pt (stamp_exprs d) ss H).
  - rewrite rsum_exprs. apply rsum_ext. intros x _. unfold g. destruct (at_row x r).
    + now rewrite Jsum_rsum.
    + now apply rsum_zero.
  - intros x ev Hin. unfold g, at_row.
    destruct (row_index d x) as [[r'|]|]; auto. simpl. destruct (ev_yth ev) as [y|] eqn:Ey.
    + destruct (Nat.eqb r' r); destruct (col_index d y) as [[c|]|]; auto.
    + destruct (Nat.eqb r' r); auto.
Qed.

Definition is_col (y : sym) (c : nat) : bool :=
  match col_index d y with Some (Some c') => Nat.eqb c' c | _ => false end.

Lemma elem_Y : forall v tx r c ss, build_stamps d i (stamp_exprs d) = Some ss ->
  let pt := {| pt_v := v; pt_tx := Some tx |} in
  rsum (evY r c) (map (stamp_event 0 nan opt pt) ss)
  = rsum (fun x => if at_row x r then
        rsum (fun y => if is_col y c then Ycoef (dv_evals (gen_derivative s x)) y (the_env pt) else 0) (sg_variables s) else 0)
      (first_orders d).
Proof.
  intros v tx r c ss H pt.
  pose (g := (fun (x : sym) (ev : evaluation) => if at_row x r then match ev_yth ev with Some y => if is_col y c then den (ev_expr ev) (the_env pt) else 0 | None => 0 end else 0)).
  rewrite (stamp_sum (evY r c) g pt (stamp_exprs d) ss H).
  - rewrite rsum_exprs. apply rsum_ext. intros x _. unfold g. destruct (at_row x r); [|now apply rsum_zero].
    assert (E : forall evs, (forall ev y, In ev evs -> ev_yth ev = Some y -> In y (sg_variables s)) ->
      rsum (fun ev => match ev_yth ev with Some y => if is_col y c then den (ev_expr ev) (the_env pt) else 0 | None => 0 end) evs
      = rsum (fun y => if is_col y c then Ycoef evs y (the_env pt) else 0) (sg_variables s)).
    { induction evs as [|ev evs IH]; intros Hv.
      - simpl. symmetry. apply rsum_zero. intros y _. now destruct (is_col y c).
      - simpl. rewrite IH by (intros; eapply Hv; [right|]; eauto).
        rewrite (rsum_ext (fun y => if is_col y c then match ev_yth ev with Some y0 => if String.eqb y0 y then den (ev_expr ev) (the_env pt) else 0 | None => 0 end + Ycoef evs y (the_env pt) else 0)
          (fun y => (if is_col y c then match ev_yth ev with Some y0 => if String.eqb y0 y then den (ev_expr ev) (the_env pt) else 0 | None => 0 end else 0)
             + (if is_col y c then Ycoef evs y (the_env pt) else 0)))
          by (intros; destruct (is_col x0 c); ring).
        rewrite rsum_plus. f_equal. destruct (ev_yth ev) as [y0|] eqn:Ey.
        + rewrite (rsum_one _ _ y0 vars_nodup).
          * now rewrite String.eqb_refl.
          * eapply Hv; [left; reflexivity|auto].
          * intros y _ Hne. destruct (is_col y c); auto. destruct (String.eqb_spec y0 y); congruence.
        + symmetry. apply rsum_zero. intros y _. now destruct (is_col y c). }
    apply E. intros ev y Hin Ey. eapply evals_unknowns; eauto.
  - intros x ev Hin. unfold g, at_row, is_col.
    destruct (row_index d x) as [[r'|]|]; auto. simpl. destruct (ev_yth ev) as [y|] eqn:Ey.
    + destruct (col_index d y) as [[c'|]|]; destruct (Nat.eqb r' r); simpl; auto.
    + destruct (Nat.eqb r' r); auto.
Qed.

Lemma elem_row_rsum : forall v tx r, elem_row (d, cv) v tx r =
  rsum (fun x => if at_row x r then den (diff (sg_lagrange s) x) (sym_val (d, cv) v tx) else 0) (first_orders d).
Proof.
  intros. unfold elem_row. simpl. induction (first_orders d) as [|x l IH]; simpl; auto.
  rewrite IH. destruct (at_row x r) eqn:E; unfold at_row in E; destruct (row_index d x) as [[r'|]|]; try discriminate.
  - rewrite E. reflexivity.
  - rewrite E. ring.
  - ring.
  - ring.
Qed.

Lemma elem_resid : forall v tx r l rs, build_resids d i l = Some rs ->
  let pt := {| pt_v := v; pt_tx := Some tx |} in
  rsum (fun q => if Nat.eqb (r_row q) r then r_eval q (element_args 0 nan opt (r_tx q) pt (r_in q)) else 0) rs
  = rsum (fun x => if at_row x r then den (diff (sg_lagrange s) x) (sym_val (d, cv) v tx) else 0) l.
Proof.
  intros v tx r. induction l as [|x l IH]; simpl; intros rs H.
  - injection H as <-. reflexivity.
  - assert (Ea : at_row x r = match row_index d x with Some (Some r') => Nat.eqb r' r | _ => false end) by reflexivity.
    rewrite Ea. destruct (row_index d x) as [[r'|]|] eqn:Er; try discriminate.
    + destruct (build_resids d i l) as [rs'|]; [|discriminate]. injection H as <-. simpl.
      rewrite (IH rs' eq_refl). f_equal. destruct (Nat.eqb r' r); auto.
      fold s. rewrite dv_expr_gen. apply den_ext. intros y Hy.
      apply the_env_sym_val. apply (eo_closed _ _ ok). simpl. eapply fsyms_diff; eauto.
    + rewrite (IH rs H). ring.
Qed.

Lemma wd_env : forall v tx, defined_at (d, cv) v tx -> wd (sg_lagrange s) (the_env {| pt_v := v; pt_tx := Some tx |}).
Proof.
  intros v tx H. unfold defined_at in H. simpl in H. fold s in H.
  assert (Hx : forall e r1 r2, (forall y, In y (fsyms e) -> r1 y = r2 y) -> wd e r1 -> wd e r2).
  { induction e; simpl; intros r1 r2 He Hw; auto.
    - destruct Hw. split; [apply (IHe1 r1 r2)|apply (IHe2 r1 r2)]; auto; intros; apply He, in_or_app; auto.
    - destruct Hw. split; [apply (IHe1 r1 r2)|apply (IHe2 r1 r2)]; auto; intros; apply He, in_or_app; auto.
    - destruct Hw as [Hw Hn]. split; [apply (IHe r1 r2); auto|]. intros Hlt. rewrite <- (den_ext e r1 r2 He). auto.
    - apply (IHe r1 r2); auto.
    - apply (IHe r1 r2); auto. }
  eapply Hx; [|exact H]. intros y Hy. symmetry. apply the_env_sym_val. apply (eo_closed _ _ ok). exact Hy.
Qed.

Lemma elem_linearised : forall v tx r ss, build_stamps d i (stamp_exprs d) = Some ss -> defined_at (d, cv) v tx ->
  let evs := map (stamp_event 0 nan opt {| pt_v := v; pt_tx := Some tx |}) ss in
  rsum (evYrow v r) evs - rsum (evJ r) evs = elem_row (d, cv) v tx r.
Proof.
  intros v tx r ss H Hd evs. unfold evs. rewrite (elem_Yrow v tx r ss H), (elem_J v tx r ss H), elem_row_rsum.
  rewrite <- rsum_minus. apply rsum_ext. intros x _. destruct (at_row x r); [|ring].
  rewrite (linearisation_identity s x _ vars_nodup (wd_env v tx Hd)).
  - rewrite dv_expr_gen. apply den_ext. intros y Hy. apply the_env_sym_val.
    apply (eo_closed _ _ ok). simpl. eapply fsyms_diff; eauto.
  - apply (eo_trig _ _ ok).
Qed.

End Elem.

(** ** Derivatives along a line *)
Lemma derivable_affine : forall a d t0, derivable_pt_lim (fun t => a + (t - t0) * d) t0 d.
Proof.
  intros a d t0 eps He. exists (mkposreal 1 Rlt_0_1). intros h Hh _.
  replace ((a + (t0 + h - t0) * d - (a + (t0 - t0) * d)) / h - d) with 0 by (field; auto).
  now rewrite Rabs_R0.
Qed.

Lemma den_line : forall e rho dlt t0, wd e rho ->
  derivable_pt_lim (fun t => den e (fun x => rho x + (t - t0) * dlt x)) t0 (snd (dden e rho dlt)).
Proof.
  intros e rho dlt t0.
  assert (Hid : forall e, den e (fun x => rho x + (t0 - t0) * dlt x) = den e rho).
  { intros e0. apply den_ext. intros. ring. }
  induction e; intros H; simpl.
  - apply (derivable_pt_lim_const (IZR z)).
  - apply derivable_affine.
  - destruct H. now apply derivable_pt_lim_plus; [apply IHe1|apply IHe2].
  - destruct H as [H1 H2].
    assert (L := derivable_pt_lim_mult _ _ _ _ _ (IHe1 H1) (IHe2 H2)).
    cbv beta in L. rewrite !Hid in L. rewrite !dden_fst. exact L.
  - destruct H as [H1 H2].
    assert (L := derivable_pt_lim_comp (fun t => den e (fun x => rho x + (t - t0) * dlt x)) (fun y => powerRZ y n) t0 _
       (IZR n * powerRZ (den e rho) (n - 1)) (IHe H1)). cbv beta in L; rewrite Hid in L.
    rewrite dden_fst. apply L. apply dlim_powerRZ.
    destruct (Z_lt_ge_dec n 0); [left; auto|right; lia].
  - assert (L := derivable_pt_lim_comp (fun t => den e (fun x => rho x + (t - t0) * dlt x)) sin t0 _ _
       (IHe H) (derivable_pt_lim_sin _)). cbv beta in L; rewrite Hid in L. rewrite dden_fst. exact L.
  - assert (L := derivable_pt_lim_comp (fun t => den e (fun x => rho x + (t - t0) * dlt x)) cos t0 _ _
       (IHe H) (derivable_pt_lim_cos _)). cbv beta in L; rewrite Hid in L. rewrite dden_fst. exact L.
Qed.

(** the derivative in a direction is the combination of the partial derivatives *)
Lemma dden_combination : forall e rho dlt vars, NoDup vars -> (forall x, In x (fsyms e) -> dlt x <> 0 -> In x vars) ->
  snd (dden e rho dlt) = rsum (fun y => dlt y * den (diff e y) rho) vars.
Proof.
  intros e rho dlt vars Hnd Hv.
  assert (G : forall a, (forall x, In x (fsyms a) -> dlt x <> 0 -> In x vars) ->
     snd (dden a rho dlt) = rsum (fun y => dlt y * snd (dden a rho (dir y))) vars).
  { induction a; intros Ha; simpl.
    - symmetry. apply rsum_zero. intros. ring.
    - destruct (Req_dec (dlt s) 0) as [E|E].
      + rewrite E. symmetry. apply rsum_zero. intros y _. unfold dir. destruct (String.eqb_spec s y); [subst; rewrite E|]; ring.
      + rewrite (rsum_one _ _ s Hnd).
        * unfold dir. rewrite String.eqb_refl. ring.
        * apply Ha; simpl; auto.
        * intros y _ Hne. unfold dir. destruct (String.eqb_spec s y); [congruence|ring].
    - rewrite IHa1, IHa2 by (intros; apply Ha; auto; apply in_or_app; auto).
      rewrite <- rsum_plus. apply rsum_ext. intros. ring.
    - rewrite IHa1, IHa2 by (intros; apply Ha; auto; apply in_or_app; auto).
      rewrite !dden_fst.
      transitivity (rsum (fun y => den a2 rho * (dlt y * snd (dden a1 rho (dir y))) + den a1 rho * (dlt y * snd (dden a2 rho (dir y)))) vars);
        [rewrite rsum_plus, ?rsum_scal; ring | apply rsum_ext; intros; rewrite ?dden_fst; ring].
    - rewrite IHa by auto. rewrite ?dden_fst.
      transitivity (rsum (fun y => (IZR n * powerRZ (den a rho) (n - 1)) * (dlt y * snd (dden a rho (dir y)))) vars);
        [rewrite ?rsum_scal; ring | apply rsum_ext; intros; rewrite ?dden_fst; ring].
    - rewrite IHa by auto. rewrite ?dden_fst.
      transitivity (rsum (fun y => cos (den a rho) * (dlt y * snd (dden a rho (dir y)))) vars);
        [rewrite ?rsum_scal; ring | apply rsum_ext; intros; rewrite ?dden_fst; ring].
    - rewrite IHa by auto. rewrite ?dden_fst.
      transitivity (rsum (fun y => - sin (den a rho) * (dlt y * snd (dden a rho (dir y)))) vars);
        [rewrite ?rsum_scal; ring | apply rsum_ext; intros; rewrite ?dden_fst; ring]. }
  rewrite G by auto. apply rsum_ext. intros y _. now rewrite dden_snd.
Qed.

Lemma Ycoef_value : forall s x y rho, NoDup (sg_variables s) -> wd (sg_lagrange s) rho -> In y (sg_variables s) ->
  Ycoef (dv_evals (gen_derivative s x)) y rho = den (diff (diff (sg_lagrange s) x) y) rho.
Proof.
  intros s x y rho Hnd Hw Hy. unfold gen_derivative.
  assert (S := split_expr_coef rho (sg_variables s) (diff (sg_lagrange s) x) Hnd (wd_diff _ _ x Hw) y Hy).
  destruct (split_expr (diff (sg_lagrange s) x) (sg_variables s)) as [c d]. simpl in *.
  destruct (mk_evals_ok c d (sg_variables s) rho) as [_ [_ E3]]. now rewrite E3, S.
Qed.

Lemma derivable_rsum : forall {A} (f : R -> A -> R) (g : A -> R) l t0,
  (forall x, In x l -> derivable_pt_lim (fun t => f t x) t0 (g x)) ->
  derivable_pt_lim (fun t => rsum (f t) l) t0 (rsum g l).
Proof.
  induction l as [|x l IH]; intros t0 H; simpl.
  - apply (derivable_pt_lim_const 0).
  - apply (derivable_pt_lim_plus (fun t => f t x) (fun t => rsum (f t) l)); [apply H; now left|].
    apply IH. intros; apply H; now right.
Qed.

Lemma derivable_ext : forall f g t0 l, (forall t, f t = g t) -> derivable_pt_lim f t0 l -> derivable_pt_lim g t0 l.
Proof.
  intros f g t0 l H D eps He. destruct (D eps He) as [dl Hd]. exists dl. intros h H1 H2.
  rewrite <- !H. auto.
Qed.


Section ElemJac.
Variable nan : R.
Variable opt : bool.
Variable d : details.
Variable cv : list R.
Hypothesis ok : element_ok opt (d, cv).
Variable ps ds : list (option nat).
Hypothesis Eps : all_some (map (col_index d) (sg_primals (sd_seg d))) = Some ps.
Hypothesis Eds : all_some (map (col_index d) (sg_duals (sd_seg d))) = Some ds.
Let i : @input R := {| in_consts := cv; in_primals := ps; in_duals := ds |}.
Let s := sd_seg d.

Lemma elem_jacobian : forall v tx r c ss, build_stamps d i (stamp_exprs d) = Some ss -> defined_at (d, cv) v tx ->
  derivable_pt_lim (fun t => elem_row (d, cv) (set_v v c t) tx r) (v c)
    (rsum (evY r c) (map (stamp_event 0 nan opt {| pt_v := v; pt_tx := Some tx |}) ss)).
Proof.
  intros v tx r c ss Hs Hd.
  rewrite (elem_Y nan opt d cv ok ps ds v tx r c ss Hs).
  apply derivable_ext with (f := fun t => rsum (fun x => if at_row d x r then den (diff (sg_lagrange s) x) (sym_val (d, cv) (set_v v c t) tx) else 0) (first_orders d)).
  { intros t. symmetry. apply elem_row_rsum. }
  apply derivable_rsum. intros x _. destruct (at_row d x r); [|apply (derivable_pt_lim_const 0)].
  set (dlt := fun y : sym => match index_of y (sg_constants s) with Some _ => 0 | None => if is_col d y c then 1 else 0 end).
  apply derivable_ext with (f := fun t => den (diff (sg_lagrange s) x) (fun y => sym_val (d, cv) v tx y + (t - v c) * dlt y)).
  { intros t. apply den_ext. intros y _. unfold sym_val, dlt. simpl. fold s.
    destruct (index_of y (sg_constants s)); [ring|]. unfold is_col, col_index.
    destruct (lookup (sd_var d) y) as [[n|]|]; try ring. unfold set_v. destruct (Nat.eqb_spec n c); [subst|]; ring. }
  assert (Hw : wd (sg_lagrange s) (sym_val (d, cv) v tx)) by exact Hd.
  assert (Hnd : NoDup (sg_variables s)) by (apply (vars_nodup opt d cv ok)).
  assert (Hcl : forall y, In y (fsyms (diff (sg_lagrange s) x)) -> In y (sg_parameters s)).
  { intros y Hy. apply (eo_closed _ _ ok). simpl. eapply fsyms_diff; eauto. }
  replace (rsum _ (sg_variables (sd_seg d))) with (snd (dden (diff (sg_lagrange s) x) (sym_val (d, cv) v tx) dlt)).
  { apply den_line. now apply wd_diff. }
  rewrite (dden_combination _ _ _ (sg_variables s) Hnd).
  - fold s. apply rsum_ext. intros y Hy. unfold dlt.
    destruct (index_of y (sg_constants s)) eqn:E.
    { exfalso. pose proof (eo_params _ _ ok) as H. simpl in H. unfold sg_parameters in H. fold s in H.
      eapply NoDup_app_disj; [exact H| |exact Hy]. apply index_of_In. eauto. }
    destruct (is_col d y c); [|ring].
    unfold s. rewrite (Ycoef_value (sd_seg d) x y _ Hnd).
    + rewrite Rmult_1_l. apply den_ext. intros z Hz. symmetry.
      apply (the_env_sym_val nan opt d cv ok ps ds Eps Eds). apply Hcl. eapply fsyms_diff; eauto.
    + apply (wd_env nan opt d cv ok ps ds Eps Eds v tx Hd).
    + exact Hy.
  - intros y Hy Hne. apply Hcl in Hy. unfold sg_parameters in Hy. apply in_app_or in Hy as [Hy|Hy]; auto.
    exfalso. apply Hne. unfold dlt. apply index_of_In in Hy as [n ->]. reflexivity.
Qed.
End ElemJac.
