(** Lemmas for C52, C53, C55, C67, C68. *)
From Coq Require Import String Ascii List Bool Arith ZArith Reals Lra Lia Psatz.
From Verif Require Import TimeSeries SpecTimeSeries.
Import ListNotations.
Local Open Scope R_scope.

(** ** magnitudes *)
Lemma sq_nonneg x y : 0 <= x * x + y * y. Proof. nra. Qed.
Lemma apparent_pos s : s <> (0, 0) -> 0 < apparent s.
Proof.
  destruct s as [x y]; unfold apparent; cbn [fst snd]; intros H. apply sqrt_lt_R0.
  destruct (Req_dec x 0) as [->|Hx]; [|nra]. destruct (Req_dec y 0) as [->|Hy]; [congruence|nra].
Qed.
Lemma apparent_sq s : apparent s * apparent s = fst s * fst s + snd s * snd s.
Proof. unfold apparent. apply sqrt_sqrt, sq_nonneg. Qed.
Lemma sqrt_ratio x y : x <> 0 -> sqrt (1 + (y / x)²) = apparent (x, y) / Rabs x.
Proof.
  intros Hx. unfold apparent; cbn [fst snd].
  replace (1 + (y / x)²) with ((x * x + y * y) / (Rabs x * Rabs x)).
  - rewrite sqrt_div_alt by (assert (Rabs x > 0) by (apply Rabs_pos_lt; auto); nra). f_equal. apply sqrt_square, Rabs_pos.
  - assert (Rabs x * Rabs x = x * x) as -> by (rewrite <- Rabs_mult; apply Rabs_right; nra). unfold Rsqr. field; auto.
Qed.
Lemma direction x y : (x, y) <> (0, 0) -> cos (atan2 y x) = x / apparent (x, y) /\ sin (atan2 y x) = y / apparent (x, y).
Proof.
  intros H. pose proof (apparent_pos _ H) as HA. unfold atan2.
  assert (x <> 0 -> sqrt (1 + (y / x)²) = apparent (x, y) / Rabs x) as HS by apply sqrt_ratio.
  destruct (Rlt_dec 0 x) as [Hx|Hx].
  - rewrite cos_atan, sin_atan, HS by lra. rewrite Rabs_right by lra. split; field; split; lra.
  - destruct (Rlt_dec x 0) as [Hx'|Hx'].
    + assert (forall e, e = PI \/ e = - PI -> cos (atan (y / x) + e) = x / apparent (x, y) /\ sin (atan (y / x) + e) = y / apparent (x, y)) as X.
      { intros e He. assert (cos e = -1 /\ sin e = 0) as [E1 E2] by (destruct He; subst; rewrite ?cos_neg, ?sin_neg, cos_PI, sin_PI; lra).
        rewrite cos_plus, sin_plus, E1, E2, cos_atan, sin_atan, HS by lra. rewrite Rabs_left by lra. split; field; split; lra. }
      destruct (Rle_dec 0 y); apply X; auto.
    + assert (x = 0) as -> by lra. assert (apparent (0, y) = Rabs y) as EA.
      { unfold apparent; cbn [fst snd]. replace (0 * 0 + y * y) with (y²) by (unfold Rsqr; ring). apply sqrt_Rsqr_abs. }
      destruct (Rlt_dec 0 y) as [Hy|Hy]; [rewrite cos_PI2, sin_PI2, EA, Rabs_right by lra; split; field; lra|].
      destruct (Rlt_dec y 0) as [Hy'|Hy']; [|exfalso; apply H; f_equal; lra]. rewrite cos_neg, sin_neg, cos_PI2, sin_PI2, EA, Rabs_left by lra. split; field; lra.
Qed.
Lemma apply_scale s m : s <> (0, 0) -> apply_magnitude s m = times (m / apparent s) s.
Proof.
  intros H. pose proof (apparent_pos s H). destruct s as [x y]. destruct (direction x y H) as [E1 E2]. unfold apply_magnitude, times; cbn [fst snd].
  rewrite E1, E2. f_equal; field; lra.
Qed.
Lemma apply_zero m : apply_magnitude (0, 0) m = (m, 0).
Proof.
  unfold apply_magnitude, atan2; cbn [fst snd]. destruct (Rlt_dec 0 0); [lra|]. destruct (Rlt_dec 0 0); [lra|]. rewrite cos_0, sin_0. f_equal; ring.
Qed.
Lemma apparent_times k s : apparent (times k s) = Rabs k * apparent s.
Proof.
  unfold apparent, times; cbn [fst snd]. replace (k * fst s * (k * fst s) + k * snd s * (k * snd s)) with (k² * (fst s * fst s + snd s * snd s)) by (unfold Rsqr; ring).
  rewrite sqrt_mult_alt by apply Rle_0_sqr. f_equal. apply sqrt_Rsqr_abs.
Qed.
Lemma times_nonzero k s : k <> 0 -> s <> (0, 0) -> times k s <> (0, 0).
Proof.
  intros Hk H E. apply H. destruct s as [x y]; unfold times in E; cbn [fst snd] in E. injection E as E1 E2.
  apply Rmult_integral in E1, E2. f_equal; tauto.
Qed.
Lemma apply_times k s m : s <> (0, 0) -> 0 < k -> apply_magnitude (times k s) m = apply_magnitude s m.
Proof.
  intros H Hk. pose proof (apparent_pos s H). rewrite !apply_scale by (auto; apply times_nonzero; auto; lra).
  rewrite apparent_times, Rabs_right by lra. unfold times; cbn [fst snd]. f_equal; field; lra.
Qed.
Lemma apply_times_neg k s m : s <> (0, 0) -> k < 0 -> apply_magnitude (times k s) m = times (-1) (apply_magnitude s m).
Proof.
  intros H Hk. pose proof (apparent_pos s H). rewrite !apply_scale by (auto; apply times_nonzero; auto; lra).
  rewrite apparent_times, Rabs_left by lra. unfold times; cbn [fst snd]. f_equal; field; lra.
Qed.
(** the last positive magnitude decides *)
Lemma apply_apply s m m' : 0 < m -> apply_magnitude (apply_magnitude s m) m' = apply_magnitude s m'.
Proof.
  intros Hm. destruct (Req_dec (fst s) 0) as [E1|E1]; [destruct (Req_dec (snd s) 0) as [E2|E2]|].
  - destruct s as [x y]; cbn [fst snd] in *; subst. rewrite !apply_zero. replace (m, 0) with (times m (1, 0)) by (unfold times; cbn [fst snd]; f_equal; ring).
    rewrite apply_times by (auto; intros E; injection E; lra). rewrite apply_scale by (intros E; injection E; lra).
    unfold times, apparent; cbn [fst snd]. replace (1 * 1 + 0 * 0) with 1 by ring. rewrite sqrt_1. f_equal; field.
  - assert (s <> (0, 0)) as H by (intros ->; apply E2; reflexivity). pose proof (apparent_pos s H). rewrite (apply_scale s m H). apply apply_times; auto. apply Rdiv_lt_0_compat; lra.
  - assert (s <> (0, 0)) as H by (intros ->; apply E1; reflexivity). pose proof (apparent_pos s H). rewrite (apply_scale s m H). apply apply_times; auto. apply Rdiv_lt_0_compat; lra.
Qed.
Lemma keeps_factor s m : s <> (0, 0) -> 0 < m -> apparent (apply_magnitude s m) = m /\ apply_magnitude s m = times (m / apparent s) s.
Proof.
  intros H Hm. pose proof (apparent_pos s H). split; [|apply apply_scale; auto]. rewrite apply_scale by auto. rewrite apparent_times, Rabs_right; [field; lra|].
  apply Rle_ge, Rlt_le, Rdiv_lt_0_compat; auto.
Qed.
Lemma through_app s a b : through s (a ++ b) = through (through s a) b. Proof. apply fold_left_app. Qed.
Lemma last_decides s ms m : positive ms -> through s (ms ++ [m]) = apply_magnitude s m.
Proof.
  revert s; induction ms as [|k ms IH]; intros s H; [reflexivity|]. cbn [app through fold_left]. fold (through (apply_magnitude s k) (ms ++ [m])).
  rewrite IH by (intros x Hx; apply H; right; auto). apply apply_apply, H; left; auto.
Qed.
Lemma through_positive_nonzero s ms : s <> (0, 0) -> positive ms -> exists k, 0 < k /\ through s ms = times k s.
Proof.
  intros H. pose proof (apparent_pos s H). destruct ms as [|m ms] using rev_ind; intros HP.
  - exists 1. split; [lra|]. destruct s; unfold through, times; cbn. f_equal; ring.
  - rewrite last_decides by (intros x Hx; apply HP, in_app_iff; auto). assert (0 < m) by (apply HP, in_app_iff; right; left; auto). exists (m / apparent s).
    split; [apply Rdiv_lt_0_compat; auto|]. apply apply_scale; auto.
Qed.
Lemma after_zero s ms ns m : positive ns -> through s (ms ++ 0 :: ns ++ [m]) = (m, 0).
Proof.
  intros H. rewrite through_app. cbn [through fold_left]. fold (through (apply_magnitude (through s ms) 0) (ns ++ [m])). rewrite last_decides by auto.
  replace (apply_magnitude (through s ms) 0) with (0, 0); [apply apply_zero|]. unfold apply_magnitude. f_equal; ring.
Qed.
Lemma after_negative s ms n ns m : s <> (0, 0) -> positive ms -> n < 0 -> positive ns -> through s (ms ++ n :: ns ++ [m]) = times (-1) (apply_magnitude s m).
Proof.
  intros H Hms Hn Hns. rewrite through_app. destruct (through_positive_nonzero s ms H Hms) as [k [Hk ->]]. cbn [through fold_left].
  fold (through (apply_magnitude (times k s) n) (ns ++ [m])). rewrite last_decides, (apply_times k s n H Hk) by auto. rewrite (apply_scale s n H).
  apply apply_times_neg; auto. pose proof (apparent_pos s H). assert (0 < - n / apparent s) by (apply Rdiv_lt_0_compat; lra). replace (- n / apparent s) with (- (n / apparent s)) in H1 by (field; lra). lra.
Qed.

(** ** lists *)
Lemma last_index_some {A} (p : A -> bool) l i : last_index p l = Some i ->
  exists x, at_ l i x /\ p x = true /\ forall j y, (i < j)%nat -> at_ l j y -> p y = false.
Proof.
  unfold at_. revert i; induction l as [|x l IH]; intros i E; [discriminate|]. cbn [last_index] in E.
  assert (forall q, last_index q l = None -> forall j y, nth_error l j = Some y -> q y = false) as HN.
  { clear. induction l as [|x l IH]; intros q E j y Hy; [destruct j; discriminate|]. cbn [last_index] in E.
    destruct (last_index q l) eqn:E'; [discriminate|]. destruct (q x) eqn:Q; [discriminate|]. destruct j; cbn in Hy; [injection Hy as <-; auto|eapply IH; eauto]. }
  destruct (last_index p l) as [k|] eqn:E'.
  - injection E as <-. destruct (IH k eq_refl) as [y [H1 [H2 H3]]]. exists y. split; auto. split; auto. intros [|j] z Hj Hz; [lia|]. cbn in Hz. apply (H3 j z); auto; lia.
  - destruct (p x) eqn:P; [|discriminate]. injection E as <-. exists x. split; auto. split; auto. intros [|j] z Hj Hz; [lia|]. cbn in Hz. eapply HN; eauto.
Qed.
Lemma last_index_none {A} (p : A -> bool) l : last_index p l = None <-> forall x, In x l -> p x = false.
Proof.
  induction l as [|x l IH]; cbn [last_index]; [split; auto; intros _ y []|]. destruct (last_index p l) eqn:E.
  - split; [discriminate|]. intros H. assert (Some n = None) as X; [|discriminate]. apply IH. intros y Hy; apply H; right; auto.
  - destruct (p x) eqn:P; split; try discriminate; auto.
    + intros H. rewrite (H x) in P; [discriminate|left; auto].
    + intros _ y [<-|Hy]; auto. apply IH; auto.
Qed.
Lemma last_index_here {A} (p : A -> bool) l i x : at_ l i x -> p x = true -> (forall j y, (i < j)%nat -> at_ l j y -> p y = false) -> last_index p l = Some i.
Proof.
  intros H P L. destruct (last_index p l) as [k|] eqn:E.
  - destruct (last_index_some p l k E) as [y [H1 [H2 H3]]]. f_equal. destruct (lt_eq_lt_dec i k) as [[C|C]|C]; auto.
    + rewrite (L k y C H1) in H2; discriminate.
    + rewrite (H3 i x C H) in P; discriminate.
  - apply last_index_none with (x := x) in E; [congruence|]. eapply nth_error_In; eauto.
Qed.
Lemma update_at {A} i (f : A -> A) l : forall j, nth_error (update i f l) j = if Nat.eqb i j then option_map f (nth_error l j) else nth_error l j.
Proof.
  revert i; induction l as [|x l IH]; intros i j; [destruct i, j; cbn; auto; destruct (Nat.eqb i j); auto|].
  destruct i, j; cbn; auto.
Qed.
Lemma update_length {A} i (f : A -> A) l : length (update i f l) = length l.
Proof. revert i; induction l as [|x l IH]; intros [|i]; cbn; auto. Qed.

(** ** columns *)
Lemma set_power_name l s : load_name (set_power l s) = load_name l. Proof. reflexivity. Qed.
Lemma set_power_twice l s t : set_power (set_power l s) t = set_power l t. Proof. reflexivity. Qed.
Lemma set_power_id l : set_power l (power_of l) = l. Proof. destruct l; reflexivity. Qed.
Definition same_names (a b : list tload) : Prop := forall i, option_map load_name (nth_error a i) = option_map load_name (nth_error b i).
(** one column *)
Lemma column_at names h loads c i : nth_error (set_column names h loads c) i =
  match names (fst c), snd c h with
  | Some k, Some m => if Nat.eqb k i then option_map (fun l => set_power l (apply_magnitude (power_of l) m)) (nth_error loads i) else nth_error loads i
  | _, _ => nth_error loads i
  end.
Proof. unfold set_column. destruct (names (fst c)) as [k|]; auto. destruct (snd c h) as [m|]; auto. apply update_at. Qed.
(** columns that do not concern load [i] *)
Lemma values_other names cols h i : forall loads, (forall c m, In c cols -> names (fst c) = Some i -> snd c h = Some m -> False) ->
  nth_error (set_load_values names cols h loads) i = nth_error loads i.
Proof.
  induction cols as [|c cols IH]; intros loads H; auto. unfold set_load_values in *; cbn [fold_left]. rewrite IH by (intros d m Hd; apply (H d m); right; auto).
  rewrite column_at. destruct (names (fst c)) as [k|] eqn:E; auto. destruct (snd c h) as [m|] eqn:E'; auto. destruct (Nat.eqb_spec k i) as [->|]; auto.
  exfalso; apply (H c m); auto. left; auto.
Qed.
Lemma values_one names cols h i name f m : forall loads, NoDup (map fst cols) -> In (name, f) cols -> names name = Some i -> f h = Some m ->
  (forall n, names n = Some i -> n = name) ->
  nth_error (set_load_values names cols h loads) i = option_map (fun l => set_power l (apply_magnitude (power_of l) m)) (nth_error loads i).
Proof.
  induction cols as [|c cols IH]; intros loads ND Hin HN Hf HU; [destruct Hin|]. cbn [map] in ND. inversion ND as [|x y N1 N2]; subst.
  unfold set_load_values in *; cbn [fold_left]. destruct Hin as [->|Hin].
  - fold (set_load_values names cols h (set_column names h loads (name, f))). rewrite values_other.
    + rewrite column_at; cbn [fst snd]. rewrite HN, Hf, Nat.eqb_refl. reflexivity.
    + intros d m' Hd Hn _. apply HU in Hn. cbn [fst] in N1. apply N1. rewrite <- Hn. apply in_map; auto.
  - rewrite IH; auto. f_equal. rewrite column_at. destruct (names (fst c)) as [k|] eqn:E; auto. destruct (snd c h); auto.
    destruct (Nat.eqb_spec k i) as [->|]; auto. apply HU in E. exfalso; apply N1. rewrite E. apply in_map_iff; exists (name, f); auto.
Qed.
Lemma named_owner loads i l : owns_name loads i l -> named loads (load_name l) = Some i.
Proof.
  intros [H1 H2]. unfold named. apply last_index_here with l; auto; [apply String.eqb_refl|]. intros j y Hj Hy. apply String.eqb_neq. apply (H2 j y); auto.
Qed.
Lemma named_only loads i l n : at_ loads i l -> named loads n = Some i -> n = load_name l.
Proof.
  intros H E. apply last_index_some in E as [x [H1 [H2 _]]]. unfold at_ in *. rewrite H in H1; injection H1 as <-. apply String.eqb_eq in H2; auto.
Qed.
Lemma named_shadowed loads i l n : shadowed loads i l -> named loads n <> Some i.
Proof.
  intros [H [j [k [Hj [Hk E]]]]] E'. pose proof (named_only loads i l n H E') as ->. apply last_index_some in E' as [x [_ [_ H3]]].
  specialize (H3 j k Hj Hk). apply String.eqb_neq in H3. congruence.
Qed.
Lemma owner_or_shadowed loads i l : at_ loads i l -> owns_name loads i l \/ shadowed loads i l.
Proof.
  intros H. destruct (named loads (load_name l)) as [k|] eqn:E.
  - pose proof E as E'. apply last_index_some in E as [x [H1 [H2 H3]]]. apply String.eqb_eq in H2. destruct (lt_eq_lt_dec i k) as [[C|C]|C].
    + right; split; auto. exists k, x; auto.
    + subst k. left; split; auto. intros j y Hj Hy X. specialize (H3 j y Hj Hy). apply String.eqb_neq in H3. congruence.
    + exfalso. specialize (H3 i l C H). apply String.eqb_neq in H3; congruence.
  - exfalso. apply last_index_none with (x := l) in E; [|eapply nth_error_In; eauto]. rewrite String.eqb_refl in E; discriminate.
Qed.
(** base: the loads the name map was made for; cur: the loads now *)
Lemma values_at base cols h cur i l x : NoDup (map fst cols) -> at_ base i l -> at_ cur i x ->
  (owns_name base i l -> forall m, column_value cols (load_name l) h m -> at_ (set_load_values (named base) cols h cur) i (set_power x (apply_magnitude (power_of x) m))) /\
  ((shadowed base i l \/ forall m, ~ column_value cols (load_name l) h m) -> at_ (set_load_values (named base) cols h cur) i x).
Proof.
  intros ND Hb Hc. split.
  - intros O m [f [Hf E]]. unfold at_ in *. rewrite (values_one (named base) cols h i (load_name l) f m); auto.
    + rewrite Hc; reflexivity.
    + apply named_owner; auto.
    + intros n Hn. eapply named_only; eauto.
  - intros H. unfold at_ in *. rewrite values_other; auto. intros c m Hc' Hn Hm. destruct H as [H|H].
    + apply (named_shadowed _ _ _ (fst c) H); auto.
    + apply (H m). exists (snd c). apply (named_only _ _ _ _ Hb) in Hn. rewrite <- Hn. split; auto. destruct c; auto.
Qed.
Lemma values_length names cols h : forall loads, length (set_load_values names cols h loads) = length loads.
Proof.
  induction cols as [|c cols IH]; intros loads; auto. unfold set_load_values in *; cbn [fold_left]. rewrite IH. unfold set_column.
  destruct (names (fst c)); auto. destruct (snd c h); auto. apply update_length.
Qed.
Lemma load_updates loads cols h i l : NoDup (map fst cols) -> at_ loads i l ->
  (owns_name loads i l -> forall m, column_value cols (load_name l) h m -> at_ (set_load_values (named loads) cols h loads) i (set_power l (apply_magnitude (power_of l) m))) /\
  ((shadowed loads i l \/ forall m, ~ column_value cols (load_name l) h m) -> at_ (set_load_values (named loads) cols h loads) i l).
Proof. intros; apply values_at; auto. Qed.
(** a shadowed load keeps its value through any hours *)
Lemma shadowed_constant base cols hs i l : NoDup (map fst cols) -> shadowed base i l -> at_ (after_hours base cols hs) i l.
Proof.
  intros ND H. unfold after_hours. assert (forall cur, at_ cur i l -> at_ (fold_left (fun ls h => set_load_values (named base) cols h ls) hs cur) i l) as X; [|apply X, H].
  induction hs as [|h hs IH]; intros cur Hc; auto. cbn [fold_left]. apply IH. eapply values_at; eauto. apply H.
Qed.
Lemma nth_ext {A} (a b : list A) : (forall i, nth_error a i = nth_error b i) -> a = b.
Proof.
  revert b; induction a as [|x a IH]; intros [|y b] H; auto; try (specialize (H 0%nat); discriminate).
  pose proof (H 0%nat) as E; injection E as ->. f_equal; apply IH. intros i; apply (H (S i)).
Qed.
(** with a full table of positive values the loads of an hour do not depend on the hours before *)
Lemma hours_independent base cols hs h : NoDup (map fst cols) ->
  (forall c k, In c cols -> In k (hs ++ [h]) -> exists m, snd c k = Some m /\ 0 < m) ->
  after_hours base cols (hs ++ [h]) = set_load_values (named base) cols h base.
Proof.
  intros ND HP. unfold after_hours. rewrite fold_left_app; cbn [fold_left].
  assert (forall cur i l, at_ base i l -> at_ cur i l \/ (owns_name base i l /\ exists m, 0 < m /\ at_ cur i (set_power l (apply_magnitude (power_of l) m))) -> forall ks, incl ks hs ->
    let r := fold_left (fun ls h => set_load_values (named base) cols h ls) ks cur in
    at_ r i l \/ (owns_name base i l /\ exists m, 0 < m /\ at_ r i (set_power l (apply_magnitude (power_of l) m)))) as X.
  { intros cur i l Hb H ks. revert cur H. induction ks as [|k ks IH]; intros cur H Hk; auto. cbn [fold_left]. apply IH; [|intros z Hz; apply Hk; right; auto].
    destruct (owner_or_shadowed base i l Hb) as [O|Sh].
    - destruct (in_dec string_dec (load_name l) (map fst cols)) as [Hn|Hn].
      + apply in_map_iff in Hn as [c [En Hc]]. destruct (HP c k Hc) as [m [Em Hm]]; [apply in_app_iff; left; apply Hk; left; auto|].
        assert (column_value cols (load_name l) k m) as CV by (exists (snd c); split; auto; rewrite <- En; destruct c; auto).
        right; split; auto. exists m; split; auto. destruct H as [H|[_ [m0 [H0 H]]]].
        * apply (values_at base cols k cur i l l); auto.
        * pose proof (proj1 (values_at base cols k cur i l _ ND Hb H) O m CV) as R. cbn [power_of set_power tl_P tl_Q] in R.
          rewrite <- (surjective_pairing (apply_magnitude (tl_P l, tl_Q l) m0)) in R || idtac.
          unfold at_ in *. rewrite R. f_equal. rewrite set_power_twice. f_equal. unfold power_of at 1; cbn [set_power tl_P tl_Q]. rewrite <- surjective_pairing. apply apply_apply; auto.
      + assert (forall m, ~ column_value cols (load_name l) k m) as NC by (intros m [f [Hf _]]; apply Hn, in_map_iff; exists (load_name l, f); auto).
        destruct H as [H|[_ [m0 [H0 H]]]]; [left; apply (values_at base cols k cur i l l); auto|right; split; auto; exists m0; split; auto]. eapply values_at; eauto.
    - left. destruct H as [H|[O _]]; [eapply values_at; eauto|]. exfalso. destruct O as [_ O], Sh as [_ [j [y [Hj [Hy E]]]]]. apply (O j y); auto. }
  apply nth_ext. intros i. destruct (nth_error base i) as [l|] eqn:E.
  - specialize (X base i l E (or_introl E) hs (incl_refl _)). cbn zeta in X. set (cur := fold_left _ hs base) in *.
    destruct (owner_or_shadowed base i l E) as [O|Sh].
    + destruct (in_dec string_dec (load_name l) (map fst cols)) as [Hn|Hn].
      * apply in_map_iff in Hn as [c [En Hc]]. destruct (HP c h Hc) as [m [Em Hm]]; [apply in_app_iff; right; left; auto|].
        assert (column_value cols (load_name l) h m) as CV by (exists (snd c); split; auto; rewrite <- En; destruct c; auto).
        rewrite (proj1 (values_at base cols h base i l l ND E E) O m CV). destruct X as [H|[_ [m0 [H0 H]]]].
        -- apply (proj1 (values_at base cols h cur i l l ND E H) O m CV).
        -- pose proof (proj1 (values_at base cols h cur i l _ ND E H) O m CV) as R. unfold at_ in R. rewrite R. f_equal. rewrite set_power_twice. f_equal.
           unfold power_of at 1; cbn [set_power tl_P tl_Q]. rewrite <- surjective_pairing. apply apply_apply; auto.
      * assert (forall k m, ~ column_value cols (load_name l) k m) as NC by (intros k m [f [Hf _]]; apply Hn, in_map_iff; exists (load_name l, f); auto).
        assert (at_ cur i l) as Hcur.
        { clear X. subst cur. clear HP. assert (forall cur, at_ cur i l -> at_ (fold_left (fun ls h => set_load_values (named base) cols h ls) hs cur) i l) as Y; [|apply Y; auto].
          induction hs as [|k hs' IH]; intros cur Hc; auto. cbn [fold_left]. apply IH. eapply values_at; eauto. }
        rewrite (proj2 (values_at base cols h cur i l l ND E Hcur)) by auto. symmetry; apply (proj2 (values_at base cols h base i l l ND E E)); auto.
    + assert (at_ cur i l) as Hcur by (apply (shadowed_constant base cols hs i l); auto).
      rewrite (proj2 (values_at base cols h cur i l l ND E Hcur)) by auto. symmetry; apply (proj2 (values_at base cols h base i l l ND E E)); auto.
  - assert (forall ks cur, length (fold_left (fun ls h => set_load_values (named base) cols h ls) ks cur) = length cur) as HL
      by (induction ks as [|k ks IH]; intros cur; auto; cbn [fold_left]; rewrite IH; apply values_length).
    apply nth_error_None in E. transitivity (@None tload); [|symmetry]; apply nth_error_None; rewrite values_length; rewrite ?HL; auto.
Qed.
