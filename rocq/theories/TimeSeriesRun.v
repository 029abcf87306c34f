(** Further lemmas for C53, C55, C67, C68: names, adjustment, runs. *)
From Coq Require Import String Ascii List Bool Arith ZArith Reals Lra Lia.
From Verif Require Import TimeSeries SpecTimeSeries TimeSeriesProofs.
Import ListNotations.
Local Open Scope R_scope.

(** ** names *)
Lemma app_nil_str (s : string) : (s ++ "")%string = s. Proof. induction s; cbn; congruence. Qed.
Lemma app_assoc_str (a b c : string) : ((a ++ b) ++ c)%string = (a ++ (b ++ c))%string. Proof. induction a; cbn; congruence. Qed.
Lemma alpha_not_digit c : is_alpha_char c = true -> is_digit_char c = false.
Proof.
  unfold is_alpha_char, is_digit_char. intros H. apply andb_false_iff. destruct (Nat.leb (nat_of_ascii c) 57) eqn:E; auto. apply Nat.leb_le in E.
  apply orb_true_iff in H as [H|H]; apply andb_true_iff in H as [H _]; apply Nat.leb_le in H; lia.
Qed.
Lemma digits_letters a b p q : all_chars is_digit_char a = true -> all_chars is_digit_char b = true -> all_chars is_alpha_char p = true -> all_chars is_alpha_char q = true ->
  (a ++ p)%string = (b ++ q)%string -> a = b /\ p = q.
Proof.
  revert b; induction a as [|c a IH]; intros b Ha Hb Hp Hq E.
  - destruct b as [|d b]; [auto|]. cbn in E; subst p. cbn in Hp, Hb. apply andb_true_iff in Hp as [Hp _], Hb as [Hb _]. apply alpha_not_digit in Hp. congruence.
  - destruct b as [|d b].
    + cbn in E; subst q. cbn in Hq, Ha. apply andb_true_iff in Hq as [Hq _], Ha as [Ha _]. apply alpha_not_digit in Hq. congruence.
    + cbn in E. injection E as -> E. cbn in Ha, Hb. apply andb_true_iff in Ha as [_ Ha], Hb as [_ Hb]. destruct (IH b Ha Hb Hp Hq E) as [-> ->]; auto.
Qed.
Lemma two_chars a b x y z w : (a ++ String x (String y ""))%string = (b ++ String z (String w ""))%string -> a = b /\ x = z /\ y = w.
Proof.
  revert b; induction a as [|c a IH]; intros b E.
  - destruct b as [|d [|e b]]; cbn in E.
    + injection E as -> ->; auto.
    + injection E as -> E; discriminate.
    + injection E as _ _ E; destruct b; discriminate.
  - destruct b as [|d b]; cbn in E.
    + injection E as _ E. destruct a as [|e a]; [discriminate|]. injection E as _ E; destruct a; discriminate.
    + injection E as -> E. destruct (IH b E) as [-> H]; auto.
Qed.
Lemma isalpha_chars s : isalpha s = true -> all_chars is_alpha_char s = true. Proof. intros H; apply andb_true_iff in H; tauto. Qed.
Lemma numeric_not_alpha s : isnumeric s = true -> isalpha s = false.
Proof.
  unfold isnumeric, isalpha. destruct s as [|c s]; [discriminate|]. cbn. intros H. apply andb_true_iff in H as [H _]. destruct (is_alpha_char c) eqn:E; auto. apply alpha_not_digit in E; congruence.
Qed.
Definition digits (s : string) : Prop := all_chars is_digit_char s = true.
Lemma alpha_names a b : isalpha (tl_phase a) = true -> isalpha (tl_phase b) = true -> digits (tl_num a) -> digits (tl_num b) ->
  load_name a = load_name b -> tl_num a = tl_num b /\ tl_phase a = tl_phase b.
Proof.
  intros Pa Pb Da Db E. unfold load_name in E. rewrite Pa, Pb in E. cbn in E. injection E as E. apply digits_letters; auto using isalpha_chars.
Qed.
Lemma numeric_names a b : isnumeric (tl_phase a) = true -> isnumeric (tl_phase b) = true ->
  (load_name a = load_name b <-> tl_num a = tl_num b /\ first_char (tl_phase a) = first_char (tl_phase b)).
Proof.
  intros Pa Pb. unfold load_name. rewrite (numeric_not_alpha _ Pa), (numeric_not_alpha _ Pb), Pa, Pb. split; [|intros [-> ->]; reflexivity].
  intros E. cbn in E. injection E as E. destruct (tl_phase a) as [|x p]; [discriminate|]. destruct (tl_phase b) as [|y q]; [discriminate|]. cbn [first_char] in *.
  apply two_chars in E as [-> [_ ->]]; auto.
Qed.
Lemma last_part_plain s : forall acc, no_underscore s -> last_part s acc = (acc ++ s)%string.
Proof.
  unfold no_underscore. induction s as [|c s IH]; intros acc H; cbn in *; [now rewrite app_nil_str|]. apply andb_true_iff in H as [H1 H2]. apply negb_true_iff in H1. rewrite H1, IH by auto.
  rewrite app_assoc_str; reflexivity.
Qed.
Lemma last_part_number name num : number_of name num -> no_underscore num -> last_part name "" = num.
Proof.
  intros [[pre ->]| ->] H; [|rewrite last_part_plain; auto]. assert (forall acc, last_part (pre ++ "_" ++ num) acc = num) as X; [|apply X].
  induction pre as [|c pre IH]; intros acc; cbn; [rewrite last_part_plain; auto|]. destruct (Ascii.eqb c "_"); apply IH.
Qed.
Lemma numbers_map ns nums : numbers_of ns nums -> map (fun n => last_part n "") ns = nums.
Proof. intros H; induction H as [|n m ns nums [H1 H2] H IH]; auto. cbn [map]. f_equal; auto. apply last_part_number; auto. Qed.

(** ** adjustment *)
Lemma total_output_sum gs : total_output gs = magnitude_sum gs.
Proof. induction gs as [|g gs IH]; auto. unfold magnitude_sum in *; cbn. rewrite <- IH. reflexivity. Qed.
Definition key_test (nums : list string) (ph : string) (l : tload) : bool := existsb (String.eqb (tl_num l)) nums && String.eqb (load_key l) ph.
Lemma key_test_true nums ph l : key_test nums ph l = true <-> In (tl_num l) nums /\ load_key l = ph.
Proof.
  unfold key_test. rewrite andb_true_iff, existsb_exists, String.eqb_eq. split; intros [H1 H2]; split; auto.
  - destruct H1 as [x [Hx E]]. apply String.eqb_eq in E; subst; auto.
  - exists (tl_num l); split; auto. apply String.eqb_refl.
Qed.
Lemma negative_load_books nums loads ph i : negative_load nums loads ph = Some i <-> exists l, books nums loads ph i l.
Proof.
  unfold negative_load, books. split.
  - intros E. apply last_index_some in E as [l [H1 [H2 H3]]]. exists l. fold (key_test nums ph l) in H2. apply key_test_true in H2 as [A B]. split; [auto|split; [auto|split; [auto|]]].
    intros j k Hj Hk X. specialize (H3 j k Hj Hk). fold (key_test nums ph k) in H3. apply key_test_true in X. congruence.
  - intros [l [H1 [H2 [H3 H4]]]]. apply last_index_here with l; auto; [apply key_test_true; auto|]. intros j k Hj Hk. fold (key_test nums ph k).
    destruct (key_test nums ph k) eqn:E; auto. apply key_test_true in E. exfalso; eapply H4; eauto.
Qed.
Lemma books_unique nums loads ph i l l' : books nums loads ph i l -> at_ loads i l' -> l' = l.
Proof. intros [H _] H'. unfold at_ in *. congruence. Qed.
(** the loop over the outputs *)
Lemma book_spec pick gs : forall loads b r, book pick gs loads = (b, r) ->
  exists pre post, gs = pre ++ post /\ (b = true -> post = []) /\ (b = false -> exists g rest, post = g :: rest /\ pick (go_phase g) = None) /\
    (forall g, In g pre -> pick (go_phase g) <> None) /\ length r = length loads /\
    forall i l p, at_ loads i l -> (forall ph, p ph = true <-> pick ph = Some i) -> at_ r i (set_power l (tl_P l + sum_if p go_P pre, tl_Q l + sum_if p go_Q pre)).
Proof.
  induction gs as [|g gs IH]; intros loads b r E; cbn [book] in E.
  - injection E as <- <-. exists [], []. split; auto. split; auto. split; [discriminate|]. split; [intros g []|]. split; auto. intros i l p Hl _. cbn [sum_if].
    replace (set_power l (tl_P l + 0, tl_Q l + 0)) with l; auto. rewrite !Rplus_0_r. destruct l; reflexivity.
  - destruct (pick (go_phase g)) as [k|] eqn:Ek.
    + destruct (IH _ _ _ E) as [pre [post [H1 [H2 [H3 [H4 [H5 H6]]]]]]]. exists (g :: pre), post. split; [cbn; f_equal; auto|]. split; auto. split; auto.
      split; [intros x [<-|Hx]; [congruence|auto]|]. split; [rewrite H5; apply update_length|].
      intros i l p Hl Hp. cbn [sum_if]. unfold at_ in *. pose proof (update_at k (add_output g) loads i) as U. rewrite Hl in U.
      destruct (Nat.eqb_spec k i) as [->|Hne].
      * cbn [option_map] in U. rewrite (H6 i _ p U Hp). assert (p (go_phase g) = true) as -> by (apply Hp; auto). unfold add_output; cbn [tl_P tl_Q set_power fst snd tl_num tl_phase tl_triplex].
        f_equal. unfold set_power; cbn [fst snd tl_num tl_phase tl_triplex tl_P tl_Q]. f_equal; ring.
      * rewrite (H6 i l p U Hp). assert (p (go_phase g) = false) as -> by (destruct (p (go_phase g)) eqn:Ep; auto; apply Hp in Ep; congruence). rewrite !Rplus_0_l. reflexivity.
    + injection E as <- <-. exists [], (g :: gs). split; auto. split; [discriminate|]. split; [intros _; exists g, gs; auto|]. split; [intros x []|]. split; auto.
      intros i l p Hl _. cbn [sum_if]. rewrite !Rplus_0_r. destruct l; auto.
Qed.
Lemma booked_of nums gs before after :
  length after = length before ->
  (forall i l p, at_ before i l -> (forall ph, p ph = true <-> negative_load nums before ph = Some i) -> at_ after i (set_power l (tl_P l + sum_if p go_P gs, tl_Q l + sum_if p go_Q gs))) ->
  booked nums gs before after.
Proof.
  intros HL H. split; auto. intros i l p Hl Hp. apply H; auto. intros ph. rewrite Hp, negative_load_books. split; [intros X; exists l; auto|]. intros [l' X].
  rewrite (books_unique _ _ _ _ _ _ X Hl). auto.
Qed.
Lemma adjust_again s ns nums gs loads r : numbers_of ns nums -> adjust (Some s) (Some ns) gs loads = Again r ->
  1 / 10 <= magnitude_sum (at_bus s gs) /\ booked nums (at_bus s gs) loads r.
Proof.
  intros HN E. unfold adjust in E. rewrite (numbers_map _ _ HN), total_output_sum in E. unfold swing_outputs in E. fold (at_bus s gs) in E.
  destruct (Rlt_dec (magnitude_sum (at_bus s gs)) (1 / 10)); [discriminate|]. split; [lra|].
  destruct (book _ _ loads) as [[] r'] eqn:EB; [|discriminate]. injection E as <-. apply book_spec in EB as [pre [post [H1 [H2 [_ [_ [H5 H6]]]]]]].
  rewrite (H2 eq_refl), app_nil_r in H1. subst pre. apply booked_of; auto.
Qed.
Lemma adjust_keyerror s ns nums gs loads r : numbers_of ns nums -> adjust (Some s) (Some ns) gs loads = KeyError r ->
  exists pre g post, at_bus s gs = pre ++ g :: post /\ (forall i l, ~ books nums loads (go_phase g) i l) /\ booked nums pre loads r.
Proof.
  intros HN E. unfold adjust in E. rewrite (numbers_map _ _ HN), total_output_sum in E. unfold swing_outputs in E. fold (at_bus s gs) in E.
  destruct (Rlt_dec (magnitude_sum (at_bus s gs)) (1 / 10)); [discriminate|].
  destruct (book _ _ loads) as [[] r'] eqn:EB; [discriminate|]. injection E as <-. apply book_spec in EB as [pre [post [H1 [_ [H3 [_ [H5 H6]]]]]]].
  destruct (H3 eq_refl) as [g [rest [-> HP]]]. exists pre, g, rest. split; auto. split; [|apply booked_of; auto].
  intros i l X. assert (negative_load nums loads (go_phase g) = Some i) by (apply negative_load_books; eauto). congruence.
Qed.
Lemma adjust_settled s ns gs loads : adjust (Some s) (Some ns) gs loads = Settled <-> magnitude_sum (at_bus s gs) < 1 / 10.
Proof.
  unfold adjust. rewrite total_output_sum. unfold swing_outputs. fold (at_bus s gs). destruct (Rlt_dec (magnitude_sum (at_bus s gs)) (1 / 10)); [tauto|].
  destruct (book _ _ loads) as [[] r']; split; intros; try discriminate; lra.
Qed.
Lemma adjust_goes_on s ns nums gs loads : numbers_of ns nums -> 1 / 10 <= magnitude_sum (at_bus s gs) ->
  (forall g, In g (at_bus s gs) -> exists l, In l loads /\ In (tl_num l) nums /\ load_key l = go_phase g) -> exists r, adjust (Some s) (Some ns) gs loads = Again r.
Proof.
  intros HN HM HP. destruct (adjust (Some s) (Some ns) gs loads) as [|r|r] eqn:E; eauto.
  - apply adjust_settled in E; lra.
  - destruct (adjust_keyerror _ _ _ _ _ _ HN E) as [pre [g [post [H1 [H2 _]]]]]. exfalso.
    destruct (HP g) as [l [Hl [Hn Hk]]]; [rewrite H1; apply in_app_iff; right; left; auto|].
    destruct (negative_load nums loads (go_phase g)) as [i|] eqn:EN.
    + apply negative_load_books in EN as [l' X]. apply (H2 i l'); auto.
    + unfold negative_load in EN. apply last_index_none with (x := l) in EN; auto. fold (key_test nums (go_phase g) l) in EN.
      assert (key_test nums (go_phase g) l = true) by (apply key_test_true; auto). congruence.
Qed.
Lemma at_in_map {A B} (f : A -> B) l i y : nth_error (map f l) i = Some y -> exists x, nth_error l i = Some x /\ f x = y.
Proof. rewrite nth_error_map. destruct (nth_error l i) as [x|]; [|discriminate]. intros E; injection E as <-. eauto. Qed.
(** numbers and keys do not change *)
Lemma update_map {A B} (f : A -> B) i g l : (forall x, f (g x) = f x) -> map f (update i g l) = map f l.
Proof. intros H. revert i; induction l as [|x l IH]; intros [|i]; cbn; auto; f_equal; auto. Qed.
Lemma book_keys pick gs : forall loads b r, book pick gs loads = (b, r) -> map (fun l => (tl_num l, load_key l)) r = map (fun l => (tl_num l, load_key l)) loads.
Proof.
  induction gs as [|g gs IH]; intros loads b r E; cbn [book] in E; [injection E as _ <-; auto|]. destruct (pick (go_phase g)); [|injection E as _ <-; auto].
  apply IH in E. rewrite E. apply update_map. reflexivity.
Qed.
Lemma adjust_keys sw ns gs loads r : adjust sw ns gs loads = Again r -> map (fun l => (tl_num l, load_key l)) r = map (fun l => (tl_num l, load_key l)) loads.
Proof.
  unfold adjust. destruct sw as [s|]; [|discriminate]. destruct ns as [n|]; [|discriminate]. destruct (Rlt_dec _ _); [discriminate|].
  destruct (book _ _ loads) as [[] r'] eqn:E; [|discriminate]. intros X; injection X as <-. eapply book_keys; eauto.
Qed.

Section Runs.
Context {snap : Type} (gens : snap -> list gout) (solve : nat -> list tload -> option snap).
(** *** the loop *)
Lemma loop_exit s ns fuel : forall st sn st' r, adjust_loop snap gens solve (Some s) (Some ns) fuel st sn = Done st' r ->
  (exists k, fst st = S k /\ solve k (snd st) = Some sn) ->
  magnitude_sum (at_bus s (gens r)) < 1 / 10 /\ exists k, fst st' = S k /\ solve k (snd st') = Some r.
Proof.
  induction fuel as [|fuel IH]; intros st sn st' r E H; cbn [adjust_loop] in E; destruct (adjust (Some s) (Some ns) (gens sn) (snd st)) as [|l|l] eqn:A; try discriminate;
    try (injection E as <- <-; apply adjust_settled in A; auto).
  unfold power_flow in E; cbn [fst snd] in E. destruct (solve (fst st) l) as [s2|] eqn:ES; [|discriminate]. apply (IH _ _ _ _ E). cbn [fst snd]. eauto.
Qed.
Lemma execute_exit s ns fuel st st' r : execute_powerflow snap gens solve (Some s) (Some ns) fuel st = Done st' r ->
  magnitude_sum (at_bus s (gens r)) < 1 / 10 /\ exists k, fst st' = S k /\ solve k (snd st') = Some r.
Proof.
  unfold execute_powerflow, power_flow. destruct (solve (fst st) (snd st)) as [s2|] eqn:ES; [|discriminate]. intros E. apply (loop_exit _ _ _ _ _ _ _ E). cbn [fst snd]. eauto.
Qed.
Lemma loop_forever s ns nums fuel : numbers_of ns nums -> forall keys,
  (forall k loads, map (fun l => (tl_num l, load_key l)) loads = keys -> exists sn, solve k loads = Some sn /\ 1 / 10 <= magnitude_sum (at_bus s (gens sn)) /\
     forall g, In g (at_bus s (gens sn)) -> exists num, In num nums /\ In (num, go_phase g) keys) ->
  forall st sn, map (fun l => (tl_num l, load_key l)) (snd st) = keys -> 1 / 10 <= magnitude_sum (at_bus s (gens sn)) ->
     (forall g, In g (at_bus s (gens sn)) -> exists num, In num nums /\ In (num, go_phase g) keys) ->
  adjust_loop snap gens solve (Some s) (Some ns) fuel st sn = Looping.
Proof.
  intros HN keys HS. induction fuel as [|fuel IH]; intros st sn HK HM HP; cbn [adjust_loop];
    (destruct (adjust_goes_on s ns nums (gens sn) (snd st) HN HM) as [r E];
     [intros g Hg; destruct (HP g Hg) as [num [H1 H2]]; rewrite <- HK in H2; apply in_map_iff in H2 as [l [El Hl]]; injection El as <- <-; eauto|rewrite E]); auto.
  unfold power_flow; cbn [fst snd]. assert (map (fun l => (tl_num l, load_key l)) r = keys) as HR by (rewrite (adjust_keys _ _ _ _ _ E); auto).
  destruct (HS (fst st) r HR) as [s2 [-> [H1 H2]]]. apply IH; auto.
Qed.
Lemma execute_forever s ns nums fuel st : numbers_of ns nums ->
  (forall k loads, map (fun l => (tl_num l, load_key l)) loads = map (fun l => (tl_num l, load_key l)) (snd st) ->
     exists sn, solve k loads = Some sn /\ 1 / 10 <= magnitude_sum (at_bus s (gens sn)) /\
     forall g, In g (at_bus s (gens sn)) -> exists l, In l (snd st) /\ In (tl_num l) nums /\ load_key l = go_phase g) ->
  execute_powerflow snap gens solve (Some s) (Some ns) fuel st = Looping.
Proof.
  intros HN HS. unfold execute_powerflow, power_flow. destruct (HS (fst st) (snd st) eq_refl) as [sn [-> [H1 H2]]].
  assert (forall g sn, (exists l, In l (snd st) /\ In (tl_num l) nums /\ load_key l = go_phase g) -> In g (at_bus s (gens sn)) ->
    exists num, In num nums /\ In (num, go_phase g) (map (fun l => (tl_num l, load_key l)) (snd st))) as X.
  { intros g _ [l [Hl [Hn Hk]]] _. exists (tl_num l); split; auto. apply in_map_iff. exists l; split; auto. congruence. }
  apply (loop_forever s ns nums fuel HN (map (fun l => (tl_num l, load_key l)) (snd st))); auto.
  - intros k loads E. destruct (HS k loads E) as [s2 [E2 [M2 P2]]]. exists s2. split; auto. split; auto. intros g Hg. apply (X g s2); auto.
  - intros g Hg. apply (X g sn); auto.
Qed.
Lemma unknown_swing s ns fuel st sn : solve (fst st) (snd st) = Some sn -> at_bus s (gens sn) = [] ->
  execute_powerflow snap gens solve (Some s) (Some ns) fuel st = Done (S (fst st), snd st) sn.
Proof.
  intros E H. unfold execute_powerflow, power_flow. rewrite E.
  assert (adjust (Some s) (Some ns) (gens sn) (snd (S (fst st), snd st)) = Settled) as A by (apply adjust_settled; rewrite H; unfold magnitude_sum; cbn; lra).
  destruct fuel; cbn [adjust_loop]; rewrite A; reflexivity.
Qed.

(** *** hours *)
Variable swing : option string.
Variable negatives : option (list string).
Hypothesis plain : swing = None \/ negatives = None.
Lemma plain_execute fuel st : execute_powerflow snap gens solve swing negatives fuel st = power_flow snap solve st.
Proof.
  unfold execute_powerflow. destruct (power_flow snap solve st) as [st' s| |] eqn:E; auto. assert (forall gs l, adjust swing negatives gs l = Settled) as A.
  { intros gs l. unfold adjust. destruct plain as [->| ->]; auto. destruct swing; auto. }
  destruct fuel; cbn [adjust_loop]; rewrite A; auto.
Qed.
Definition profile (base : list tload) (cols : list column) (hs : list Z) (cur : list tload) : list tload :=
  fold_left (fun ls h => set_load_values (named base) cols h ls) hs cur.
Lemma run_ok fuel base cols hs : forall k cur,
  (forall i, (i < length hs)%nat -> solve (k + i) (profile base cols (firstn (S i) hs) cur) <> None) ->
  exists r, run_hours snap gens solve swing negatives fuel (named base) cols hs (k, cur) = Done ((k + length hs)%nat, profile base cols hs cur) r /\
    map fst r = hs /\ forall i h s, nth_error r i = Some (h, s) -> solve (k + i) (profile base cols (firstn (S i) hs) cur) = Some s.
Proof.
  induction hs as [|h hs IH]; intros k cur H; cbn [run_hours].
  - exists []. cbn [length]. rewrite Nat.add_0_r. split; auto. split; auto. intros [|i] h s E; discriminate.
  - rewrite plain_execute. unfold power_flow; cbn [fst snd]. pose proof (H 0%nat ltac:(cbn; lia)) as H0. rewrite Nat.add_0_r in H0. cbn [firstn profile fold_left] in H0.
    destruct (solve k (set_load_values (named base) cols h cur)) as [s|] eqn:E; [|congruence].
    destruct (IH (S k) (set_load_values (named base) cols h cur)) as [r [E1 [E2 E3]]].
    { intros i Hi. specialize (H (S i) ltac:(cbn; lia)). rewrite Nat.add_succ_r in H. exact H. }
    rewrite E1. exists ((h, s) :: r). split; [f_equal; f_equal; cbn [length]; lia|]. split; [cbn [map fst]; congruence|].
    intros [|i] h' s' X.
    + injection X as <- <-. rewrite Nat.add_0_r. exact E.
    + rewrite Nat.add_succ_r. apply (E3 i h' s'). exact X.
Qed.
Lemma run_raises fuel base cols pre h post : forall k cur,
  (forall i, (i < length pre)%nat -> solve (k + i) (profile base cols (firstn (S i) pre) cur) <> None) ->
  solve (k + length pre) (profile base cols (pre ++ [h]) cur) = None ->
  run_hours snap gens solve swing negatives fuel (named base) cols (pre ++ h :: post) (k, cur) = Raised (S (k + length pre), profile base cols (pre ++ [h]) cur).
Proof.
  induction pre as [|a pre IH]; intros k cur H HR; cbn [run_hours app].
  - rewrite plain_execute. unfold power_flow; cbn [fst snd]. cbn [length app] in HR. rewrite Nat.add_0_r in HR. cbn [profile fold_left] in HR. rewrite HR. cbn [length]. rewrite Nat.add_0_r. reflexivity.
  - rewrite plain_execute. unfold power_flow; cbn [fst snd]. pose proof (H 0%nat ltac:(cbn; lia)) as H0. rewrite Nat.add_0_r in H0. cbn [firstn profile fold_left] in H0.
    destruct (solve k (set_load_values (named base) cols a cur)) as [s|] eqn:E; [|congruence].
    rewrite (IH (S k) (set_load_values (named base) cols a cur)).
    + cbn [length]. rewrite Nat.add_succ_r. reflexivity.
    + intros i Hi. specialize (H (S i) ltac:(cbn; lia)). rewrite Nat.add_succ_r in H. exact H.
    + cbn [length] in HR. rewrite Nat.add_succ_r in HR. exact HR.
Qed.
Lemma series fuel a cols k loads : ta_file a = File cols ->
  (forall i, (i < Z.to_nat (or_zero (ta_end a) - or_zero (ta_start a)))%nat ->
     solve (k + i) (after_hours loads cols (firstn (S i) (py_range (or_zero (ta_start a)) (or_zero (ta_end a))))) <> None) ->
  exists st r, main snap gens solve swing negatives fuel true a (k, loads) = Done st (Series r) /\
    length r = Z.to_nat (or_zero (ta_end a) - or_zero (ta_start a)) /\
    forall i h s, nth_error r i = Some (h, s) -> h = (or_zero (ta_start a) + Z.of_nat i)%Z /\
       solve (k + i) (after_hours loads cols (map (fun j => or_zero (ta_start a) + Z.of_nat j)%Z (seq 0 (S i)))) = Some s.
Proof.
  intros HF HS. set (hs := py_range _ _) in *. assert (length hs = Z.to_nat (or_zero (ta_end a) - or_zero (ta_start a))) as HL by (unfold hs, py_range; rewrite map_length, seq_length; auto).
  destruct (run_ok fuel loads cols hs k loads) as [r [E1 [E2 E3]]]; [intros i Hi; apply HS; lia|].
  eexists; exists r. unfold main, process. rewrite HF. fold hs. cbn [snd]. rewrite E1. split; [reflexivity|].
  assert (length r = length hs) as HR by (rewrite <- E2, map_length; auto). split; [lia|]. intros i h s Hn.
  assert (i < length hs)%nat as Hi by (rewrite <- HR; apply nth_error_Some; congruence).
  split.
  - assert (nth_error hs i = Some h) as X by (rewrite <- E2, nth_error_map, Hn; reflexivity). unfold hs, py_range in X. rewrite nth_error_map in X.
    destruct (nth_error (seq 0 _) i) as [j|] eqn:Ej; [|discriminate]. injection X as <-. 
    assert (j = i) as ->; [|reflexivity]. rewrite nth_error_nth' with (d := 0%nat) in Ej by (rewrite seq_length; lia). injection Ej as <-. rewrite seq_nth by lia. reflexivity.
  - rewrite <- (E3 i h s Hn). unfold after_hours, profile. f_equal. f_equal. unfold hs, py_range. rewrite firstn_map. f_equal.
    assert (forall n m s, (m <= n)%nat -> firstn m (seq s n) = seq s m) as FS.
    { clear. induction n as [|n IH]; intros [|m] s H; auto; [lia|]. cbn. f_equal. apply IH; lia. }
    rewrite FS; auto. lia.
Qed.
Lemma failed_hour fuel a cols k loads pre h post s : ta_file a = File cols -> py_range (or_zero (ta_start a)) (or_zero (ta_end a)) = pre ++ h :: post ->
  (forall i, (i < length pre)%nat -> solve (k + i) (after_hours loads cols (firstn (S i) pre)) <> None) ->
  solve (k + length pre) (after_hours loads cols (pre ++ [h])) = None ->
  solve (S (k + length pre)) (after_hours loads cols (pre ++ [h])) = Some s ->
  exists st, main snap gens solve swing negatives fuel true a (k, loads) = Done st (Single s).
Proof.
  intros HF HR H1 H2 H3. eexists. unfold main, process. rewrite HF, HR. cbn [snd]. rewrite run_raises by auto. unfold power_flow; cbn [fst snd]. unfold profile. unfold after_hours in H3. rewrite H3. reflexivity.
Qed.
Lemma hour_or o h : hour_of o h -> or_zero o = h.
Proof. intros [->|[-> ->]]; reflexivity. Qed.
Lemma firstn_hours h n m : (m <= n)%nat -> firstn m (hours_from h n) = hours_from h m.
Proof.
  intros H. unfold hours_from. rewrite firstn_map. f_equal. revert m n H. generalize 0%nat as a.
  intros a m n. revert a m. induction n as [|n IH]; intros a [|m] H; auto; [lia|]. cbn. f_equal. apply IH; lia.
Qed.
Lemma series_hours fuel a cols k loads s e : ta_file a = File cols -> hour_of (ta_start a) s -> hour_of (ta_end a) e ->
  (forall i, (i < Z.to_nat (e - s))%nat -> solve (k + i) (after_hours loads cols (hours_from s (S i))) <> None) ->
  exists st r, main snap gens solve swing negatives fuel true a (k, loads) = Done st (Series r) /\
    length r = Z.to_nat (e - s) /\
    forall i h sn, nth_error r i = Some (h, sn) -> h = (s + Z.of_nat i)%Z /\
       solve (k + i) (after_hours loads cols (hours_from s (S i))) = Some sn.
Proof.
  intros F S E H. pose proof (series fuel a cols k loads F) as Q. rewrite (hour_or _ _ S), (hour_or _ _ E) in Q. apply Q.
  intros i Hi. change (py_range s e) with (hours_from s (Z.to_nat (e - s))). rewrite firstn_hours by lia. auto.
Qed.
Lemma failed_hours fuel a cols k loads s e n sn : ta_file a = File cols -> hour_of (ta_start a) s -> hour_of (ta_end a) e -> (n < Z.to_nat (e - s))%nat ->
  (forall i, (i < n)%nat -> solve (k + i) (after_hours loads cols (hours_from s (S i))) <> None) ->
  solve (k + n) (after_hours loads cols (hours_from s (S n))) = None ->
  solve (S (k + n)) (after_hours loads cols (hours_from s (S n))) = Some sn ->
  exists st, main snap gens solve swing negatives fuel true a (k, loads) = Done st (Single sn).
Proof.
  intros F S E L H1 H2 H3.
  assert (X : hours_from s (Z.to_nat (e - s)) = hours_from s n ++ (s + Z.of_nat n)%Z :: skipn (Datatypes.S n) (hours_from s (Z.to_nat (e - s)))).
  { rewrite <- (firstn_skipn (Datatypes.S n) (hours_from s (Z.to_nat (e - s)))) at 1. rewrite firstn_hours by lia.
    unfold hours_from at 1. rewrite seq_S, map_app, <- app_assoc. reflexivity. }
  assert (Y : hours_from s (Datatypes.S n) = hours_from s n ++ [(s + Z.of_nat n)%Z]) by (unfold hours_from; rewrite seq_S, map_app; reflexivity).
  assert (N : length (hours_from s n) = n) by (unfold hours_from; now rewrite map_length, seq_length).
  rewrite Y in H2, H3.
  refine (failed_hour fuel a cols k loads (hours_from s n) (s + Z.of_nat n)%Z (skipn (Datatypes.S n) (hours_from s (Z.to_nat (e - s)))) sn F _ _ _ _); rewrite ?N; auto.
  - rewrite (hour_or _ _ S), (hour_or _ _ E). exact X.
  - intros i Hi. rewrite firstn_hours by lia. auto.
Qed.
End Runs.
Lemma no_options {snap} gens (solve : nat -> list tload -> option snap) negatives fuel tp a k loads : ta_file a = NoFile ->
  main snap gens solve None negatives fuel tp a (k, loads) =
  match solve k loads with Some s => Done (S k, loads) (Single s) | None => Raised (S k, loads) end.
Proof. intros H. unfold main, process. rewrite H. destruct tp; unfold power_flow; cbn [fst snd]; destruct (solve k loads); reflexivity. Qed.
Lemma options_ignored {snap} gens (solve : nat -> list tload -> option snap) swing negatives fuel tp a k loads : (tp = false \/ ta_file a = Missing) ->
  main snap gens solve swing negatives fuel tp a (k, loads) =
  match solve k loads with Some s => Done (S k, loads) (Single s) | None => Raised (S k, loads) end.
Proof.
  intros H. assert (process snap gens solve swing negatives fuel tp a (k, loads) = Raised (k, loads)) as E.
  { unfold process. destruct (ta_file a) eqn:F; destruct H as [->|H]; auto; congruence. }
  unfold main. rewrite E. unfold power_flow; cbn [fst snd]; destruct (solve k loads); reflexivity.
Qed.
(** a phase without a negative load: the tool goes on with what was booked before *)
Lemma keyerror_fallback {snap} gens (solve : nat -> list tload -> option snap) s ns nums fuel a k loads sn r sn' : numbers_of ns nums -> ta_file a = NoFile ->
  solve k loads = Some sn -> adjust (Some s) (Some ns) (gens sn) loads = KeyError r -> solve (S k) r = Some sn' ->
  main snap gens solve (Some s) (Some ns) fuel true a (k, loads) = Done (S (S k), r) (Single sn').
Proof.
  intros HN HF H1 H2 H3. assert (execute_powerflow snap gens solve (Some s) (Some ns) fuel (k, loads) = Raised (S k, r)) as E.
  { unfold execute_powerflow, power_flow; cbn [fst snd]. rewrite H1. destruct fuel; cbn [adjust_loop fst snd]; rewrite H2; reflexivity. }
  unfold main, process. rewrite HF, E. unfold power_flow; cbn [fst snd]. rewrite H3. reflexivity.
Qed.
