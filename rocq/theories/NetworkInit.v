(** Lemmas for C44. *)
From Coq Require Import String List Bool Arith ZArith Reals Lia Lra.
From Verif Require Import Expr Segment Collect SpecSystem Components SpecComponents UnbalancedLine Network SpecNetwork NetworkProofs NetworkKinds NetworkAssign.
Import ListNotations.

Definition write_all (W : list (nat * R)) (v : nat -> R) : nat -> R := fold_left (fun v w => set_v v (fst w) (snd w)) W v.
Definition functional (W : list (nat * R)) : Prop := forall i x y, In (i, x) W -> In (i, y) W -> x = y.
Lemma write_other W : forall v i, (forall x, ~ In (i, x) W) -> write_all W v i = v i.
Proof.
  induction W as [|[j y] W IH]; intros v i H; [reflexivity|]. unfold write_all; cbn [fold_left fst snd]. fold (write_all W (set_v v j y)).
  rewrite IH by (intros x Hx; apply (H x); right; auto). unfold set_v. destruct (Nat.eqb_spec i j) as [->|]; auto. exfalso; apply (H y); left; auto.
Qed.
Lemma write_value W : functional W -> forall v i x, In (i, x) W -> write_all W v i = x.
Proof.
  induction W as [|[j y] W IH]; intros F v i x H; [destruct H|]. unfold write_all; cbn [fold_left fst snd]. fold (write_all W (set_v v j y)).
  assert (functional W) as F' by (intros k a b Ha Hb; apply (F k); right; auto).
  destruct (in_dec Nat.eq_dec i (map fst W)) as [Hin|Hout].
  - apply in_map_iff in Hin as [[k z] [<- Hz]]; cbn [fst]. rewrite (IH F' _ k z Hz). apply (F k); [right; auto|auto].
  - rewrite write_other. 2:{ intros z Hz; apply Hout; apply in_map_iff; exists (i, z); auto. }
    destruct H as [[= -> ->]|H]; [unfold set_v; now rewrite Nat.eqb_refl|]. exfalso; apply Hout; apply in_map_iff; exists (i, x); auto.
Qed.
Lemma write_app W1 W2 v : write_all (W1 ++ W2) v = write_all W2 (write_all W1 v).
Proof. unfold write_all; apply fold_left_app. Qed.

Section Fold.
Context {A : Type} (f : (nat -> R) -> A -> nat -> R) (g : A -> list (nat * R)).
Lemma fold_writes l : (forall a v, In a l -> f v a = write_all (g a) v) -> forall v, fold_left f l v = write_all (flat_map g l) v.
Proof.
  induction l as [|a l IH]; intros H v; [reflexivity|]. cbn [fold_left flat_map]. rewrite write_app, <- H by (left; auto). apply IH. intros; apply H; right; auto.
Qed.
End Fold.

Lemma elems_nth opt tbl es : forall n k e, nth_error es k = Some e ->
  exists n', n <= n' /\ nth_error (fst (assign_elems opt tbl n es)) k = Some (fst (assign_elem opt tbl n' e)).
Proof.
  induction es as [|e0 es IH]; intros n k e H; [destruct k; discriminate|]. cbn [assign_elems].
  pose proof (elem_size opt tbl n e0) as E. destruct (assign_elem opt tbl n e0) as [s n1] eqn:E1; cbn [snd] in E.
  destruct k as [|k]; cbn [nth_error] in H.
  - injection H as ->. exists n; split; [lia|]. rewrite E1. destruct (assign_elems opt tbl n1 es) as [r n2]. reflexivity.
  - destruct (IH n1 k e H) as [n' [L E']]. exists n'; split; [lia|]. destruct (assign_elems opt tbl n1 es) as [r n2]. exact E'.
Qed.
Lemma stampers_nth old nw k e : NoDup (map bus_id (nw_buses nw)) -> nth_error (elements nw) k = Some e ->
  exists n, bus_count nw <= n /\ nth_error (as_stampers (assign_matrix old nw)) k = Some (fst (assign_elem (optimizing nw) (as_table (assign_matrix old nw)) n e)).
Proof.
  intros ND H. rewrite table_of. unfold assign_matrix.
  destruct (assign_buses_spec (optimizing nw) (nw_buses nw) old 0 ND) as [E0 _].
  destruct (assign_buses (optimizing nw) (nw_buses nw) old 0) as [tbl n0]; cbn [fst snd] in *.
  assert (n0 = bus_count nw) as -> by (rewrite E0; reflexivity).
  destruct (elems_nth (optimizing nw) tbl (elements nw) (bus_count nw) k e H) as [n [L E]]. exists n; split; [exact L|].
  destruct (assign_elems (optimizing nw) tbl (bus_count nw) (elements nw)) as [s n1].
  destruct (match nw_optimization nw with None => ([], n1) | Some l1 => assign_infeasibility l1 tbl n1 (nw_buses nw) end) as [i n2]. exact E.
Qed.
Lemma nth_app_at {A} (a b : list A) k : nth_error (a ++ b) (length a + k) = nth_error b k.
Proof. rewrite nth_error_app2 by lia. f_equal; lia. Qed.
Lemma generator_element nw j g : nth_error (nw_generators nw) j = Some g -> nth_error (elements nw) (generators_at nw + j) = Some (EGen g).
Proof.
  intros H. assert (exists r, elements nw = (nw_lines nw ++ nw_transformers nw ++ map ESlack (nw_slack nw) ++ nw_switches nw) ++ map EGen (nw_generators nw) ++ r) as [r ->].
  { unfold elements; eexists. rewrite <- !app_assoc. reflexivity. }
  unfold generators_at. rewrite nth_app_at. rewrite nth_error_app1 by (rewrite map_length; apply nth_error_Some; congruence). rewrite nth_error_map, H; reflexivity.
Qed.
Lemma slack_element nw j g : nth_error (nw_slack nw) j = Some g -> nth_error (elements nw) (slack_at nw + j) = Some (ESlack g).
Proof.
  intros H. assert (exists r, elements nw = (nw_lines nw ++ nw_transformers nw) ++ map ESlack (nw_slack nw) ++ r) as [r ->].
  { unfold elements; eexists. rewrite <- !app_assoc. reflexivity. }
  unfold slack_at. rewrite nth_app_at. rewrite nth_error_app1 by (rewrite map_length; apply nth_error_Some; congruence). rewrite nth_error_map, H; reflexivity.
Qed.
Lemma in_combine_nth {A B} (l : list A) : forall (m : list B) a b, In (a, b) (combine l m) -> exists j, nth_error l j = Some a /\ nth_error m j = Some b.
Proof.
  induction l as [|x l IH]; intros m a b H; [destruct H|]. destruct m as [|y m]; [destruct H|]. destruct H as [[= -> ->]|H]; [exists 0; auto|].
  destruct (IH m a b H) as [j Hj]; exists (S j); auto.
Qed.
Lemma nth_combine_in {A B} (l : list A) : forall (m : list B) j a b, nth_error l j = Some a -> nth_error m j = Some b -> In (a, b) (combine l m).
Proof.
  induction l as [|x l IH]; intros m j a b H1 H2; [destruct j; discriminate|]. destruct m as [|y m]; [destruct j; discriminate|].
  destruct j as [|j]; cbn in H1, H2; [injection H1 as ->; injection H2 as ->; left; auto|right; eapply IH; eauto].
Qed.
Lemma nth_skipn {A} n (l : list A) j : nth_error (skipn n l) j = nth_error l (n + j).
Proof. revert l; induction n as [|n IH]; intros l; [reflexivity|]. destruct l as [|x l]; [cbn; destruct j; reflexivity|apply IH]. Qed.

Definition opt_list {A} (o : option nat) (x : A) : list (nat * A) := match o with Some i => [(i, x)] | None => [] end.
Definition bus_W (opt flat : bool) (tbl : table) (b : bus) : list (nat * R) :=
  let k := tbl (bus_id b) in
  opt_list (n_Vr k) (if flat then 1 else Vr_init b)%R ++ opt_list (n_Vi k) (if flat then 0 else Vi_init b)%R ++
  (if opt then opt_list (n_Lr k) (1 / 10000)%R ++ opt_list (n_Lr k) (1 / 10000)%R else []).
Definition gen_W (opt flat : bool) (x : generator * list stamper) : list (nat * R) :=
  opt_list (index_in (snd x) "Q"%string) (if flat then (- gen_Qmin (fst x) + - gen_Qmax (fst x)) / 2 else - gen_Qinit (fst x))%R ++
  (if opt then opt_list (index_in (snd x) "lambda_0"%string) (1 / 10000)%R else []).
Definition slack_W (flat : bool) (x : slack * list stamper) : list (nat * R) :=
  opt_list (index_in (snd x) "I_Sr"%string) (if flat then 0 else sl_Pinit (fst x) / 100)%R ++
  opt_list (index_in (snd x) "I_Si"%string) (if flat then 0 else sl_Qinit (fst x) / 100)%R.
Definition tx_W (flat : bool) (nw : network) (a : assigned) : list (nat * R) :=
  flat_map (bus_W (optimizing nw) flat (as_table a)) (nw_buses nw) ++
  flat_map (gen_W (optimizing nw) flat) (stampers_of (nw_generators nw) (generators_at nw) a) ++
  flat_map (slack_W flat) (stampers_of (nw_slack nw) (slack_at nw) a).

Definition gen_details (b : nodes) (n : nat) (opt : bool) : details := fst (two_terminal_details gen_lh b GROUND n opt).
Lemma gen_in old nw g s : network_ok nw -> In (g, s) (stampers_of (nw_generators nw) (generators_at nw) (assign_matrix old nw)) ->
  exists j n c, nth_error (nw_generators nw) j = Some g /\ bus_count nw <= n /\ nth_error (as_stampers (assign_matrix old nw)) (generators_at nw + j) = Some s /\
    s = [(Some (gen_details (at_ref (as_table (assign_matrix old nw)) (gen_bus g)) n (optimizing nw)), c)].
Proof.
  intros OK H. apply in_combine_nth in H as [j [H1 H2]]. rewrite nth_skipn in H2.
  destruct (stampers_nth old nw _ _ (proj1 OK) (generator_element nw j g H1)) as [n [L E]]. rewrite H2 in E. injection E as ->.
  exists j, n, [- gen_P g; gen_Vset g]%R. repeat split; auto.
  cbn [assign_elem]. unfold gen_stampers, gen_details. destruct (two_terminal_details gen_lh (at_ref (as_table (assign_matrix old nw)) (gen_bus g)) GROUND n (optimizing nw)); reflexivity.
Qed.
Lemma gen_all old nw j g : network_ok nw -> nth_error (nw_generators nw) j = Some g ->
  exists s, In (g, s) (stampers_of (nw_generators nw) (generators_at nw) (assign_matrix old nw)) /\ nth_error (as_stampers (assign_matrix old nw)) (generators_at nw + j) = Some s.
Proof.
  intros OK H. destruct (stampers_nth old nw _ _ (proj1 OK) (generator_element nw j g H)) as [n [L E]]. eexists; split; [|exact E].
  eapply nth_combine_in; [exact H|]. rewrite nth_skipn; exact E.
Qed.
Definition slack_details (b : nodes) (n : nat) (opt : bool) : details := fst (two_terminal_details slack_lh b GROUND n opt).
Lemma slack_in old nw g s : network_ok nw -> In (g, s) (stampers_of (nw_slack nw) (slack_at nw) (assign_matrix old nw)) ->
  exists j n c, nth_error (nw_slack nw) j = Some g /\ bus_count nw <= n /\ nth_error (as_stampers (assign_matrix old nw)) (slack_at nw + j) = Some s /\
    s = [(Some (slack_details (at_ref (as_table (assign_matrix old nw)) (sl_bus g)) n (optimizing nw)), c)].
Proof.
  intros OK H. apply in_combine_nth in H as [j [H1 H2]]. rewrite nth_skipn in H2.
  destruct (stampers_nth old nw _ _ (proj1 OK) (slack_element nw j g H1)) as [n [L E]]. rewrite H2 in E. injection E as ->.
  exists j, n, [sl_V g * cos (sl_ang g); sl_V g * sin (sl_ang g)]%R. repeat split; auto.
  cbn [assign_elem]. unfold slack_stampers, slack_details. destruct (two_terminal_details slack_lh (at_ref (as_table (assign_matrix old nw)) (sl_bus g)) GROUND n (optimizing nw)); reflexivity.
Qed.
Lemma slack_all old nw j g : network_ok nw -> nth_error (nw_slack nw) j = Some g ->
  exists s, In (g, s) (stampers_of (nw_slack nw) (slack_at nw) (assign_matrix old nw)) /\ nth_error (as_stampers (assign_matrix old nw)) (slack_at nw + j) = Some s.
Proof.
  intros OK H. destruct (stampers_nth old nw _ _ (proj1 OK) (slack_element nw j g H)) as [n [L E]]. eexists; split; [|exact E].
  eapply nth_combine_in; [exact H|]. rewrite nth_skipn; exact E.
Qed.
Lemma gen_Q b n opt : lookup (sd_var (gen_details b n opt)) "Q"%string = Some (Some n).
Proof. destruct opt; reflexivity. Qed.
Lemma gen_L b n : lookup (sd_var (gen_details b n true)) "lambda_0"%string = Some (Some (S n)).
Proof. reflexivity. Qed.
Lemma slack_r b n opt : lookup (sd_var (slack_details b n opt)) "I_Sr"%string = Some (Some n).
Proof. destruct opt; reflexivity. Qed.
Lemma slack_i b n opt : lookup (sd_var (slack_details b n opt)) "I_Si"%string = Some (Some (S n)).
Proof. destruct opt; reflexivity. Qed.

Lemma tx_init_writes flat old nw : network_ok nw -> tx_init flat nw (assign_matrix old nw) = write_all (tx_W flat nw (assign_matrix old nw)) (fun _ => 0%R).
Proof.
  intros OK. unfold tx_init, tx_W. rewrite !write_app.
  rewrite (fold_writes (init_bus _ flat _) (bus_W (optimizing nw) flat (as_table (assign_matrix old nw)))).
  2:{ intros b v Hb. apply In_nth_error in Hb as [k Hk]. unfold init_bus, bus_W. rewrite (table_bus old nw k b OK Hk). destruct (optimizing nw); reflexivity. }
  rewrite (fold_writes (init_gen _ flat) (gen_W (optimizing nw) flat)).
  2:{ intros [g s] v Hg. destruct (gen_in old nw g s OK Hg) as [j [n [c [_ [_ [_ ->]]]]]]. unfold init_gen, gen_W, index_in; cbn [fst snd].
      rewrite gen_Q. destruct (optimizing nw); reflexivity. }
  rewrite (fold_writes (init_slack flat) (slack_W flat)); [reflexivity|].
  intros [g s] v Hg. destruct (slack_in old nw g s OK Hg) as [j [n [c [_ [_ [_ ->]]]]]]. unfold init_slack, slack_W, index_in; cbn [fst snd].
  rewrite slack_r, slack_i. reflexivity.
Qed.
Lemma in_opt_list {A} o (x : A) i y : In (i, y) (opt_list o x) <-> o = Some i /\ y = x.
Proof. destruct o as [j|]; cbn; split; [intros [[= -> ->]|[]]; auto|intros [[= ->] ->]; auto|tauto|intros [H _]; discriminate]. Qed.
Lemma unknown_index s a k x i c d : nth_error (as_stampers a) k = Some s -> s = [(Some d, c)] -> unknown_at a k x i <-> lookup (sd_var d) x = Some (Some i).
Proof.
  intros E ->; unfold unknown_at; split.
  - intros [d' [c' [s' [H1 H2]]]]. rewrite E in H1; injection H1 as <- _ _; auto.
  - intros H; exists d, c, []; auto.
Qed.
Lemma tx_W_entry flat old nw i x : network_ok nw -> In (i, x) (tx_W flat nw (assign_matrix old nw)) <-> tx_entry flat nw (assign_matrix old nw) i x.
Proof.
  intros OK. unfold tx_W. rewrite !in_app_iff, !in_flat_map. split.
  - intros [[b [Hb H]]|[[[g s] [Hg H]]|[[g s] [Hg H]]]].
    + apply entry_bus with b; auto. unfold bus_W in H. rewrite !in_app_iff, !in_opt_list in H. unfold bus_entry.
      destruct H as [H|[H|H]]; auto. destruct (optimizing nw); [|destruct H]. rewrite in_app_iff, in_opt_list in H. tauto.
    + destruct (gen_in old nw g s OK Hg) as [j [n [c [H1 [H2 [H3 ->]]]]]]. apply entry_generator with j g; auto.
      unfold generator_entry. rewrite !(unknown_index _ _ _ _ _ _ _ H3 eq_refl). unfold gen_W, index_in in H; cbn [fst snd] in H. rewrite gen_Q in *.
      rewrite in_app_iff, in_opt_list in H. destruct H as [[H ->]|H].
      * left; split; [congruence|]. destruct flat; [lra|reflexivity].
      * right. destruct (optimizing nw); [|destruct H]. rewrite gen_L in *. apply in_opt_list in H as [H ->]. repeat split; congruence.
    + destruct (slack_in old nw g s OK Hg) as [j [n [c [H1 [H2 [H3 ->]]]]]]. apply entry_slack with j g; auto.
      unfold slack_entry. rewrite !(unknown_index _ _ _ _ _ _ _ H3 eq_refl). unfold slack_W, index_in in H; cbn [fst snd] in H. rewrite slack_r, slack_i in *.
      rewrite in_app_iff, !in_opt_list in H. destruct H as [[H ->]|[H ->]]; [left|right]; split; congruence.
  - intros [b Hb H|j g Hg H|j g Hg H].
    + left; exists b; split; auto. unfold bus_W. rewrite !in_app_iff, !in_opt_list. destruct H as [H|[H|[-> H]]]; auto.
      right; right. rewrite in_app_iff, in_opt_list; auto.
    + right; left. destruct (gen_all old nw j g OK Hg) as [s [Hin Hs]]. exists (g, s); split; auto.
      destruct (gen_in old nw g s OK Hin) as [j' [n [c [_ [_ [_ Es]]]]]]. unfold generator_entry in H. rewrite !(unknown_index _ _ _ _ _ _ _ Hs Es) in H. subst s.
      unfold gen_W, index_in; cbn [fst snd]. rewrite gen_Q in *. rewrite in_app_iff, in_opt_list. destruct H as [[H ->]|[EO [H ->]]].
      * left; split; [congruence|]. destruct flat; [lra|reflexivity].
      * right. rewrite EO in *. rewrite gen_L in *. apply in_opt_list. split; congruence.
    + right; right. destruct (slack_all old nw j g OK Hg) as [s [Hin Hs]]. exists (g, s); split; auto.
      destruct (slack_in old nw g s OK Hin) as [j' [n [c [_ [_ [_ Es]]]]]]. unfold slack_entry in H. rewrite !(unknown_index _ _ _ _ _ _ _ Hs Es) in H. subst s.
      unfold slack_W, index_in; cbn [fst snd]. rewrite slack_r, slack_i in *. rewrite in_app_iff, !in_opt_list. destruct H as [[H ->]|[H ->]]; [left|right]; split; congruence.
Qed.

Definition owner_of (nw : network) (flat : bool) (a : assigned) (i : nat) (x : R) (o : owner) : Prop :=
  (exists k b, o = OBus k /\ nth_error (nw_buses nw) k = Some b /\ bus_entry (optimizing nw) flat (as_table a) b i x) \/
  (exists j g, o = OElem (generators_at nw + j) /\ nth_error (nw_generators nw) j = Some g /\ generator_entry nw flat a j g i x) \/
  (exists j g, o = OElem (slack_at nw + j) /\ nth_error (nw_slack nw) j = Some g /\ slack_entry nw flat a j g i x).
Lemma gen_stamper old nw j g : network_ok nw -> nth_error (nw_generators nw) j = Some g ->
  exists n c, bus_count nw <= n /\ nth_error (as_stampers (assign_matrix old nw)) (generators_at nw + j) =
    Some [(Some (gen_details (at_ref (as_table (assign_matrix old nw)) (gen_bus g)) n (optimizing nw)), c)].
Proof.
  intros OK H. destruct (stampers_nth old nw _ _ (proj1 OK) (generator_element nw j g H)) as [n [L E]]. exists n, [- gen_P g; gen_Vset g]%R; split; auto.
  rewrite E. cbn [assign_elem]. unfold gen_stampers, gen_details. destruct (two_terminal_details gen_lh (at_ref (as_table (assign_matrix old nw)) (gen_bus g)) GROUND n (optimizing nw)); reflexivity.
Qed.
Lemma slack_stamper old nw j g : network_ok nw -> nth_error (nw_slack nw) j = Some g ->
  exists n c, bus_count nw <= n /\ nth_error (as_stampers (assign_matrix old nw)) (slack_at nw + j) =
    Some [(Some (slack_details (at_ref (as_table (assign_matrix old nw)) (sl_bus g)) n (optimizing nw)), c)].
Proof.
  intros OK H. destruct (stampers_nth old nw _ _ (proj1 OK) (slack_element nw j g H)) as [n [L E]]. exists n, [sl_V g * cos (sl_ang g); sl_V g * sin (sl_ang g)]%R; split; auto.
  rewrite E. cbn [assign_elem]. unfold slack_stampers, slack_details. destruct (two_terminal_details slack_lh (at_ref (as_table (assign_matrix old nw)) (sl_bus g)) GROUND n (optimizing nw)); reflexivity.
Qed.
Lemma unknown_owned old nw k d c i x : network_ok nw -> nth_error (as_stampers (assign_matrix old nw)) k = Some [(Some d, c)] ->
  lookup (sd_var d) x = Some (Some i) -> bus_count nw <= i -> owns nw (assign_matrix old nw) (OElem k) i.
Proof.
  intros OK Hk Hl L. eexists; split; [exact Hk|]. split; [|rewrite bus_index_iff by assumption; lia].
  apply used_in; exists (d, c), x; split; [left; auto|apply lookup_in; auto].
Qed.
Lemma entry_owner flat old nw i x : network_ok nw -> tx_entry flat nw (assign_matrix old nw) i x ->
  exists o, owner_of nw flat (assign_matrix old nw) i x o /\ owns nw (assign_matrix old nw) o i.
Proof.
  intros OK [b Hb H|j g Hg H|j g Hg H].
  - apply In_nth_error in Hb as [k Hk]. exists (OBus k); split; [left; exists k, b; auto|]. exists b; split; auto.
    destruct H as [[H _]|[[H _]|[_ [H _]]]]; auto with node.
  - exists (OElem (generators_at nw + j)); split; [right; left; exists j, g; auto|].
    destruct (gen_stamper old nw j g OK Hg) as [n [c [L E]]]. unfold generator_entry in H. rewrite !(unknown_index _ _ _ _ _ _ _ E eq_refl) in H.
    destruct H as [[H _]|[EO [H _]]]; (eapply unknown_owned; eauto).
    + rewrite gen_Q in H; injection H as <-; auto.
    + rewrite EO, gen_L in H; injection H as <-; lia.
  - exists (OElem (slack_at nw + j)); split; [right; right; exists j, g; auto|].
    destruct (slack_stamper old nw j g OK Hg) as [n [c [L E]]]. unfold slack_entry in H. rewrite !(unknown_index _ _ _ _ _ _ _ E eq_refl) in H.
    destruct H as [[H _]|[H _]]; (eapply unknown_owned; eauto).
    + rewrite slack_r in H; injection H as <-; auto.
    + rewrite slack_i in H; injection H as <-; lia.
Qed.
Lemma slack_before nw : slack_at nw + length (nw_slack nw) <= generators_at nw.
Proof. unfold slack_at, generators_at. rewrite !app_length, map_length. lia. Qed.
Lemma entry_functional flat old nw i x y : network_ok nw -> tx_entry flat nw (assign_matrix old nw) i x -> tx_entry flat nw (assign_matrix old nw) i y -> x = y.
Proof.
  intros OK Hx Hy. destruct (entry_owner flat old nw i x OK Hx) as [o [Px Ox]], (entry_owner flat old nw i y OK Hy) as [o' [Py Oy]].
  assert (o = o') as <- by (eapply one_owner; eauto). clear Hx Hy Ox Oy.
  pose proof (slack_before nw) as SB.
  destruct Px as [[k [b [Eo [Hb H]]]]|[[j [g [Eo [Hg H]]]]|[j [g [Eo [Hg H]]]]]];
  destruct Py as [[k' [b' [Eo' [Hb' H']]]]|[[j' [g' [Eo' [Hg' H']]]]|[j' [g' [Eo' [Hg' H']]]]]]; rewrite Eo in Eo'; try discriminate; injection Eo' as Ek.
  - subst k'. rewrite Hb in Hb'; injection Hb' as <-. unfold bus_entry in *. rewrite (table_bus old nw k b OK Hb) in *. cbn [n_Vr n_Vi n_Lr new_nodes] in *.
    destruct H as [[H ->]|[[H ->]|[EO [H ->]]]], H' as [[H' ->]|[[H' ->]|[EO' [H' ->]]]]; try reflexivity; exfalso;
      try rewrite EO in *; try rewrite EO' in *; injection H as H; injection H' as H'; lia.
  - assert (j' = j) as -> by lia. rewrite Hg in Hg'; injection Hg' as <-. destruct (gen_stamper old nw j g OK Hg) as [n [c [L E]]].
    unfold generator_entry in *. rewrite !(unknown_index _ _ _ _ _ _ _ E eq_refl) in *. rewrite gen_Q in *.
    destruct H as [[H ->]|[EO [H ->]]], H' as [[H' ->]|[EO' [H' ->]]]; try reflexivity; exfalso; try rewrite EO in *; try rewrite EO' in *; rewrite gen_L in *; injection H as H; injection H' as H'; lia.
  - exfalso. assert (j' < length (nw_slack nw)) by (apply nth_error_Some; congruence). lia.
  - exfalso. assert (j < length (nw_slack nw)) by (apply nth_error_Some; congruence). lia.
  - assert (j' = j) as -> by lia. rewrite Hg in Hg'; injection Hg' as <-. destruct (slack_stamper old nw j g OK Hg) as [n [c [L E]]].
    unfold slack_entry in *. rewrite !(unknown_index _ _ _ _ _ _ _ E eq_refl) in *. rewrite slack_r, slack_i in *.
    destruct H as [[H ->]|[H ->]], H' as [[H' ->]|[H' ->]]; try reflexivity; exfalso; injection H as H; injection H' as H'; lia.
Qed.
Lemma tx_init_values flat old nw : network_ok nw ->
  let a := assign_matrix old nw in
  (forall i x, tx_entry flat nw a i x -> tx_init flat nw a i = x) /\
  (forall i, (forall x, ~ tx_entry flat nw a i x) -> tx_init flat nw a i = 0%R).
Proof.
  intros OK a; unfold a. rewrite (tx_init_writes flat old nw OK). split.
  - intros i x H. apply write_value; [|apply tx_W_entry; auto]. intros j p q Hp Hq. apply tx_W_entry in Hp, Hq; auto. eapply entry_functional; eauto.
  - intros i H. rewrite write_other; auto. intros x Hx; apply tx_W_entry in Hx; auto. exact (H x Hx).
Qed.
Lemma tx_init_Li flat old nw b i : network_ok nw -> In b (nw_buses nw) -> n_Li (as_table (assign_matrix old nw) (bus_id b)) = Some i ->
  tx_init flat nw (assign_matrix old nw) i = 0%R.
Proof.
  intros OK Hb Hi. apply tx_init_values; auto. intros x H. destruct (entry_owner flat old nw i x OK H) as [o [P O]].
  apply In_nth_error in Hb as [k Hk].
  assert (o = OBus k) as -> by (apply (one_owner old nw _ _ i OK O); exists b; split; auto with node).
  destruct P as [[k' [b' [[= <-] [Hb' H']]]]|[[j [g [Eo _]]]|[j [g [Eo _]]]]]; [|discriminate..].
  rewrite Hk in Hb'; injection Hb' as <-. unfold bus_entry in H'. rewrite (table_bus old nw k b OK Hk) in *. cbn [n_Vr n_Vi n_Lr n_Li new_nodes] in *.
  destruct (optimizing nw); [|discriminate]. injection Hi as Hi. destruct H' as [[H' _]|[[H' _]|[_ [H' _]]]]; injection H' as H'; lia.
Qed.

(** three-phase networks *)
Definition dx_W (tbl : table) (b : bus) : list (nat * R) := opt_list (n_Vr (tbl (bus_id b))) (Vr_init b) ++ opt_list (n_Vi (tbl (bus_id b))) (Vi_init b).
Definition put_zero (v : nat -> R) (w : nat * R) : nat -> R := put_if_zero v (Some (fst w)) (snd w).
Lemma dx_fold tbl bs : forall v, fold_left (fun v b => let k := tbl (bus_id b) in put_if_zero (put_if_zero v (n_Vr k) (Vr_init b)) (n_Vi k) (Vi_init b)) bs v =
  fold_left put_zero (flat_map (dx_W tbl) bs) v.
Proof.
  induction bs as [|b bs IH]; intros v; [reflexivity|]. cbn [fold_left flat_map]. rewrite fold_left_app, IH. f_equal. unfold dx_W.
  destruct (n_Vr (tbl (bus_id b))), (n_Vi (tbl (bus_id b))); reflexivity.
Qed.
Lemma is0_spec x : if is0 x then x = 0%R else x <> 0%R.
Proof. unfold is0; destruct (Req_EM_T x 0); auto. Qed.
Lemma zero_writes W : functional W -> forall V v, incl V W -> (forall i, v i = 0%R \/ In (i, v i) W) ->
  let r := fold_left put_zero V v in
  (forall i, r i = 0%R \/ In (i, r i) W) /\ (forall i x, In (i, x) V -> r i = x) /\ (forall i, (forall x, ~ In (i, x) V) -> r i = v i).
Proof.
  intros F V. induction V as [|[j y] V IH]; intros v Hin HI; cbn [fold_left].
  - repeat split; auto. intros i x [].
  - assert (In (j, y) W) as Hj by (apply Hin; left; auto).
    assert (forall i, put_zero v (j, y) i = if Nat.eqb i j then y else v i) as E.
    { intros i; unfold put_zero, put_if_zero; cbn [fst snd]. pose proof (is0_spec (v j)) as Z. destruct (is0 (v j)).
      - unfold set_v. reflexivity.
      - destruct (Nat.eqb_spec i j) as [->|]; auto. destruct (HI j) as [Z'|Z']; [contradiction|]. eapply F; eauto. }
    assert (forall i, put_zero v (j, y) i = 0%R \/ In (i, put_zero v (j, y) i) W) as HI'.
    { intros i; rewrite E. destruct (Nat.eqb_spec i j) as [->|]; auto. }
    destruct (IH (put_zero v (j, y)) (fun w Hw => Hin w (or_intror Hw)) HI') as [H1 [H2 H3]]. repeat split; auto.
    + intros i x [[= -> ->]|H]; [|auto]. destruct (in_dec Nat.eq_dec i (map fst V)) as [Hm|Hm].
      * apply in_map_iff in Hm as [[k z] [Hk Hz]]; cbn [fst] in Hk; subst k. rewrite (H2 i z Hz). apply (F i); auto. apply Hin; right; auto.
      * rewrite H3; [rewrite E, Nat.eqb_refl; auto|]. intros z Hz; apply Hm; apply in_map_iff; exists (i, z); auto.
    + intros i H. rewrite H3 by (intros x Hx; apply (H x); right; auto). rewrite E. destruct (Nat.eqb_spec i j) as [->|]; auto.
      exfalso; apply (H y); left; auto.
Qed.
Lemma dx_in old nw i x : network_ok nw -> In (i, x) (flat_map (dx_W (as_table (assign_matrix old nw))) (nw_buses nw)) <->
  exists b, In b (nw_buses nw) /\ (n_Vr (as_table (assign_matrix old nw) (bus_id b)) = Some i /\ x = Vr_init b \/ n_Vi (as_table (assign_matrix old nw) (bus_id b)) = Some i /\ x = Vi_init b).
Proof.
  intros OK. rewrite in_flat_map. unfold dx_W. split; intros [b [Hb H]]; exists b; split; auto; rewrite in_app_iff, !in_opt_list in *; auto.
Qed.
Lemma dx_functional old nw : network_ok nw -> functional (flat_map (dx_W (as_table (assign_matrix old nw))) (nw_buses nw)).
Proof.
  intros OK i x y Hx Hy. apply dx_in in Hx as [b [Hb Hx]], Hy as [b' [Hb' Hy]]; auto.
  apply In_nth_error in Hb as [k Hk], Hb' as [k' Hk'].
  assert (OBus k = OBus k') as E. { apply (one_owner old nw _ _ i OK); [exists b|exists b']; split; auto; [destruct Hx as [[Hx _]|[Hx _]]|destruct Hy as [[Hy _]|[Hy _]]]; auto with node. }
  injection E as <-. rewrite Hk in Hk'; injection Hk' as <-. rewrite (table_bus old nw k b OK Hk) in *. cbn [n_Vr n_Vi new_nodes] in *.
  destruct Hx as [[Hx ->]|[Hx ->]], Hy as [[Hy ->]|[Hy ->]]; try reflexivity; exfalso; injection Hx as Hx; injection Hy as Hy; lia.
Qed.
Lemma dx_init_values old nw : network_ok nw ->
  let a := assign_matrix old nw in
  (forall b i, In b (nw_buses nw) -> n_Vr (as_table a (bus_id b)) = Some i -> dx_init nw a i = (bus_Vm b * cos (bus_Va b))%R) /\
  (forall b i, In b (nw_buses nw) -> n_Vi (as_table a (bus_id b)) = Some i -> dx_init nw a i = (bus_Vm b * sin (bus_Va b))%R) /\
  (forall i, (forall b, In b (nw_buses nw) -> n_Vr (as_table a (bus_id b)) <> Some i /\ n_Vi (as_table a (bus_id b)) <> Some i) -> dx_init nw a i = 0%R).
Proof.
  intros OK a; unfold a, dx_init. rewrite dx_fold.
  destruct (zero_writes _ (dx_functional old nw OK) _ (fun _ => 0%R) (incl_refl _) (fun i => or_introl eq_refl)) as [_ [H2 H3]].
  split; [|split].
  - intros b i Hb Hi. apply H2. apply dx_in; auto. exists b; auto.
  - intros b i Hb Hi. apply H2. apply dx_in; auto. exists b; auto.
  - intros i H. apply H3. intros x Hx. apply dx_in in Hx as [b [Hb Hx]]; auto. destruct (H b Hb). tauto.
Qed.

(** the elements that take part *)
Lemma takes_part_iff nw e : takes_part nw e <-> In e (elements nw).
Proof.
  unfold elements. split.
  - intros H. rewrite !in_app_iff, !in_map_iff. destruct H; try rewrite H; rewrite ?in_app_iff; eauto 14.
  - rewrite !in_app_iff, !in_map_iff. intros [H|[H|[H|[H|[H|[H|[H|H]]]]]]].
    + now apply part_line. + now apply part_transformer. + destruct H as (s & <- & H). now apply part_slack. + now apply part_switch.
    + destruct H as (s & <- & H). now apply part_generator. + now apply part_load. + now apply part_misc.
    + destruct (nw_three_phase nw) eqn:E; rewrite ?in_app_iff in H.
      * destruct H as [H|[H|H]]; [now apply part_regulator|now apply part_fuse|now apply part_capacitor].
      * destruct H as [H|H]; [now apply part_source|now apply part_shunt].
Qed.
Lemma elems_length opt tbl es : forall n, length (fst (assign_elems opt tbl n es)) = length es.
Proof. induction es as [|e es IH]; intros n; [reflexivity|]. cbn. destruct (assign_elem opt tbl n e) as [s n1]. specialize (IH n1). destruct (assign_elems opt tbl n1 es). cbn in *. now rewrite IH. Qed.
Lemma stampers_length old nw : length (as_stampers (assign_matrix old nw)) = length (elements nw).
Proof.
  unfold assign_matrix. destruct (assign_buses (optimizing nw) (nw_buses nw) old 0) as [tbl n0]. pose proof (elems_length (optimizing nw) tbl (elements nw) n0) as L.
  destruct (assign_elems (optimizing nw) tbl n0 (elements nw)) as [s n1]. cbn [fst] in L.
  destruct (match nw_optimization nw with None => ([], n1) | Some l1 => assign_infeasibility l1 tbl n1 (nw_buses nw) end) as [i n2]. exact L.
Qed.
Lemma all_take_part old nw : NoDup (map bus_id (nw_buses nw)) ->
  let a := assign_matrix old nw in
  (forall e, takes_part nw e -> exists k n, nth_error (as_stampers a) k = Some (fst (assign_elem (optimizing nw) (as_table a) n e))) /\
  (forall k s, nth_error (as_stampers a) k = Some s -> exists e n, takes_part nw e /\ s = fst (assign_elem (optimizing nw) (as_table a) n e)).
Proof.
  intros ND a. split.
  - intros e H. apply takes_part_iff in H. apply In_nth_error in H as [k H]. destruct (stampers_nth old nw k e ND H) as (n & _ & E). eauto.
  - intros k s H. assert (L : k < length (elements nw)) by (rewrite <- (stampers_length old); apply nth_error_Some; fold a; congruence).
    destruct (nth_error (elements nw) k) as [e|] eqn:E; [|apply nth_error_Some in L; contradiction].
    destruct (stampers_nth old nw k e ND E) as (n & _ & X). fold a in X. rewrite X in H. injection H as <-. exists e, n. split; auto. apply takes_part_iff. eapply nth_error_In; eauto.
Qed.
