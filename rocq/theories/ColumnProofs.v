(** Proofs for C155. *)
From Coq Require Import Reals ZArith String List Bool Arith Lra Lia.
From Verif Require Import PyExc Results SpecResults ResultsProofs ThreePhase RawParser Loader PowerFlow Report.
From Verif Require Import Expr Collect SpecSystem Components SpecComponents ComponentsProofs ElementProofs SpecUnbalanced Network SpecNetwork NetworkAssign NetworkInit SpecKirchhoff KirchhoffProofs KirchhoffNet
  SpecNetLeast SpecBalance BalanceProofs BalanceFinal SpecColumn.
Import ListNotations.
Local Open Scope R_scope.

Section Rows.
Variables (V : bref -> C) (v : nat -> R).
(** what an entry of the account has to do with the stampers of its element *)
Definition matches (x : elem * currents * list R) (s : list stamper) : Prop :=
  match fst (fst x) with
  | ESlack sl => exists n, index_in s "I_Sr"%string = Some n /\ index_in s "I_Si"%string = Some (S n) /\ snd (fst x) = [(Network.sl_bus sl, (v n, v (S n)))]
  | EGen g => exists n, index_in s "Q"%string = Some n /\ snd (fst x) = [(gen_bus g, Copp (Copp (pq_current (- gen_P g) (v n) (V (gen_bus g)))))]
  | _ => True
  end.
Lemma lockstep tbl es : forall n, Forall2 matches (account_of V v n es) (fst (assign_elems false tbl n es)).
Proof.
  induction es as [|e es IH]; intros n; [constructor|]. cbn [account_of assign_elems]. pose proof (elem_size false tbl n e) as Sz.
  assert (M : matches (e, KirchhoffProofs.draws V e (fun j => v (n + j)%nat), KirchhoffProofs.laws V e (fun j => v (n + j)%nat)) (fst (assign_elem false tbl n e))).
  { unfold matches. cbn [fst snd]. destruct e; try exact I; exists n.
    - split; [reflexivity|]. split; [reflexivity|]. cbn [KirchhoffProofs.draws]. unfold pair_of. now rewrite Nat.add_0_r, Nat.add_1_r.
    - split; [reflexivity|]. cbn [KirchhoffProofs.draws]. now rewrite Nat.add_0_r. }
  destruct (assign_elem false tbl n e) as [s n1]. cbn [fst snd] in M, Sz. replace (n + 1 * own_unknowns e)%nat with (n + own_unknowns e)%nat in Sz by lia. subst n1.
  specialize (IH (n + own_unknowns e)%nat). destruct (assign_elems false tbl (n + own_unknowns e) es) as [rest n2]. cbn [fst] in *. constructor; assumption.
Qed.
End Rows.

Lemma filter_none {A} (p : A -> bool) l : length (filter p l) = 0%nat -> filter p l = [].
Proof. destruct (filter p l); [reflexivity|discriminate]. Qed.
Lemma filter_all {A} (p : A -> bool) l : (forall x, In x l -> p x = true) -> filter p l = l.
Proof. induction l as [|x l IH]; intros H; [reflexivity|]. cbn. rewrite (H x (or_introl eq_refl)). f_equal. apply IH. intros; apply H; now right. Qed.
Lemma only_elems p ac : map (fun x : elem * currents * list R => fst (fst x)) (only p ac) = filter p (map (fun x => fst (fst x)) ac).
Proof. unfold only. induction ac as [|x ac IH]; [reflexivity|]. cbn. destruct (p (fst (fst x))); cbn; now rewrite IH. Qed.
Lemma total_app V a b : total V (a ++ b) = Cadd (total V a) (total V b).
Proof. induction a as [|x a IH]; cbn [app]; [rewrite Cadd_0l; reflexivity|]. rewrite !total_cons, IH. cring. Qed.
Lemma only_none p ac : filter p (map (fun x : elem * currents * list R => fst (fst x)) ac) = [] -> only p ac = [].
Proof. rewrite <- only_elems. destruct (only p ac); [reflexivity|discriminate]. Qed.
Lemma only_all p ac : (forall e, In e (map (fun x : elem * currents * list R => fst (fst x)) ac) -> p e = true) -> only p ac = ac.
Proof. intros H. apply filter_all. intros x Hx. apply H. now apply (in_map (fun x : elem * currents * list R => fst (fst x))). Qed.
Lemma Forall2_app_l {A B} (R : A -> B -> Prop) a b l : Forall2 R (a ++ b) l -> Forall2 R a (firstn (length a) l) /\ Forall2 R b (skipn (length a) l).
Proof.
  revert l. induction a as [|x a IH]; intros l H; cbn [length firstn skipn app] in *; [split; [constructor|exact H]|]. inversion H as [|? y ? m H1 H2]. subst. destruct (IH _ H2) as [I1 I2]. cbn [firstn skipn]. split; [constructor|]; assumption.
Qed.
Lemma combine_firstn {A B} (l : list A) (m : list B) : combine l (firstn (length l) m) = combine l m.
Proof. revert m. induction l as [|x l IH]; intros [|y m]; cbn; try reflexivity. now rewrite IH. Qed.
Lemma skipn_skipn' {A} (a b : nat) (l : list A) : skipn a (skipn b l) = skipn (b + a) l.
Proof. revert l. induction b as [|b IH]; intros l; [reflexivity|]. destruct l as [|x l]; cbn [skipn Nat.add]; [apply skipn_nil|apply IH]. Qed.

Section Net.
Variables (old : Network.table) (r : Loader.network) (nw : Network.network) (v : nat -> R).
Hypothesis OK : network_ok nw.
Hypothesis NO : nw_optimization nw = None.
Let a := assign_matrix old nw.
Let V := voltages a v.
Let gens := map (fun g => gen_res v (snd g)) (gens_of a r nw).
Let slacks := map (fun s => slack_res v (snd s)) (slacks_of a r nw).
Let ac0 := account_of V v (2 * length (nw_buses nw)) (elements nw).

Lemma stampers_are : as_stampers a = fst (assign_elems false (as_table a) (2 * length (nw_buses nw)) (elements nw)).
Proof.
  assert (T : as_table a = fst (assign_buses false (nw_buses nw) old 0)) by (unfold a; rewrite table_of; unfold optimizing; now rewrite NO).
  rewrite T. unfold a, assign_matrix, optimizing. rewrite NO. destruct (assign_buses_spec false (nw_buses nw) old 0 (proj1 OK)) as [Sz _].
  destruct (assign_buses false (nw_buses nw) old 0) as [tbl n0]. cbn [snd fst] in *. cbn [per_bus Nat.add] in Sz. subst n0. destruct (assign_elems false tbl (2 * length (nw_buses nw)) (elements nw)) as [s n1]. reflexivity.
Qed.
Lemma in_step : Forall2 (matches V v) ac0 (as_stampers a).
Proof. rewrite stampers_are. apply lockstep. Qed.
Lemma slack_volt s k : In s (nw_slack nw) -> Network.sl_bus s = Some k -> at2 v (indexes a k) = V (Some k).
Proof.
  intros Hs E. assert (In k (map bus_id (nw_buses nw))) as Hk.
  { apply (proj2 OK (ESlack s)); [unfold elements; rewrite !in_app_iff; right; right; left; now apply in_map|]. cbn. now left. }
  destruct (bus_at nw _ Hk) as (j & b & Hb & <-). pose proof (table_at old nw OK NO j b Hb) as TA. unfold V, voltages, indexes, at_ref. cbn [fst]. fold a in TA. rewrite TA. reflexivity.
Qed.
(** entries of the account for the rows of slacks and generators *)
Lemma parts_of : sources_listed nw -> exists aS aG, map (fun x => fst (fst x)) aS = map ESlack (nw_slack nw) /\ map (fun x => fst (fst x)) aG = map EGen (nw_generators nw) /\
  only is_source ac0 = aS ++ aG /\ Forall2 (matches V v) aS (firstn (length (nw_slack nw)) (skipn (slack_at nw) (as_stampers a))) /\
  Forall2 (matches V v) aG (firstn (length (nw_generators nw)) (skipn (generators_at nw) (as_stampers a))).
Proof.
  intros [SL _]. pose proof in_step as ST. pose proof (account_elems V v (elements nw) (2 * length (nw_buses nw))) as E. fold ac0 in E.
  set (A := nw_lines nw ++ nw_transformers nw). set (B := nw_switches nw).
  set (D := nw_loads nw ++ nw_misc nw ++ (if nw_three_phase nw then nw_regulators nw ++ nw_fuses nw ++ nw_capacitors nw else nw_sources nw ++ nw_shunts nw)).
  assert (EL : elements nw = A ++ map ESlack (nw_slack nw) ++ B ++ map EGen (nw_generators nw) ++ D) by (unfold A, B, D, elements; rewrite <- !app_assoc; reflexivity).
  rewrite EL in E, SL. rewrite !filter_app in SL.
  assert (FS : filter is_source (map ESlack (nw_slack nw)) = map ESlack (nw_slack nw)) by (apply filter_all; intros x Hx; apply in_map_iff in Hx as (s & <- & _); reflexivity).
  assert (FG : filter is_source (map EGen (nw_generators nw)) = map EGen (nw_generators nw)) by (apply filter_all; intros x Hx; apply in_map_iff in Hx as (s & <- & _); reflexivity).
  rewrite FS, FG in SL. pose proof (f_equal (@length _) SL) as LE. rewrite !app_length in LE.
  assert (FA : filter is_source A = []) by (apply filter_none; lia). assert (FB : filter is_source B = []) by (apply filter_none; lia). assert (FD : filter is_source D = []) by (apply filter_none; lia).
  apply map_eq_app in E as (aA & r1 & E1 & EA & E). apply map_eq_app in E as (aS & r2 & E2 & ES & E). apply map_eq_app in E as (aB & r3 & E3 & EB & E). apply map_eq_app in E as (aG & aD & E4 & EG & ED). subst r1 r2 r3.
  exists aS, aG. split; [exact ES|]. split; [exact EG|].
  assert (LA : length aA = slack_at nw) by (rewrite <- (map_length (fun x => fst (fst x)) aA), EA; reflexivity).
  assert (LS : length aS = length (nw_slack nw)) by (rewrite <- (map_length (fun x => fst (fst x)) aS), ES, map_length; reflexivity).
  assert (LB : length aB = length B) by (rewrite <- (map_length (fun x => fst (fst x)) aB), EB; reflexivity).
  assert (LG : length aG = length (nw_generators nw)) by (rewrite <- (map_length (fun x => fst (fst x)) aG), EG, map_length; reflexivity).
  assert (LX : generators_at nw = (slack_at nw + (length (nw_slack nw) + length B))%nat) by (unfold generators_at, slack_at, B; rewrite !app_length, map_length; lia).
  split.
  - rewrite E1. unfold only. rewrite !filter_app. fold (only is_source aA) (only is_source aS) (only is_source aB) (only is_source aG) (only is_source aD).
    rewrite (only_none _ aA), (only_none _ aB), (only_none _ aD) by congruence. rewrite (only_all _ aS), (only_all _ aG).
    + now rewrite app_nil_r.
    + rewrite EG. intros e He. apply in_map_iff in He as (s & <- & _). reflexivity.
    + rewrite ES. intros e He. apply in_map_iff in He as (s & <- & _). reflexivity.
  - rewrite E1 in ST. apply Forall2_app_l in ST as [_ ST]. rewrite LA in ST. apply Forall2_app_l in ST as [S1 ST]. rewrite LS in S1, ST. rewrite skipn_skipn' in ST. apply Forall2_app_l in ST as [_ ST]. rewrite skipn_skipn', LB in ST.
    apply Forall2_app_l in ST as [S2 _]. rewrite LG in S2. split; [exact S1|]. replace (generators_at nw) with (slack_at nw + length (nw_slack nw) + length B)%nat by lia. exact S2.
Qed.
Lemma rows_match : sources_listed nw -> energised nw V -> exists aS aG, only is_source ac0 = aS ++ aG /\ Forall2 (slack_row V) aS slacks /\ Forall2 (gen_row V) aG gens.
Proof.
  intros SL EN. destruct (parts_of SL) as (aS & aG & ES & EG & O & S1 & S2). exists aS, aG. split; [exact O|]. destruct SL as [_ SB]. clear O. split.
  - unfold slacks, slacks_of, stampers_of. rewrite <- combine_firstn, !map_map. cbn [snd]. revert ES S1. assert (IN : forall s, In s (nw_slack nw) -> In s (nw_slack nw)) by auto. revert IN.
    generalize (firstn (length (nw_slack nw)) (skipn (slack_at nw) (as_stampers a))) as st.
    enough (G : forall ss st, (forall s, In s ss -> In s (nw_slack nw)) -> map (fun x : elem * currents * list R => fst (fst x)) aS = map ESlack ss -> Forall2 (matches V v) aS st ->
      Forall2 (slack_row V) aS (map (fun x => slack_res v {| rs_bus := match Network.sl_bus (fst x) with Some k => indexes a k | None => (0, 0)%nat end;
        rs_I := (or0 (index_in (snd x) "I_Sr"%string), or0 (index_in (snd x) "I_Si"%string)) |}) (combine ss st))) by (intros st; apply G).
    clear S2 EG aG. induction aS as [|[[e I0] m] aS IH]; intros [|s ss] st IN ES S1; cbn in ES; try discriminate; [inversion S1; constructor|]. injection ES as -> ES. inversion S1 as [|? y ? st' M S1' X1 X2]. subst. cbn [combine map]. constructor.
    + unfold matches in M. cbn [fst snd] in M. destruct M as (n & M1 & M2 & ->). exists s, (v n, v (S n)). split; [reflexivity|]. cbn [slack_res Results.rs_bus Results.rs_I gr_P gr_Q fst snd]. rewrite M1, M2. cbn [PowerFlow.or0].
      destruct (Network.sl_bus s) as [k|] eqn:B; [|exfalso; exact (SB s (IN s (or_introl eq_refl)) B)]. rewrite <- (slack_volt s k (IN s (or_introl eq_refl)) B). split; reflexivity.
    + apply IH; [intros z Hz; apply IN; now right|exact ES|exact S1'].
  - unfold gens, gens_of, stampers_of. rewrite <- combine_firstn, !map_map. cbn [snd]. revert EG S2. assert (IN : forall s, In s (nw_generators nw) -> In s (nw_generators nw)) by auto. revert IN.
    generalize (firstn (length (nw_generators nw)) (skipn (generators_at nw) (as_stampers a))) as st.
    enough (G : forall ss st, (forall s, In s ss -> In s (nw_generators nw)) -> map (fun x : elem * currents * list R => fst (fst x)) aG = map EGen ss -> Forall2 (matches V v) aG st ->
      Forall2 (gen_row V) aG (map (fun x => gen_res v {| rg_P := - gen_P (fst x); rg_Q := or0 (index_in (snd x) "Q"%string) |}) (combine ss st))) by (intros st; apply G).
    clear S1 ES aS. induction aG as [|[[e I0] m] aG IH]; intros [|s ss] st IN ES S1; cbn in ES; try discriminate; [inversion S1; constructor|]. injection ES as -> ES. inversion S1 as [|? y ? st' M S1' X1 X2]. subst. cbn [combine map]. constructor.
    + unfold matches in M. cbn [fst snd] in M. destruct M as (n & M1 & ->). exists s, (Copp (Copp (pq_current (- gen_P s) (v n) (V (gen_bus s))))). split; [reflexivity|]. cbn [gen_res Results.rg_P Results.rg_Q gr_P gr_Q fst snd]. rewrite M1. cbn [PowerFlow.or0].
      assert (NZ : V (gen_bus s) <> C0) by (apply (proj2 EN s); unfold elements; rewrite !in_app_iff; do 4 right; left; apply in_map, IN; now left).
      assert (QQ : forall c, Copp (Copp c) = c) by (intros [x y']; cring). rewrite QQ. symmetry. apply pq_power. exact NZ.
    + apply IH; [intros z Hz; apply IN; now right|exact ES|exact S1'].
Qed.
End Net.
