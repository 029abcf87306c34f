(** Proofs for C152: balance. *)
From Coq Require Import Reals List Bool Arith Lra Lia.
From Verif Require Import SpecSystem Components SpecComponents SpecUnbalanced UnbalancedProofs Network SpecNetwork SpecKirchhoff KirchhoffNet SpecNetInfeas NetInfeasFinal SpecNetLeast SpecBalance BalanceProofs.
Import ListNotations.
Local Open Scope R_scope.

(** *** currents only at the ends *)
Lemma behaves_refs V e I m : behaves V e I m -> incl (map fst I) (refs e).
Proof.
  intros B. inversion B; subst; clear B; try (intros b Hb; cbn in Hb |- *; tauto); try solve [intros bb Hb; cbn in Hb |- *; tauto].
  all: intros r Hr. apply in_map_iff in Hr as [p [<- Hp]]. apply in_flat_map in Hp as [i [Hi Hp]]. apply in_seq in Hi. destruct Hp as [<-|[<-|[]]]; cbn [fst];
  [exact (unb_ref ph g b B0 i true (proj2 Hi))|exact (unb_ref ph g b B0 i false (proj2 Hi))].
Qed.
(** *** Tellegen *)
Definition by_bus (V : bref -> C) (I : currents) (ids : list nat) : C := fold_right (fun k acc => Cadd (power (V (Some k)) (drawn k I)) acc) C0 ids.
Lemma by_bus_cons V I k ids : by_bus V I (k :: ids) = Cadd (power (V (Some k)) (drawn k I)) (by_bus V I ids).
Proof. reflexivity. Qed.
Lemma drawn_some k j c I : drawn k ((Some j, c) :: I) = if Nat.eqb j k then Cadd c (drawn k I) else drawn k I.
Proof. reflexivity. Qed.
Lemma total_cons V x ac : total V (x :: ac) = Cadd (absorbed V (snd (fst x))) (total V ac).
Proof. reflexivity. Qed.
Lemma by_bus_nil V ids : by_bus V [] ids = C0.
Proof. induction ids as [|k ids IH]; [reflexivity|]. rewrite by_bus_cons, IH. change (drawn k []) with C0. cring. Qed.
Lemma by_bus_none V c I ids : by_bus V ((None, c) :: I) ids = by_bus V I ids.
Proof. reflexivity. Qed.
Lemma by_bus_away V j c I ids : ~ In j ids -> by_bus V ((Some j, c) :: I) ids = by_bus V I ids.
Proof.
  induction ids as [|k ids IH]; intros H; [reflexivity|]. rewrite !by_bus_cons, drawn_some.
  destruct (Nat.eqb_spec j k) as [->|Q]; [elim H; now left|]. rewrite IH; [reflexivity|]. intros X. apply H. now right.
Qed.
Lemma by_bus_at V j c I ids : NoDup ids -> In j ids -> by_bus V ((Some j, c) :: I) ids = Cadd (power (V (Some j)) c) (by_bus V I ids).
Proof.
  induction ids as [|k ids IH]; intros N H; [elim H|]. inversion N as [|? ? N1 N2]; subst. rewrite !by_bus_cons, drawn_some.
  destruct (Nat.eqb_spec j k) as [->|Q].
  - rewrite by_bus_away by exact N1. cring.
  - destruct H as [H|H]; [now elim Q|]. rewrite (IH N2 H). cring.
Qed.
Lemma tellegen V I ids : NoDup ids -> V None = C0 -> (forall k, In (Some k) (map fst I) -> In k ids) -> absorbed V I = by_bus V I ids.
Proof.
  intros N Z. induction I as [|[[j|] c] I IH]; intros H.
  - now rewrite by_bus_nil.
  - rewrite by_bus_at by (try exact N; apply H; now left). rewrite <- IH by (intros k Hk; apply H; now right). reflexivity.
  - rewrite by_bus_none, <- IH by (intros k Hk; apply H; now right). cbn [absorbed fold_right fst snd]. fold (absorbed V I). rewrite Z. destruct (absorbed V I). cring.
Qed.
Lemma total_flat V ac : total V ac = absorbed V (flat_map (fun x => snd (fst x)) ac).
Proof. induction ac as [|x ac IH]; cbn [total fold_right flat_map]; [reflexivity|]. now rewrite absorbed_app, <- IH. Qed.
Lemma account_refs V nw ac : network_ok nw -> accounts_for V nw ac -> forall k, In (Some k) (map fst (flat_map (fun x => snd (fst x)) ac)) -> In k (map bus_id (nw_buses nw)).
Proof.
  intros [_ OK] [Ids B] k H. apply in_map_iff in H as [p [E Hp]]. apply in_flat_map in Hp as [x [Hx Hp]]. rewrite Forall_forall in B. specialize (B x Hx).
  apply (OK (fst (fst x))); [rewrite <- Ids; now apply (in_map (fun x => fst (fst x)))|]. apply (behaves_refs _ _ _ _ B). rewrite <- E. now apply in_map.
Qed.
Lemma at_buses_from V (J : bus -> C) : forall n bs, fold_right (fun x acc => Cadd (power (V (Some (bus_id (snd x)))) (J (snd x))) acc) C0 (combine (seq n (length bs)) bs)
  = fold_right (fun b acc => Cadd (power (V (Some (bus_id b))) (J b)) acc) C0 bs.
Proof. intros n bs. revert n. induction bs as [|b bs IH]; intros n; cbn; [reflexivity|]. now rewrite IH. Qed.
Lemma by_bus_map V I bs : by_bus V I (map bus_id bs) = fold_right (fun b acc => Cadd (power (V (Some (bus_id b))) (drawn (bus_id b) I)) acc) C0 bs.
Proof. induction bs as [|b bs IH]; [reflexivity|]. cbn [map fold_right]. now rewrite by_bus_cons, IH. Qed.
Lemma balance_total nw V ac : network_ok nw -> V None = C0 -> accounts_for V nw ac -> total V ac = at_buses nw V (fun _ b => net_current (bus_id b) ac).
Proof.
  intros OK Z A. rewrite total_flat, (tellegen V _ _ (proj1 OK) Z (account_refs V nw ac OK A)), by_bus_map. unfold at_buses. symmetry. exact (at_buses_from V (fun b => net_current (bus_id b) ac) 0 (nw_buses nw)).
Qed.
(** *** parts *)
Lemma parts V ac : total V ac = Csub (Cadd (delivered V ac) (lost V ac)) (supplied V ac).
Proof.
  unfold delivered, lost, supplied. induction ac as [|x ac IH]; [apply injective_projections; cbn; ring|]. rewrite total_cons, IH. unfold only. cbn [filter].
  unfold is_carrier. destruct (fst (fst x)); cbn [is_source is_demand negb andb]; rewrite ?total_cons; cring.
Qed.

(** *** passive elements *)
Lemma over_real Y d : 0 <= fst Y -> 0 <= fst (over Y d).
Proof. intros H. unfold over, sq, Cscale, Cconj, Cnorm2. cbn [fst snd]. apply Rmult_le_pos; [nra|exact H]. Qed.
Lemma over_none Y d : fst Y = 0 -> fst (over Y d) = 0.
Proof. intros H. unfold over, Cscale, Cconj. cbn [fst snd]. rewrite H. ring. Qed.
Lemma antisymmetric n (h : nat -> nat -> R) : (forall i j, (i < n)%nat -> (j < n)%nat -> h i j = - h j i) -> Rsum (fun i => Rsum (h i) n) n = 0.
Proof.
  intros H. assert (E : Rsum (fun i => Rsum (h i) n) n = - Rsum (fun i => Rsum (h i) n) n); [|lra].
  rewrite (Rsum_swap h n n) at 1. rewrite <- Rsum_opp. apply Rsum_same. intros j Hj. rewrite <- Rsum_opp. apply Rsum_same. intros i Hi. exact (H i j Hi Hj).
Qed.
Lemma form_real n (g b : nat -> nat -> R) (x : nat -> C) : symmetric n b ->
  fst (Csum (fun i => Csum (fun j => power (x i) (Cmul (g i j, b i j) (x j))) n) n)
  = Rsum (fun i => Rsum (fun j => g i j * (fst (x i) * fst (x j))) n) n + Rsum (fun i => Rsum (fun j => g i j * (snd (x i) * snd (x j))) n) n.
Proof.
  intros Sy. rewrite Csum_fst. transitivity (Rsum (fun i => (Rsum (fun j => g i j * (fst (x i) * fst (x j))) n + Rsum (fun j => g i j * (snd (x i) * snd (x j))) n)
      + Rsum (fun j => b i j * (snd (x i) * fst (x j) - fst (x i) * snd (x j))) n) n).
  - apply Rsum_same. intros i _. rewrite Csum_fst, <- !Rsum_add. apply Rsum_same. intros j _. unfold power, Cmul, Cconj. cbn [fst snd]. ring.
  - rewrite Rsum_add, (antisymmetric n (fun i j => b i j * (snd (x i) * fst (x j) - fst (x i) * snd (x j)))); [rewrite Rsum_add; ring|].
    intros i j Hi Hj. rewrite (Sy i j Hi Hj). ring.
Qed.
Lemma passive_takes V e S : is_carrier e = true -> passive e -> takes V e S -> 0 <= fst S.
Proof.
  intros C P T. inversion T; subst; clear T; cbn in C; try discriminate; cbn [passive] in P; try (apply over_real; cbn [fst]; try lra); try (cbn; lra).
  - unfold Cadd. cbn [fst]. rewrite !(over_none (0, ln_Bsh l)) by reflexivity. pose proof (over_real (ln_G l, ln_B l) (across V f t) P). lra.
  - destruct P as [P1 [P2 P3]]. unfold Cadd. cbn [fst]. subst form. cbv beta. rewrite !form_real.
    + assert (Z : forall x : nat -> R, Rsum (fun i => Rsum (fun j => 0 * (x i * x j)) n) n = 0) by (intros x; apply antisymmetric; intros; ring).
      rewrite (Z (fun i => fst (f i))), (Z (fun i => snd (f i))), (Z (fun i => fst (t i))), (Z (fun i => snd (t i))).
      pose proof (P1 (fun i => fst (Csub (f i) (t i)))) as Q1. pose proof (P1 (fun i => snd (Csub (f i) (t i)))) as Q2. cbv beta in Q1, Q2. change (length ph) with n in Q1, Q2. lra.
    + intros i j Hi Hj. now rewrite (P3 i j Hi Hj).
    + intros i j Hi Hj. now rewrite (P3 i j Hi Hj).
    + exact P2.
  - destruct P as [P1 [P2 P3]]. unfold Cadd. cbn [fst]. pose proof (over_real (ct_g0 c, ct_b0 c) (across V from pri) P1). pose proof (over_real (ct_g1 c, ct_b1 c) (across V s1 t1) P2).
    pose proof (over_real (ct_g2 c, ct_b2 c) (across V s2 t2) P3). lra.
Qed.
(** *** the theorems *)
Lemma account_takes V nw ac : accounts_for V nw ac -> Forall (fun x => x = 0) (misses ac) -> Forall (fun x => takes V (fst (fst x)) (absorbed V (snd (fst x)))) ac.
Proof.
  intros [_ B] Z. rewrite Forall_forall in *. intros x Hx. apply (behaves_takes _ _ _ (snd x) (B x Hx)). rewrite Forall_forall. intros y Hy. apply Z. apply in_flat_map. now exists x.
Qed.
Lemma powers nw V : physical nw V -> exists ac, accounts_for V nw ac /\ Forall (fun x => takes V (fst (fst x)) (absorbed V (snd (fst x)))) ac.
Proof. intros [_ [ac [A [Z _]]]]. exists ac. split; [exact A|]. exact (account_takes V nw ac A Z). Qed.
Lemma at_buses_zero nw V J : (forall k b, nth_error (nw_buses nw) k = Some b -> J k b = C0) -> at_buses nw V J = C0.
Proof.
  unfold at_buses. intros H. assert (G : forall k b, In (k, b) (combine (seq 0 (length (nw_buses nw))) (nw_buses nw)) -> J k b = C0).
  { intros k b Hb. apply H. apply In_nth_error in Hb as [i Hi]. revert Hi. generalize (nw_buses nw) as bs. clear.
    assert (G : forall bs n i, nth_error (combine (seq n (length bs)) bs) i = Some (k, b) -> exists j, k = (n + j)%nat /\ nth_error bs j = Some b).
    { induction bs as [|b0 bs IH]; intros n [|i'] E; cbn in E; try discriminate.
      - injection E as <- <-. exists 0%nat. split; [lia|reflexivity].
      - destruct (IH _ _ E) as [j [-> Hj]]. exists (S j). split; [lia|exact Hj]. }
    intros bs E. destruct (G bs 0%nat i E) as [j [-> Hj]]. exact Hj. }
  revert G. induction (combine _ _) as [|[k b] l IH]; intros G; cbn [fold_right fst snd]; [reflexivity|]. rewrite IH, (G k b (or_introl eq_refl)); [cring|]. intros k' b' Hb. apply G. now right.
Qed.
Lemma at_buses_add nw V J J' : at_buses nw V (fun k b => Cadd (J k b) (J' k b)) = Cadd (at_buses nw V J) (at_buses nw V J').
Proof. unfold at_buses. induction (combine _ _) as [|x l IH]; cbn [fold_right]; [cring|]. rewrite IH. cring. Qed.
Lemma balance nw V ac : network_ok nw -> V None = C0 -> accounts_for V nw ac ->
  supplied V ac = Csub (Cadd (delivered V ac) (lost V ac)) (at_buses nw V (fun _ b => net_current (bus_id b) ac)).
Proof. intros OK Z A. rewrite <- (balance_total nw V ac OK Z A), parts. cring. Qed.
Lemma balance_with E nw V : network_ok nw -> physical_with E nw V -> exists ac, accounts_for V nw ac /\ Forall (fun x => takes V (fst (fst x)) (absorbed V (snd (fst x)))) ac /\
  supplied V ac = Cadd (Cadd (delivered V ac) (lost V ac)) (at_buses nw V (fun k _ => E k)).
Proof.
  intros OK [Z [ac [A [M K]]]]. exists ac. split; [exact A|]. split; [exact (account_takes V nw ac A M)|]. rewrite (balance nw V ac OK Z A).
  assert (Q : at_buses nw V (fun k b => Cadd (net_current (bus_id b) ac) (E k)) = C0) by (apply at_buses_zero; exact K). rewrite at_buses_add in Q.
  destruct (at_buses nw V (fun _ b => net_current (bus_id b) ac)) as [p q]. destruct (at_buses nw V (fun k _ => E k)) as [p' q']. unfold Cadd, C0 in Q. cbn in Q. injection Q as Q1 Q2.
  destruct (Cadd (delivered V ac) (lost V ac)) as [s s']. unfold Csub, Cadd. cbn. f_equal; lra.
Qed.
Lemma balance_physical nw V : network_ok nw -> physical nw V -> exists ac, accounts_for V nw ac /\ Forall (fun x => takes V (fst (fst x)) (absorbed V (snd (fst x)))) ac /\
  supplied V ac = Cadd (delivered V ac) (lost V ac).
Proof.
  intros OK [Z [ac [A [M K]]]]. exists ac. split; [exact A|]. split; [exact (account_takes V nw ac A M)|]. rewrite (balance nw V ac OK Z A), at_buses_zero; [cring|].
  intros k b Hb. apply K. exact (nth_error_In _ _ Hb).
Qed.
Lemma only_takes V p ac : Forall (fun x => takes V (fst (fst x)) (absorbed V (snd (fst x)))) ac -> Forall (fun x => p (fst (fst x)) = true /\ takes V (fst (fst x)) (absorbed V (snd (fst x)))) (only p ac).
Proof. rewrite !Forall_forall. intros H x Hx. apply filter_In in Hx as [H1 H2]. auto. Qed.
Lemma losses V nw ac : accounts_for V nw ac -> Forall (fun x => takes V (fst (fst x)) (absorbed V (snd (fst x)))) ac -> (forall e, In e (elements nw) -> passive e) -> 0 <= fst (lost V ac).
Proof.
  intros A T P. unfold lost. assert (G : Forall (fun x => 0 <= fst (absorbed V (snd (fst x)))) (only is_carrier ac)).
  { rewrite Forall_forall. intros x Hx. pose proof (only_takes V is_carrier ac T) as Q. rewrite Forall_forall in Q. destruct (Q x Hx) as [C Tx]. apply (passive_takes V (fst (fst x)) _ C); [|exact Tx].
    apply P. rewrite <- (proj1 A). apply filter_In in Hx as [Hx _]. now apply (in_map (fun x => fst (fst x))). }
  induction G as [|x l Gx G IH]; [cbn; lra|]. rewrite total_cons. unfold Cadd. cbn [fst]. lra.
Qed.
Lemma more_supplied nw V : network_ok nw -> physical nw V -> (forall e, In e (elements nw) -> passive e) -> exists ac, accounts_for V nw ac /\
  supplied V ac = Cadd (delivered V ac) (lost V ac) /\ 0 <= fst (lost V ac) /\ fst (delivered V ac) <= fst (supplied V ac).
Proof.
  intros OK Ph P. destruct (balance_physical nw V OK Ph) as [ac [A [T B]]]. exists ac. split; [exact A|]. split; [exact B|]. pose proof (losses V nw ac A T P). split; [assumption|]. rewrite B. unfold Cadd. cbn [fst]. lra.
Qed.
Lemma described_delivered V nw ac : accounts_for V nw ac -> Forall (fun x => takes V (fst (fst x)) (absorbed V (snd (fst x)))) ac -> constant_power nw -> delivered V ac = described nw.
Proof.
  intros [A _] T CP. unfold delivered, described. unfold constant_power in CP. rewrite <- A in *. clear A nw. induction T as [|x ac Tx T IH]; [reflexivity|].
  assert (CP' : forall l f t, In (ELoad l f t) (map (fun x => fst (fst x)) ac) -> (ld_IP l, ld_IQ l) = C0 /\ (ld_Zr l, ld_Zi l) = C0) by (intros l f t H; apply (CP l f t); now right).
  specialize (IH CP'). unfold only in *. cbn [filter map fold_right]. rewrite <- IH. destruct x as [[e I] m]. cbn [fst snd] in *.
  destruct e; cbn [is_demand demand]; rewrite ?total_cons; try (now rewrite Cadd_0l). cbn [fst snd]. f_equal. inversion Tx; subst.
  destruct (CP l f t (or_introl eq_refl)) as [E1 E2]. match goal with H : _ \/ _ |- _ => destruct H as [[_ ->]|[X _]] end; [|now elim X].
  rewrite E1. cring.
Qed.
Lemma sources_split V nw ac : accounts_for V nw ac -> Forall (fun x => takes V (fst (fst x)) (absorbed V (snd (fst x)))) ac -> fst (supplied V ac) = fst (fed V ac) + generated nw.
Proof.
  intros [A _] T. unfold supplied, fed, generated. rewrite <- A. clear A nw. induction T as [|x ac Tx T IH]; [cbn; ring|].
  unfold only in *. cbn [filter map fold_right]. destruct x as [[e I] m]. cbn [fst snd] in *. unfold Copp in *. cbn [fst] in IH.
  destruct e; cbn [is_source is_feed generation]; rewrite ?total_cons; unfold Copp, Cadd; cbn [fst snd]; try lra.
  inversion Tx. subst. cbn. lra.
Qed.
Lemma slack_power nw V : network_ok nw -> physical nw V -> constant_power nw -> exists ac, accounts_for V nw ac /\
  fst (fed V ac) = fst (described nw) - generated nw + fst (lost V ac) /\ snd (supplied V ac) = snd (described nw) + snd (lost V ac).
Proof.
  intros OK Ph CP. destruct (balance_physical nw V OK Ph) as [ac [A [T B]]]. exists ac. split; [exact A|]. pose proof (sources_split V nw ac A T) as S1. rewrite B in *. rewrite (described_delivered V nw ac A T CP) in *.
  unfold Cadd in *. cbn [fst snd] in *. split; lra.
Qed.
Lemma power_bound a b eps : Rabs (fst b) <= eps -> Rabs (snd b) <= eps -> Rabs (fst (power a b)) <= one_norm a * eps /\ Rabs (snd (power a b)) <= one_norm a * eps.
Proof.
  destruct a as [a a'], b as [b b']. unfold power, Cmul, Cconj, one_norm. cbn [fst snd]. intros H1 H2. pose proof (Rabs_pos a). pose proof (Rabs_pos a').
  assert (T : forall x y u v, Rabs u <= eps -> Rabs v <= eps -> Rabs (x * u + y * v) <= (Rabs x + Rabs y) * eps).
  { intros x y u v Hu Hv. eapply Rle_trans; [apply Rabs_triang|]. rewrite !Rabs_mult. pose proof (Rabs_pos x). pose proof (Rabs_pos y). nra. }
  split.
  - replace (a * b - a' * - b') with (a * b + a' * b') by ring. now apply T.
  - replace (a * - b' + a' * b) with (a * - b' + a' * b) by ring. apply T; [rewrite Rabs_Ropp|]; assumption.
Qed.
Lemma mismatch eps nw V : network_ok nw -> nearly_physical eps nw V -> exists ac, accounts_for V nw ac /\ Forall (fun x => Rabs x < eps) (misses ac) /\
  let d := Csub (supplied V ac) (Cadd (delivered V ac) (lost V ac)) in Rabs (fst d) <= all_voltages nw V * eps /\ Rabs (snd d) <= all_voltages nw V * eps.
Proof.
  intros OK [Z [ac [A [M K]]]]. exists ac. split; [exact A|]. split; [exact M|]. cbv zeta. rewrite (balance nw V ac OK Z A).
  replace (Csub (Csub (Cadd (delivered V ac) (lost V ac)) (at_buses nw V (fun _ b => net_current (bus_id b) ac))) (Cadd (delivered V ac) (lost V ac)))
    with (Copp (at_buses nw V (fun _ b => net_current (bus_id b) ac))) by cring.
  unfold Copp. cbn [fst snd]. rewrite !Rabs_Ropp. unfold at_buses, all_voltages. rewrite (at_buses_from V (fun b => net_current (bus_id b) ac) 0 (nw_buses nw)).
  revert K. induction (nw_buses nw) as [|b bs IH]; intros K; cbn [fold_right]; [unfold C0; cbn; rewrite Rabs_R0; lra|].
  destruct (IH (fun b' Hb => K b' (or_intror Hb))) as [I1 I2]. destruct (K b (or_introl eq_refl)) as [K1 K2].
  destruct (power_bound (V (Some (bus_id b))) (net_current (bus_id b) ac) eps) as [P1 P2]; [lra|lra|]. unfold Cadd. cbn [fst snd].
  split; (eapply Rle_trans; [apply Rabs_triang|]); rewrite Rmult_plus_distr_r; apply Rplus_le_compat; assumption.
Qed.
(** *** solutions *)
Lemma solved_balance old nw v : network_ok nw -> nw_optimization nw = None -> let a := assign_matrix old nw in
  energised nw (voltages a v) -> (forall r, (r < as_size a)%nat -> F (equations a) v 0 r = 0) ->
  exists ac, accounts_for (voltages a v) nw ac /\ Forall (fun x => takes (voltages a v) (fst (fst x)) (absorbed (voltages a v) (snd (fst x)))) ac /\
  supplied (voltages a v) ac = Cadd (delivered (voltages a v) ac) (lost (voltages a v) ac).
Proof. cbv zeta. intros OK NO E H. exact (balance_physical nw _ OK (exact_iff old nw OK NO v E H)). Qed.
Lemma deficit old nw l1 v : network_ok nw -> nw_optimization nw = Some l1 -> let a := assign_matrix old nw in
  energised nw (voltages a v) -> (forall r, (r < as_size a)%nat -> F (equations a) v 0 r = 0) ->
  exists ac, accounts_for (voltages a v) nw ac /\ Forall (fun x => takes (voltages a v) (fst (fst x)) (absorbed (voltages a v) (snd (fst x)))) ac /\
  supplied (voltages a v) ac = Cadd (Cadd (delivered (voltages a v) ac) (lost (voltages a v) ac)) (at_buses nw (voltages a v) (fun k _ => extra l1 a v k)).
Proof. cbv zeta. intros OK NO E H. apply balance_with; [exact OK|]. exact (proj1 (infeasible_sound old nw l1 OK NO v E H)). Qed.
