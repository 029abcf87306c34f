(** create_buses: which bus every node and phase gets. *)
From Coq Require Import Reals ZArith String Ascii List Bool Lia Lra Arith.
From Verif Require Import PyExc Components Devices UnbalancedLine ThreePhase SpecThreePhase ThreePhaseBase.
Import ListNotations.
Local Open Scope R_scope.

Lemma mem_in s l : mem s l = true <-> In s l.
Proof.
  unfold mem. rewrite existsb_exists. split.
  - intros (x & H & E). apply String.eqb_eq in E. now subst.
  - intros H. exists s. split; [exact H|apply String.eqb_refl].
Qed.
Lemma knownb_spec p : knownb p = true <-> known p.
Proof. apply mem_in. Qed.
Lemma rootb_spec nd : rootb nd = true <-> is_root nd.
Proof. unfold rootb, is_root. destruct (dn_parent nd), (dn_conn nd); intuition congruence. Qed.

Definition step (s : net * stale) (x : dnode * string) := node_phase (fst x) s (snd x).
Lemma nodes_as_visits : forall ms s, mfold node_buses ms s = mfold step (visits (nodes_of ms)) s.
Proof.
  induction ms as [|m ms IH]; intros s; [reflexivity|].
  destruct m; cbn [mfold node_buses nodes_of visits flat_map]; try exact (IH s).
  rewrite mfold_app.
  assert (E : forall ps s, mfold (node_phase n) ps s = mfold step (map (pair n) ps) s).
  { induction ps as [|p ps IHp]; intros t; cbn [mfold map]; [reflexivity|].
    unfold step at 1. cbn [fst snd]. destruct (node_phase n t p); cbn [pbind]; auto. }
  rewrite E. destruct (mfold step (map (pair n) (dn_phases n)) s); cbn [pbind]; [apply IH|reflexivity].
Qed.
Lemma mfold_prefix S X (f : S -> X -> pres S) (P : list X -> S -> Prop) l :
  (forall d x r s s', l = d ++ x :: r -> P d s -> f s x = Ok s' -> P (d ++ [x]) s') ->
  forall s s', P [] s -> mfold f l s = Ok s' -> P l s'.
Proof.
  intros H.
  assert (G : forall r d s s', l = d ++ r -> P d s -> mfold f r s = Ok s' -> P l s').
  { induction r as [|x r IH]; intros d s s' E HP HF; cbn in HF.
    - injection HF as <-. rewrite app_nil_r in E. now subst.
    - apply bind_ok in HF as (s1 & E1 & E2). apply (IH (d ++ [x]) s1 s').
      + rewrite <- app_assoc. exact E.
      + eapply H; eauto.
      + exact E2. }
  intros s s' HP HF. exact (G l [] s s' eq_refl HP HF).
Qed.
Lemma Forall2_length A B (P : A -> B -> Prop) l m : Forall2 P l m -> List.length l = List.length m.
Proof. induction 1; cbn; auto. Qed.
Lemma filter_snoc A (f : A -> bool) l x : filter f (l ++ [x]) = filter f l ++ (if f x then [x] else []).
Proof. rewrite filter_app. cbn. destruct (f x); reflexivity. Qed.
Lemma last_made_snoc d x : last_made (d ++ [x]) = if rootb (fst x) && knownb (snd x) then Some x else last_made d.
Proof.
  unfold last_made. rewrite filter_snoc. destruct (rootb (fst x) && knownb (snd x)).
  - rewrite rev_app_distr. reflexivity.
  - rewrite app_nil_r. reflexivity.
Qed.
Lemma angle_standard p a : phase_angle p = Some a -> a = standard_angle p.
Proof.
  unfold phase_angle, standard_angle. intros H.
  destruct (String.eqb_spec p "A"); [subst; cbn in *; congruence|].
  destruct (String.eqb_spec p "B"); [subst; cbn in *; injection H as <-; field|].
  destruct (String.eqb_spec p "C"); [subst; cbn in *; injection H as <-; field|].
  destruct (String.eqb_spec p "1"); [subst; cbn in *; congruence|].
  destruct (String.eqb_spec p "2"); [subst; cbn in *; injection H as <-; field|discriminate].
Qed.

(** *** what one visit does *)
Inductive slack_added (nd : dnode) (b : nat) (st : stale) : net -> net -> Prop := 
  | sa_no n : dn_source nd = false -> slack_added nd b st n n
  | sa_yes n va : dn_source nd = true -> st = Some va -> slack_added nd b st n (add_slack n {| sk_bus := b; sk_v := fst va; sk_ang := snd va |}).
Inductive visited (nd : dnode) (p : string) (n : net) (st : stale) : net -> stale -> Prop :=
  | v_skip : ~ known p -> visited nd p n st n st
  | v_child par b n1 : known p -> dn_parent nd = Some par -> lookup n par p = Ok b ->
      slack_added nd b st (set_map n (key (dn_name nd) p) b) n1 -> visited nd p n st n1 st
  | v_conn c b n1 : known p -> dn_parent nd = None -> dn_conn nd = Some c -> lookup n c p = Ok b ->
      slack_added nd b st n n1 -> visited nd p n st n1 st
  | v_root va vr vi n1 : known p -> is_root nd -> set_point nd p va ->
      slack_added nd (nt_next n) (Some va)
        (set_buses (fst (create_bus n (fst va) (snd va) (dn_name nd) p false))
           (nt_buses n ++ [{| tb_id := nt_next n; tb_name := dn_name nd; tb_phase := p; tb_virtual := false; tb_vnom := fst va; tb_vr := vr; tb_vi := vi |}])) n1 ->
      visited nd p n st n1 (Some va).

Lemma fresh_init n i vr vi : map tb_id (nt_buses n) = seq 0 (nt_next n) -> i = nt_next n -> 
  map (fun b => if Nat.eqb (tb_id b) i
                then {| tb_id := tb_id b; tb_name := tb_name b; tb_phase := tb_phase b; tb_virtual := tb_virtual b;
                        tb_vnom := tb_vnom b; tb_vr := vr; tb_vi := vi |} else b) (nt_buses n) = nt_buses n.
Proof.
  intros H ->. rewrite <- (map_id (nt_buses n)) at 2. apply map_ext_in. intros b Hb.
  destruct (Nat.eqb_spec (tb_id b) (nt_next n)) as [E|]; [|reflexivity]. exfalso.
  apply (in_map tb_id) in Hb. rewrite H, in_seq in Hb. lia.
Qed.
Lemma step_visited n st nd p n' st' : wf n -> step (n, st) (nd, p) = Ok (n', st') -> visited nd p n st n' st'.
Proof.
  intros W E. unfold step in E. cbn [fst snd] in E. unfold node_phase in E.
  destruct (phase_angle p) as [ang|] eqn:EA.
  2:{ injection E as <- <-. apply v_skip. rewrite known_angle. intros [a H]. congruence. }
  assert (K : known p) by (apply known_angle; eauto).
  apply bind_ok in E as (((n1, b), st1) & E1 & E2).
  assert (SA : forall n1 b st1, (if dn_source nd then match st1 with None => Err UnboundLocalError | Some (m, a) => Ok (add_slack n1 {| sk_bus := b; sk_v := m; sk_ang := a |}, st1) end else Ok (n1, st1)) = Ok (n', st') ->
     slack_added nd b st1 n1 n' /\ st' = st1).
  { intros m1 b1 t1 H. destruct (dn_source nd) eqn:ES.
    - destruct t1 as [[m a]|]; [|discriminate]. injection H as <- <-. split; [|reflexivity]. exact (sa_yes _ _ _ _ (m, a) ES eq_refl).
    - injection H as <- <-. split; [|reflexivity]. now constructor. }
  destruct (dn_parent nd) as [par|] eqn:EP.
  - apply bind_ok in E1 as (b0 & EL & E1). injection E1 as <- <- <-. apply SA in E2 as [S ->].
    eapply v_child; eauto.
  - destruct (dn_conn nd) as [c|] eqn:EC.
    + apply bind_ok in E1 as (b0 & EL & E1). injection E1 as <- <- <-. apply SA in E2 as [S ->].
      eapply v_conn; eauto.
    + apply bind_ok in E1 as (va & EV & E1).
      assert (SP : set_point nd p va).
      { unfold set_point. unfold triplex in EV.
        assert (T : (if String.eqb p "1" || String.eqb p "2" then None else dn_volt nd p) = (if String.eqb p "1" then None else if String.eqb p "2" then None else dn_volt nd p)).
        { destruct (String.eqb p "1"), (String.eqb p "2"); reflexivity. }
        rewrite T in EV. destruct (if String.eqb p "1" then _ else _) as [[m a]|].
        - congruence.
        - apply bind_ok in EV as (m & EM & EV). injection EV as <-. exists m. split.
          + destruct (dn_vnom nd); [injection EM as ->; reflexivity|discriminate].
          + f_equal. now apply angle_standard. }
      destruct (create_bus n (fst va) (snd va) (dn_name nd) p false) as [n2 b2] eqn:EB.
      unfold create_bus in EB. injection EB as EB1 EB2. subst b2.
      injection E1 as E1 <- <-. apply (SA n1 (nt_next n) (Some va)) in E2 as [S ->].
      assert (Q : exists vr vi, n1 = set_buses n2 (nt_buses n ++ [{| tb_id := nt_next n; tb_name := dn_name nd; tb_phase := p; tb_virtual := false; tb_vnom := fst va; tb_vr := vr; tb_vi := vi |}])).
      { assert (Z : forall vr vi, set_init n2 (nt_next n) vr vi = set_buses n2 (nt_buses n ++ [{| tb_id := nt_next n; tb_name := dn_name nd; tb_phase := p; tb_virtual := false; tb_vnom := fst va; tb_vr := vr; tb_vi := vi |}])).
        { intros vr vi. unfold set_init. f_equal. rewrite <- EB1. cbn [nt_buses]. rewrite map_app. rewrite (fresh_init n (nt_next n)); [|exact (proj1 W)|reflexivity].
          cbn. rewrite Nat.eqb_refl. reflexivity. }
        destruct (String.eqb p "1"); [rewrite Z in E1; eauto|].
        destruct (String.eqb p "2"); [rewrite Z in E1; eauto|].
        exists (fst va * cos (snd va)), (fst va * sin (snd va)). rewrite <- E1, <- EB1. reflexivity. }
      destruct Q as (vr & vi & ->). eapply (v_root _ _ _ _ va vr vi); [exact K|split; assumption|exact SP|].
      unfold create_bus. cbn [fst]. rewrite EB1. exact S.
Qed.

Section Table.
Variable nds : list dnode.
Hypothesis names : NoDup (map dn_name nds).
Definition pname (x : dnode * string) : string * string := (dn_name (fst x), snd x).
Record inv (d : list (dnode * string)) (s : net * stale) : Prop := {
  i_wf : wf (fst s);
  i_bus : Forall (fun b => tb_virtual b = false /\ known (tb_phase b) /\ exists nd, In (nd, tb_phase b) d /\ is_root nd /\ tb_name b = dn_name nd) (nt_buses (fst s));
  i_nodup : NoDup (map (fun b => (tb_name b, tb_phase b)) (nt_buses (fst s)));
  i_hang : forall a p b, known p -> lookup (fst s) a p = Ok b ->
     exists bus, nth_error (nt_buses (fst s)) b = Some bus /\ tb_phase bus = p /\ hangs_from nds a (tb_name bus);
  i_has : forall nd p, In (nd, p) d -> known p -> (is_root nd \/ dn_parent nd <> None) -> exists b, lookup (fst s) (dn_name nd) p = Ok b;
  i_keys : forall a p b, known p -> lookup (fst s) a p = Ok b -> exists nd, In (nd, p) d /\ dn_name nd = a;
  i_before : forall d1 nd p d2 par, d = d1 ++ (nd, p) :: d2 -> known p -> dn_parent nd = Some par -> exists nd', In (nd', p) d1 /\ dn_name nd' = par;
  i_stale : match last_made d with None => snd s = None | Some (nd, p) => exists va, snd s = Some va /\ set_point nd p va end;
  i_slack : Forall2 (fun sk x => (is_root (fst x) -> set_point (fst x) (snd x) (sk_v sk, sk_ang sk)) /\
                        ((is_root (fst x) \/ dn_parent (fst x) <> None) -> lookup (fst s) (dn_name (fst x)) (snd x) = Ok (sk_bus sk)))
                    (nt_slack (fst s)) (filter (fun x => dn_source (fst x) && knownb (snd x)) d);
  i_slack_child : forall d1 nd p d2, d = d1 ++ (nd, p) :: d2 -> known p -> dn_source nd = true -> ~ is_root nd ->
     exists sk nd' p', last_made d1 = Some (nd', p') /\ set_point nd' p' (sk_v sk, sk_ang sk) /\
       nth_error (nt_slack (fst s)) (List.length (filter (fun x => dn_source (fst x) && knownb (snd x)) d1)) = Some sk }.

Lemma snoc_inv A (d : list A) x d1 y d2 : d ++ [x] = d1 ++ y :: d2 -> (d2 = [] /\ d1 = d /\ y = x) \/ exists d2', d2 = d2' ++ [x] /\ d = d1 ++ y :: d2'.
Proof.
  intros E. destruct (exists_last (l := y :: d2) ltac:(discriminate)) as (l & z & EL).
  rewrite EL, app_assoc in E. apply app_inj_tail in E as [E1 ->].
  destruct l as [|y' l]; cbn in EL; injection EL as -> ->.
  - left. rewrite app_nil_r in E1. auto.
  - right. exists l. auto.
Qed.
Lemma lookup_set n a p b c q : one_letter p -> one_letter q ->
  lookup (set_map n (key a p) b) c q = if (String.eqb c a && String.eqb q p)%bool then Ok b else lookup n c q.
Proof.
  intros Hp Hq. unfold lookup. cbn [set_map nt_map assoc].
  destruct (String.eqb_spec (key c q) (key a p)) as [E|E].
  - apply key_inj in E as [-> ->]; auto. rewrite !String.eqb_refl. reflexivity.
  - destruct (String.eqb_spec c a) as [->|]; destruct (String.eqb_spec q p) as [->|]; cbn; congruence.
Qed.
Lemma lookup_slack n s a p : lookup (add_slack n s) a p = lookup n a p.
Proof. reflexivity. Qed.
Lemma filter_app_l A (f : A -> bool) l m : filter f (l ++ m) = filter f l ++ filter f m.
Proof. apply filter_app. Qed.
Lemma eqb_pair_false a p x : ~ In (a, p) (map pname x) -> forall y, In y x -> (String.eqb (dn_name (fst y)) a && String.eqb (snd y) p)%bool = false.
Proof.
  intros H y Hy. destruct (String.eqb_spec (dn_name (fst y)) a) as [E1|]; [|reflexivity].
  destruct (String.eqb_spec (snd y) p) as [E2|]; [|reflexivity]. exfalso. apply H.
  apply in_map_iff. exists y. split; [unfold pname; congruence|exact Hy].
Qed.

(** the slack list after a visit, whatever else the visit did *)
Lemma slack_step d x (n n1 n' : net) st1 b :
  Forall2 (fun sk x => (is_root (fst x) -> set_point (fst x) (snd x) (sk_v sk, sk_ang sk)) /\
                        ((is_root (fst x) \/ dn_parent (fst x) <> None) -> lookup n (dn_name (fst x)) (snd x) = Ok (sk_bus sk)))
          (nt_slack n) (filter (fun x => dn_source (fst x) && knownb (snd x)) d) ->
  nt_slack n1 = nt_slack n ->
  (forall y, In y d -> known (snd y) -> lookup n1 (dn_name (fst y)) (snd y) = lookup n (dn_name (fst y)) (snd y)) ->
  known (snd x) ->
  slack_added (fst x) b st1 n1 n' ->
  (forall va, st1 = Some va -> is_root (fst x) -> set_point (fst x) (snd x) va) ->
  (is_root (fst x) \/ dn_parent (fst x) <> None -> lookup n1 (dn_name (fst x)) (snd x) = Ok b) ->
  Forall2 (fun sk x => (is_root (fst x) -> set_point (fst x) (snd x) (sk_v sk, sk_ang sk)) /\
                        ((is_root (fst x) \/ dn_parent (fst x) <> None) -> lookup n' (dn_name (fst x)) (snd x) = Ok (sk_bus sk)))
          (nt_slack n') (filter (fun x => dn_source (fst x) && knownb (snd x)) (d ++ [x])).
Proof.
  intros H HS HL K SA SP BX. rewrite filter_snoc.
  assert (KB : knownb (snd x) = true) by now apply knownb_spec.
  assert (H1 : Forall2 (fun sk x => (is_root (fst x) -> set_point (fst x) (snd x) (sk_v sk, sk_ang sk)) /\
                        ((is_root (fst x) \/ dn_parent (fst x) <> None) -> lookup n1 (dn_name (fst x)) (snd x) = Ok (sk_bus sk)))
          (nt_slack n) (filter (fun x => dn_source (fst x) && knownb (snd x)) d)).
  { assert (G : Forall (fun y => In y d /\ known (snd y)) (filter (fun x => dn_source (fst x) && knownb (snd x)) d)).
    { apply Forall_forall. intros y Hy. apply filter_In in Hy as [Hy B]. apply andb_true_iff in B as [_ B]. split; [exact Hy|now apply knownb_spec]. }
    clear - H HL G. induction H; constructor; inversion G; subst.
    - destruct H as [A B]. split; [exact A|]. intros Q. rewrite HL; tauto.
    - auto. }
  destruct SA as [n2 ES|n2 va ES EV].
  - rewrite ES. cbn [andb]. rewrite app_nil_r, HS. exact H1.
  - rewrite ES, KB. cbn [andb]. cbn [add_slack nt_slack]. rewrite HS. apply Forall2_app; [exact H1|].
    constructor; [|constructor]. cbn [sk_v sk_ang sk_bus]. split; [|exact BX].
    intros R0. destruct va; now apply SP.
Qed.
Lemma slack_child_step d x (n n1 n' : net) st1 b :
  (forall d1 nd p d2, d = d1 ++ (nd, p) :: d2 -> known p -> dn_source nd = true -> ~ is_root nd ->
     exists sk nd' p', last_made d1 = Some (nd', p') /\ set_point nd' p' (sk_v sk, sk_ang sk) /\
       nth_error (nt_slack n) (List.length (filter (fun x => dn_source (fst x) && knownb (snd x)) d1)) = Some sk) ->
  nt_slack n1 = nt_slack n ->
  List.length (nt_slack n) = List.length (filter (fun x => dn_source (fst x) && knownb (snd x)) d) ->
  slack_added (fst x) b st1 n1 n' ->
  (is_root (fst x) \/ forall va, st1 = Some va -> exists nd' p', last_made d = Some (nd', p') /\ set_point nd' p' va) ->
  forall d1 nd p d2, d ++ [x] = d1 ++ (nd, p) :: d2 -> known p -> dn_source nd = true -> ~ is_root nd ->
     exists sk nd' p', last_made d1 = Some (nd', p') /\ set_point nd' p' (sk_v sk, sk_ang sk) /\
       nth_error (nt_slack n') (List.length (filter (fun x => dn_source (fst x) && knownb (snd x)) d1)) = Some sk.
Proof.
  intros H HS HL SA SP d1 nd p d2 E K ES NR.
  assert (pre : exists t, nt_slack n' = nt_slack n ++ t).
  { destruct SA; [exists []; rewrite app_nil_r; auto|eexists; cbn; rewrite HS; reflexivity]. }
  apply snoc_inv in E as [(-> & -> & <-)|(d2' & -> & ->)].
  - cbn [fst snd] in *. destruct SA as [n2 E2|n2 va E2 EV]; [congruence|].
    destruct SP as [|SP]; [tauto|]. destruct (SP _ EV) as (nd' & p' & L & SPt).
    exists {| sk_bus := b; sk_v := fst va; sk_ang := snd va |}, nd', p'. split; [exact L|]. split; [cbn [sk_v sk_ang]; destruct va; exact SPt|].
    cbn [add_slack nt_slack]. rewrite HS, <- HL, nth_error_app2, Nat.sub_diag by lia. reflexivity.
  - destruct (H d1 nd p d2' eq_refl K ES NR) as (sk & nd' & p' & L & S1 & S2).
    exists sk, nd', p'. split; [exact L|]. split; [exact S1|]. destruct pre as [t ->].
    rewrite nth_error_app1; [exact S2|]. apply nth_error_Some. congruence.
Qed.

Lemma inv_step d x s s' : (forall y, In y (d ++ [x]) -> In (fst y) nds) -> NoDup (map pname (d ++ [x])) ->
  inv d s -> step s x = Ok s' -> inv (d ++ [x]) s'.
Proof.
  intros INn ND I E. destruct s as [n st], s' as [n' st'], x as [nd p].
  pose proof (step_visited _ _ _ _ _ _ (i_wf _ _ I) E) as V. clear E. cbn [fst snd] in *.
  rewrite map_app in ND. cbn in ND.
  assert (FRESH : ~ In (dn_name nd, p) (map pname d)).
  { intros H. apply NoDup_remove_2 in ND. rewrite app_nil_r in ND. exact (ND H). }
  assert (INnd : In nd nds) by (apply (INn (nd, p)), in_or_app; right; left; reflexivity).
  destruct I as [Iwf Ibus Inodup Ihang Ihas Ikeys Ibefore Istale Islack Ichild]; cbn [fst snd] in *.
  pose proof (Forall2_length _ _ _ _ _ Islack) as LEN.
  assert (OLD : forall (y : dnode * string), In y d -> known (snd y) -> forall b m, known p ->
     lookup (set_map m (key (dn_name nd) p) b) (dn_name (fst y)) (snd y) = lookup m (dn_name (fst y)) (snd y)).
  { intros y Hy Ky b m Kp. rewrite lookup_set by (now apply known_letter).
    rewrite (eqb_pair_false (dn_name nd) p d FRESH y Hy). reflexivity. }
  inversion V as [NK|par b n1 K EP EL SA|c b n1 K EP EC EL SA|va vr vi n1 K RT SP SA]; subst.
  - (* a phase the parser does not know *)
    assert (KB : knownb p = false) by (destruct (knownb p) eqn:B; [apply knownb_spec in B; tauto|reflexivity]).
    constructor; cbn [fst snd]; auto.
    + eapply Forall_impl; [|exact Ibus]. intros b (A & B & nd0 & C & D). split; [exact A|]. split; [exact B|]. exists nd0. split; [apply in_or_app; auto|exact D].
    + intros nd0 p0 H K0. apply in_app_iff in H as [H|[H|[]]]; [eauto|]. injection H as <- <-. tauto.
    + intros a q b Kq Eq. destruct (Ikeys a q b Kq Eq) as (nd0 & A & B). exists nd0. split; [apply in_or_app; auto|exact B].
    + intros d1 nd0 p0 d2 par E K0 EP. apply snoc_inv in E as [(-> & -> & E)|(d2' & -> & ->)]; [injection E as <- <-; tauto|eauto].
    + rewrite last_made_snoc. cbn [fst snd]. rewrite KB, andb_false_r. exact Istale.
    + rewrite filter_snoc. cbn [fst snd]. rewrite KB, andb_false_r, app_nil_r. exact Islack.
    + intros d1 nd0 p0 d2 E K0 ES NR. apply snoc_inv in E as [(-> & -> & E)|(d2' & -> & ->)]; [injection E as <- <-; tauto|eauto].
  - (* a child *)
    destruct (Ihang par p b K EL) as (bus & B1 & B2 & B3).
    assert (LK : forall a q, known q -> lookup n' a q = if (String.eqb a (dn_name nd) && String.eqb q p)%bool then Ok b else lookup n a q).
    { intros a q Kq. inversion SA; subst; rewrite ?lookup_slack; apply lookup_set; now apply known_letter. }
    assert (BUS : nt_buses n' = nt_buses n) by (inversion SA; subst; reflexivity).
    assert (NR : ~ is_root nd) by (intros [Q _]; congruence).
    assert (LM : last_made (d ++ [(nd, p)]) = last_made d).
    { rewrite last_made_snoc. cbn [fst snd]. destruct (rootb nd) eqn:B; [apply rootb_spec in B; tauto|reflexivity]. }
    constructor; cbn [fst snd].
    + inversion SA; subst; rewrite ?H0; apply wf_set_map; auto; eapply wf_lookup; eauto.
    + rewrite BUS. eapply Forall_impl; [|exact Ibus]. intros b0 (A & B & nd0 & C & D). split; [exact A|]. split; [exact B|]. exists nd0. split; [apply in_or_app; auto|exact D].
    + rewrite BUS. exact Inodup.
    + intros a q b0 Kq. rewrite LK by exact Kq. rewrite BUS.
      destruct (String.eqb_spec a (dn_name nd)) as [->|]; [destruct (String.eqb_spec q p) as [->|]|]; cbn [andb]; intros Eq; try (eapply Ihang; eassumption).
      injection Eq as <-. exists bus. split; [exact B1|]. split; [exact B2|]. eapply hang_child; eauto.
    + intros nd0 p0 H K0 R0. rewrite LK by exact K0. apply in_app_iff in H as [H|[H|[]]].
      * destruct (_ && _)%bool; eauto.
      * injection H as <- <-. rewrite !String.eqb_refl. cbn. eauto.
    + intros a q b0 Kq. rewrite LK by exact Kq.
      destruct (String.eqb_spec a (dn_name nd)) as [->|]; [destruct (String.eqb_spec q p) as [->|]|]; cbn [andb]; intros Eq.
      * exists nd. split; [apply in_or_app; right; left; reflexivity|reflexivity].
      * destruct (Ikeys _ _ _ Kq Eq) as (nd0 & A & B). exists nd0. split; [apply in_or_app; auto|exact B].
      * destruct (Ikeys _ _ _ Kq Eq) as (nd0 & A & B). exists nd0. split; [apply in_or_app; auto|exact B].
    + intros d1 nd0 p0 d2 par0 E K0 EP0. apply snoc_inv in E as [(-> & -> & E)|(d2' & -> & ->)]; [injection E as -> ->|eauto].
      rewrite EP in EP0. injection EP0 as <-. exact (Ikeys _ _ _ K EL).
    + rewrite LM. exact Istale.
    + apply (slack_step d (nd, p) n (set_map n (key (dn_name nd) p) b) n' st' b); auto.
      * cbn [fst]. tauto.
      * intros _. cbn [fst snd]. rewrite lookup_set by (now apply known_letter). rewrite !String.eqb_refl. reflexivity.
    + apply (slack_child_step d (nd, p) n (set_map n (key (dn_name nd) p) b) n' st' b); auto.
      right. intros va Ev. destruct (last_made d) as [[nd' p']|]; [|congruence]. destruct Istale as (va' & Q1 & Q2). exists nd', p'. split; [reflexivity|]. congruence.
  - (* a node with a connecting element *)
    assert (LK : forall a q, lookup n' a q = lookup n a q) by (intros; inversion SA; subst; reflexivity).
    assert (BUS : nt_buses n' = nt_buses n) by (inversion SA; subst; reflexivity).
    assert (NR : ~ is_root nd) by (intros [_ Q]; congruence).
    assert (LM : last_made (d ++ [(nd, p)]) = last_made d).
    { rewrite last_made_snoc. cbn [fst snd]. destruct (rootb nd) eqn:B; [apply rootb_spec in B; tauto|reflexivity]. }
    constructor; cbn [fst snd].
    + inversion SA; subst; exact Iwf.
    + rewrite BUS. eapply Forall_impl; [|exact Ibus]. intros b0 (A & B & nd0 & C & D). split; [exact A|]. split; [exact B|]. exists nd0. split; [apply in_or_app; auto|exact D].
    + rewrite BUS. exact Inodup.
    + intros a q b0 Kq. rewrite LK, BUS. apply Ihang; exact Kq.
    + intros nd0 p0 H K0 R0. rewrite LK. apply in_app_iff in H as [H|[H|[]]]; [eauto|].
      injection H as <- <-. destruct R0 as [R0|R0]; [tauto|congruence].
    + intros a q b0 Kq. rewrite LK. intros Eq.
      destruct (Ikeys _ _ _ Kq Eq) as (nd0 & A & B). exists nd0. split; [apply in_or_app; auto|exact B].
    + intros d1 nd0 p0 d2 par0 E K0 EP0. apply snoc_inv in E as [(-> & -> & E)|(d2' & -> & ->)]; [injection E as -> ->; congruence|eauto].
    + rewrite LM. exact Istale.
    + apply (slack_step d (nd, p) n n n' st' b); auto.
      * cbn [fst]. tauto.
      * cbn [fst snd]. intros [R0|R0]; [tauto|congruence].
    + apply (slack_child_step d (nd, p) n n n' st' b); auto.
      right. intros va Ev. destruct (last_made d) as [[nd' p']|]; [|congruence]. destruct Istale as (va' & Q1 & Q2). exists nd', p'. split; [reflexivity|]. congruence.
  - (* a root: a new bus *)
    set (nb := {| tb_id := nt_next n; tb_name := dn_name nd; tb_phase := p; tb_virtual := false; tb_vnom := fst va; tb_vr := vr; tb_vi := vi |}) in *.
    set (nn := set_buses _ _) in SA.
    assert (LKn : forall a q, known q -> lookup nn a q = if (String.eqb a (dn_name nd) && String.eqb q p)%bool then Ok (nt_next n) else lookup n a q).
    { intros a q Kq. unfold nn. change (lookup (set_map n (key (dn_name nd) p) (nt_next n)) a q = if (String.eqb a (dn_name nd) && String.eqb q p)%bool then Ok (nt_next n) else lookup n a q).
      apply lookup_set; now apply known_letter. }
    assert (LK : forall a q, known q -> lookup n' a q = if (String.eqb a (dn_name nd) && String.eqb q p)%bool then Ok (nt_next n) else lookup n a q).
    { intros a q Kq. rewrite <- LKn by exact Kq. inversion SA; subst; reflexivity. }
    assert (BUS : nt_buses n' = nt_buses n ++ [nb]) by (inversion SA; subst; reflexivity).
    assert (NX : nth_error (nt_buses n ++ [nb]) (nt_next n) = Some nb).
    { rewrite nth_error_app2; rewrite (wf_length _ Iwf); [|lia]. rewrite Nat.sub_diag. reflexivity. }
    assert (LM : last_made (d ++ [(nd, p)]) = Some (nd, p)).
    { rewrite last_made_snoc. cbn [fst snd]. rewrite (proj2 (rootb_spec nd) RT), (proj2 (knownb_spec p) K). reflexivity. }
    constructor; cbn [fst snd].
    + assert (W : wf nn).
      { destruct (wf_create n (fst va) (snd va) (dn_name nd) p false Iwf) as [W1 W2]. split; [|exact W2].
        unfold nn. cbn [set_buses nt_buses nt_next]. rewrite map_app. cbn [map tb_id nb]. cbn [create_bus fst nt_buses nt_next] in W1. rewrite map_app in W1. exact W1. }
      inversion SA; subst; exact W.
    + rewrite BUS. apply Forall_app. split.
      * eapply Forall_impl; [|exact Ibus]. intros b0 (A & B & nd0 & C & D). split; [exact A|]. split; [exact B|]. exists nd0. split; [apply in_or_app; auto|exact D].
      * constructor; [|constructor]. cbn. split; [reflexivity|]. split; [exact K|]. exists nd. split; [apply in_or_app; right; left; reflexivity|]. auto.
    + rewrite BUS, map_app. cbn. apply NoDup_Add with (a := (dn_name nd, p)) (l := map (fun b => (tb_name b, tb_phase b)) (nt_buses n)).
      * rewrite <- (app_nil_r (map _ (nt_buses n))) at 1. apply Add_app.
      * split; [exact Inodup|]. intros H. apply in_map_iff in H as (b0 & E0 & H0). rewrite Forall_forall in Ibus.
        destruct (Ibus b0 H0) as (_ & _ & nd0 & C & _ & D). injection E0 as E1 E2. apply FRESH. apply in_map_iff. exists (nd0, tb_phase b0). split; [|exact C].
        unfold pname. cbn. congruence.
    + intros a q b0 Kq. rewrite LK by exact Kq. rewrite BUS.
      destruct (String.eqb_spec a (dn_name nd)) as [->|]; [destruct (String.eqb_spec q p) as [->|]|]; cbn [andb]; intros Eq.
      * injection Eq as <-. exists nb. split; [exact NX|]. split; [reflexivity|]. exact (hang_root nds nd INnd RT).
      * destruct (Ihang _ _ _ Kq Eq) as (bus & A & B). exists bus. split; [|exact B]. rewrite nth_error_app1; [exact A|]. apply nth_error_Some. congruence.
      * destruct (Ihang _ _ _ Kq Eq) as (bus & A & B). exists bus. split; [|exact B]. rewrite nth_error_app1; [exact A|]. apply nth_error_Some. congruence.
    + intros nd0 p0 H K0 R0. rewrite LK by exact K0. apply in_app_iff in H as [H|[H|[]]].
      * destruct (_ && _)%bool; eauto.
      * injection H as <- <-. rewrite !String.eqb_refl. cbn. eauto.
    + intros a q b0 Kq. rewrite LK by exact Kq.
      destruct (String.eqb_spec a (dn_name nd)) as [->|]; [destruct (String.eqb_spec q p) as [->|]|]; cbn [andb]; intros Eq.
      * exists nd. split; [apply in_or_app; right; left; reflexivity|reflexivity].
      * destruct (Ikeys _ _ _ Kq Eq) as (nd0 & A & B). exists nd0. split; [apply in_or_app; auto|exact B].
      * destruct (Ikeys _ _ _ Kq Eq) as (nd0 & A & B). exists nd0. split; [apply in_or_app; auto|exact B].
    + intros d1 nd0 p0 d2 par0 E K0 EP0. apply snoc_inv in E as [(-> & -> & E)|(d2' & -> & ->)]; [injection E as -> ->|eauto].
      destruct RT as [Q _]. congruence.
    + rewrite LM. eauto.
    + apply (slack_step d (nd, p) n nn n' (Some va) (nt_next n)); auto.
      * intros y Hy Ky. rewrite LKn by exact Ky. rewrite (eqb_pair_false (dn_name nd) p d FRESH y Hy). reflexivity.
      * cbn [fst snd]. intros va0 Q _. injection Q as <-. exact SP.
      * intros _. cbn [fst snd]. rewrite LKn by exact K. rewrite !String.eqb_refl. reflexivity.
    + apply (slack_child_step d (nd, p) n nn n' (Some va) (nt_next n)); auto.
Qed.
Lemma inv_start : inv [] (empty_net, None).
Proof.
  constructor; cbn; auto using wf_empty; try constructor; try (intros; discriminate); try (intros; contradiction).
  - intros d1 nd p d2 par E. destruct d1; discriminate.
  - intros d1 nd p d2 E. destruct d1; discriminate.
Qed.
Lemma hangs_fun a r1 r2 : hangs_from nds a r1 -> hangs_from nds a r2 -> r1 = r2.
Proof.
  assert (U : forall x y, In x nds -> In y nds -> dn_name x = dn_name y -> x = y).
  { clear - names. induction nds as [|z l IH]; cbn in *; [tauto|]. inversion names; subst.
    intros x y [->|Hx] [->|Hy] E; auto; exfalso; apply H1; apply in_map_iff; eauto. }
  intros H. revert r2. induction H as [nd Hn Hr|nd par r Hn Hp Hh IH]; intros r2 H2.
  - inversion H2 as [nd' Hn' Hr' E1 E2|nd' par' r' Hn' Hp' Hh' E1 E2]; subst.
    + reflexivity.
    + assert (nd' = nd) by (apply U; auto). subst. destruct Hr. congruence.
  - inversion H2 as [nd' Hn' Hr' E1 E2|nd' par' r' Hn' Hp' Hh' E1 E2]; subst.
    + assert (nd' = nd) by (apply U; auto). subst. destruct Hr'. congruence.
    + assert (nd' = nd) by (apply U; auto). subst. rewrite Hp in Hp'. injection Hp' as <-. auto.
Qed.
End Table.

Lemma visits_nodup nds : NoDup (map dn_name nds) -> Forall (fun nd => NoDup (dn_phases nd)) nds -> NoDup (map pname (visits nds)).
Proof.
  induction nds as [|nd nds IH]; cbn; intros H1 H2; [constructor|].
  inversion H1; subst. inversion H2; subst. rewrite map_app, map_map. unfold pname at 1. cbn.
  assert (IH' := IH H4 H6). clear IH.
  induction (dn_phases nd) as [|p ps IHp]; cbn; [exact IH'|].
  inversion H5; subst. constructor; [|apply IHp; auto; constructor; auto].
  intros H. apply in_app_iff in H as [H|H].
  - apply in_map_iff in H as (q & E & Hq). injection E as ->. tauto.
  - apply in_map_iff in H as ((nd0, q) & E & Hq). unfold pname in E. cbn in E. injection E as E1 E2.
    unfold visits in Hq. apply in_flat_map in Hq as (nd1 & Hn & Hq). apply in_map_iff in Hq as (q1 & E3 & _). injection E3 as -> ->.
    apply H3. rewrite <- E1. apply in_map. exact Hn.
Qed.
Lemma visits_in nds y : In y (visits nds) <-> In (fst y) nds /\ In (snd y) (dn_phases (fst y)).
Proof.
  unfold visits. rewrite in_flat_map. split.
  - intros (nd & H & Hy). apply in_map_iff in Hy as (p & <- & Hp). auto.
  - intros [H1 H2]. exists (fst y). split; [exact H1|]. apply in_map_iff. exists (snd y). split; [now rewrite <- surjective_pairing|exact H2].
Qed.
Lemma create_buses_inv ms n : tidy ms -> create_buses ms = Ok n ->
  exists st, inv (nodes_of ms) (visits (nodes_of ms)) (n, st).
Proof.
  intros [T1 T2] E. unfold create_buses in E. apply bind_ok in E as ([n0 st] & E & E1). injection E1 as <-.
  rewrite nodes_as_visits in E. exists st. cbn [fst].
  refine (mfold_prefix _ _ step (inv (nodes_of ms)) (visits (nodes_of ms)) _ (empty_net, None) (n0, st) (inv_start _) E).
  intros d x r s s' EL I ES. eapply inv_step; eauto.
  - intros y Hy. apply (visits_in (nodes_of ms) y). rewrite EL.
    apply in_app_iff in Hy as [Hy|[<-|[]]]; apply in_or_app; cbn; auto.
  - pose proof (visits_nodup _ T1 T2) as ND. rewrite EL in ND.
    change (x :: r) with ([x] ++ r) in ND. rewrite app_assoc, map_app in ND.
    clear - ND. induction (map pname (d ++ [x])) as [|z l IH]; [constructor|].
    cbn in ND. inversion ND; subst. constructor; [|auto]. intros H. apply H1. apply in_or_app. auto.
Qed.

(** *** statements *)
Lemma bus_numbers ms n : tidy ms -> create_buses ms = Ok n -> map tb_id (nt_buses n) = seq 0 (List.length (nt_buses n)).
Proof.
  intros T E. destruct (create_buses_inv _ _ T E) as [st I]. pose proof (i_wf _ _ _ I) as W. cbn [fst] in W. rewrite (wf_length _ W). exact (proj1 W).
Qed.
Lemma bus_origin ms n : tidy ms -> create_buses ms = Ok n ->
  NoDup (map (fun b => (tb_name b, tb_phase b)) (nt_buses n)) /\
  forall a p, (exists b, In b (nt_buses n) /\ tb_name b = a /\ tb_phase b = p) <->
              (exists nd, In nd (nodes_of ms) /\ dn_name nd = a /\ is_root nd /\ In p (dn_phases nd) /\ known p).
Proof.
  intros T E. destruct (create_buses_inv _ _ T E) as [st I]. split; [exact (i_nodup _ _ _ I)|].
  intros a p. split.
  - intros (b & Hb & <- & <-). pose proof (i_bus _ _ _ I) as B. rewrite Forall_forall in B.
    destruct (B b Hb) as (_ & K & nd & H & R & N). apply visits_in in H as [H1 H2]. exists nd. auto.
  - intros (nd & H & <- & R & Hp & K). 
    destruct (i_has _ _ _ I nd p) as [b L]; [apply visits_in; auto|exact K|auto|].
    destruct (i_hang _ _ _ I _ _ _ K L) as (bus & N & P & HF). exists bus. split; [eapply nth_error_In; eauto|]. split; [|exact P].
    eapply hangs_fun; [exact (proj1 T)|exact HF|]. now constructor.
Qed.
Lemma node_bus ms n nd p : tidy ms -> create_buses ms = Ok n ->
  In nd (nodes_of ms) -> In p (dn_phases nd) -> known p -> (is_root nd \/ dn_parent nd <> None) ->
  exists b bus r, found n (dn_name nd) p b /\ nth_error (nt_buses n) b = Some bus /\ tb_name bus = r /\ tb_phase bus = p /\
                  hangs_from (nodes_of ms) (dn_name nd) r.
Proof.
  intros T E Hn Hp K R. destruct (create_buses_inv _ _ T E) as [st I].
  destruct (i_has _ _ _ I nd p) as [b L]; [apply visits_in; auto|exact K|exact R|].
  destruct (i_hang _ _ _ I _ _ _ K L) as (bus & N & P & HF). exists b, bus, (tb_name bus). auto.
Qed.
Lemma same_bus ms n a b p q i j : tidy ms -> create_buses ms = Ok n -> known p -> known q ->
  found n a p i -> found n b q j ->
  (i = j <-> p = q /\ exists r, hangs_from (nodes_of ms) a r /\ hangs_from (nodes_of ms) b r).
Proof.
  intros T E Kp Kq Fi Fj. destruct (create_buses_inv _ _ T E) as [st I].
  destruct (i_hang _ _ _ I _ _ _ Kp Fi) as (bi & Ni & Pi & Hi).
  destruct (i_hang _ _ _ I _ _ _ Kq Fj) as (bj & Nj & Pj & Hj). cbn [fst] in *. split.
  - intros ->. rewrite Ni in Nj. injection Nj as <-. split; [congruence|]. exists (tb_name bi). auto.
  - intros [-> (r & H1 & H2)].
    assert (E1 : tb_name bi = r) by (eapply hangs_fun; [exact (proj1 T)| |]; eauto).
    assert (E2 : tb_name bj = r) by (eapply hangs_fun; [exact (proj1 T)| |]; eauto).
    apply (proj1 (NoDup_nth_error (map (fun b => (tb_name b, tb_phase b)) (nt_buses n))) (i_nodup _ _ _ I)).
    + rewrite map_length. apply nth_error_Some. congruence.
    + rewrite (map_nth_error _ _ _ Ni), (map_nth_error _ _ _ Nj). congruence.
Qed.
Lemma parent_first ms n l1 nd l2 par p : tidy ms -> create_buses ms = Ok n -> nodes_of ms = l1 ++ nd :: l2 ->
  dn_parent nd = Some par -> In p (dn_phases nd) -> known p ->
  exists nd', In nd' l1 /\ dn_name nd' = par /\ In p (dn_phases nd').
Proof.
  intros T E EL EP Hp K. destruct (create_buses_inv _ _ T E) as [st I].
  destruct (in_split _ _ Hp) as (q1 & q2 & EQ).
  destruct (i_before _ _ _ I (visits l1 ++ map (pair nd) q1) nd p (map (pair nd) q2 ++ visits l2) par) as (nd' & H & N); auto.
  - rewrite EL. unfold visits. rewrite flat_map_app. cbn [flat_map]. rewrite EQ, map_app. cbn [map]. rewrite <- !app_assoc. reflexivity.
  - apply in_app_iff in H as [H|H].
    + apply visits_in in H as [H1 H2]. eauto.
    + apply in_map_iff in H as (q & E1 & Hq). injection E1 as -> ->. exfalso.
      destruct T as [_ T2]. rewrite EL in T2. apply Forall_app in T2 as [_ T2]. inversion T2; subst. rewrite EQ in H1.
      apply NoDup_remove_2 in H1. apply H1, in_or_app. auto.
Qed.
Lemma swing_filter nds : flat_map (fun nd => if dn_source nd then map (pair nd) (known_phases nd) else []) nds =
  filter (fun x => dn_source (fst x) && knownb (snd x)) (visits nds).
Proof.
  induction nds as [|nd nds IH]; [reflexivity|]. cbn [flat_map visits]. fold (visits nds). rewrite filter_app, <- IH. f_equal.
  unfold known_phases. change (fun p => mem p ["A"; "B"; "C"; "1"; "2"]%string) with knownb. destruct (dn_source nd) eqn:S.
  - induction (dn_phases nd) as [|p ps IHp]; cbn [filter map]; [reflexivity|].
    cbn [fst snd]. rewrite S. cbn [andb]. destruct (knownb p); cbn [map]; rewrite IHp; reflexivity.
  - induction (dn_phases nd) as [|p ps IHp]; cbn [filter map]; [reflexivity|].
    cbn [fst snd]. rewrite S. cbn [andb]. exact IHp.
Qed.
Lemma slack_list ms n : tidy ms -> create_buses ms = Ok n ->
  Forall2 (fun sk x => (is_root (fst x) -> set_point (fst x) (snd x) (sk_v sk, sk_ang sk)) /\
                       (is_root (fst x) \/ dn_parent (fst x) <> None -> found n (dn_name (fst x)) (snd x) (sk_bus sk)))
          (nt_slack n) (swing_phases ms).
Proof.
  intros T E. destruct (create_buses_inv _ _ T E) as [st I]. unfold swing_phases. rewrite swing_filter. exact (i_slack _ _ _ I).
Qed.
Lemma slack_child ms n v1 nd p v2 : tidy ms -> create_buses ms = Ok n -> visits (nodes_of ms) = v1 ++ (nd, p) :: v2 ->
  known p -> dn_source nd = true -> ~ is_root nd ->
  exists sk nd' p', last_made v1 = Some (nd', p') /\ set_point nd' p' (sk_v sk, sk_ang sk) /\
    nth_error (nt_slack n) (List.length (filter (fun x => dn_source (fst x) && knownb (snd x)) v1)) = Some sk.
Proof.
  intros T E. destruct (create_buses_inv _ _ T E) as [st I]. intros H. exact (i_slack_child _ _ _ I v1 nd p v2 H).
Qed.
