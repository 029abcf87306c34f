(** The positive sequence networks of RAW files fit the solver. *)
From Coq Require Import Reals ZArith String List Bool Lia Lra Arith Permutation.
From Verif Require Import PyExc Components Network SpecNetwork SpecNetStamper Graph PowerFlow SpecPowerFlow RawTransformers RawParser SpecRaw RawText SpecRawText
  RawFieldProofs RawCsvProofs RawBodyProofs RawCaseProofs RawFileProofs Loader SolverNet SpecSolverNet ThreePhaseBase SolverNetProofs.
Import ListNotations.
Local Open Scope R_scope.

Lemma numbers_unique to_int to_float lines c : read_raw to_int to_float lines = Ok c -> NoDup (map b_num (rc_buses c)).
Proof.
  unfold read_raw. intros H. apply ThreePhaseBase.bind_ok in H as (rows & H1 & H). apply ThreePhaseBase.bind_ok in H as (f & H2 & H3).
  apply rows_trimmed in H1. apply (read_rows_iff to_int to_float rows f H1) in H2 as (rest & is & _ & _ & HT). destruct f as [rev sb t]. cbn in HT. subst t.
  apply case_of_iff in H3. exact (case_buses _ _ _ _ H3).
Qed.

Section Case.
Variable c : raw_case.
Let bs := rc_buses c.
Definition on (n : Z) : Prop := online bs n = true.
Lemma key_on n m : bus_key bs n = Ok m -> on m.
Proof. unfold bus_key, on. destruct (online bs n) eqn:O; [|discriminate]. intros Q. injection Q as <-. exact O. Qed.
Lemma parsed_buses rev l acc out : mfold (fun acc b => check known_rev rev else NameError; Ok (if Z.eqb (b_ide b) 4 then acc else acc ++ [new_bus b])) l acc = Ok out ->
  out = acc ++ map new_bus (filter (fun b => negb (Z.eqb (b_ide b) 4)) l).
Proof.
  revert acc. induction l as [|b l IH]; intros acc E; cbn [mfold] in E; [injection E as <-; now rewrite app_nil_r|].
  apply ThreePhaseBase.bind_ok in E as (a & E1 & E). apply ThreePhaseBase.bind_ok in E1 as (u & _ & E1). injection E1 as <-. rewrite (IH _ E). cbn [filter].
  destruct (Z.eqb (b_ide b) 4); cbn [negb map]; [reflexivity|]. rewrite <- app_assoc. reflexivity.
Qed.
Lemma on_bus b0 n : parse_buses (rc_rev c) bs = Ok b0 -> on n -> In n (map ob_num b0).
Proof.
  intros E O. unfold parse_buses in E. apply parsed_buses in E as ->. unfold on, online in O. apply existsb_exists in O as (b & Hb & Q). apply andb_true_iff in Q as [Q1 Q2].
  apply Z.eqb_eq in Q1. cbn. rewrite map_map. apply in_map_iff. exists b. split; [exact Q1|]. apply filter_In. auto.
Qed.
Definition gens_fine (nums : list Z) (st : gen_state) : Prop :=
  map ob_num (gs_buses st) = nums /\ Forall on (map RawParser.sl_bus (gs_slack st)) /\ Forall on (map og_bus (gs_gens st)) /\ Forall on (map fst (gs_loads st)).
Lemma update_map A B (f : A -> A) (g : A -> B) n l : (forall a, g (f a) = g a) -> map g (update_nth n f l) = map g l.
Proof. intros H. revert n. induction l as [|a l IH]; intros [|n]; cbn; [reflexivity|reflexivity|now rewrite H|now rewrite IH]. Qed.
Lemma snoc A (P : A -> Prop) l a : Forall P l -> P a -> Forall P (l ++ [a]).
Proof. intros H Ha. apply Forall_app. auto. Qed.
Lemma gen_fine nums st g st' : gens_fine nums st -> gen_step bs (rc_sbase c) st g = Ok st' -> gens_fine nums st'.
Proof.
  intros (F1 & F2 & F3 & F4) E. unfold gen_step in E. destruct (slack_bus bs (g_bus g)).
  - unfold slack_gen_step in E. apply ThreePhaseBase.bind_ok in E as (b & _ & E). destruct (_ && _)%bool; [|injection E as <-; repeat split; assumption].
    destruct (zlookup _ _) as [k|].
    + apply ThreePhaseBase.bind_ok in E as (dp & _ & E). injection E as <-. split; [exact F1|]. split; [|split; assumption]. cbn [gs_slack]. rewrite update_map; [exact F2|reflexivity].
    + apply ThreePhaseBase.bind_ok in E as (n & Kn & E). injection E as <-. split.
      * cbn [gs_buses]. unfold set_slack_type. rewrite map_map, <- F1. apply map_ext. intros x. destruct (Z.eqb _ _); reflexivity.
      * split; [|split; assumption]. cbn [gs_slack]. rewrite map_app. apply snoc; [exact F2|exact (key_on _ _ Kn)].
  - unfold conv_gen_step in E. apply ThreePhaseBase.bind_ok in E as (q & _ & E). destruct (_ && _)%bool; [|injection E as <-; repeat split; assumption].
    destruct (_ && _)%bool.
    + apply ThreePhaseBase.bind_ok in E as (n & Kn & E). injection E as <-. split; [exact F1|]. split; [exact F2|]. split; [exact F3|]. cbn [gs_loads]. rewrite map_app. apply snoc; [exact F4|exact (key_on _ _ Kn)].
    + destruct (_ && _)%bool; [injection E as <-; repeat split; assumption|]. destruct (memz _ _); [discriminate|].
      apply ThreePhaseBase.bind_ok in E as (n & Kn & E). injection E as <-. split; [exact F1|]. split; [exact F2|]. split; [|exact F4]. cbn [gs_gens]. rewrite map_app. apply snoc; [exact F3|exact (key_on _ _ Kn)].
Qed.
Lemma ss_fine st s st' : Forall on (map og_bus (ws_gens st)) /\ Forall on (map os_bus (ws_shunts st)) -> ss_step bs st s = Ok st' ->
  Forall on (map og_bus (ws_gens st')) /\ Forall on (map os_bus (ws_shunts st')).
Proof.
  intros [F1 F2] E. unfold ss_step in E. destruct (_ && _)%bool; [|injection E as <-; auto]. destruct (Z.eqb _ _).
  - destruct (compute_bmin_bmax _) as [bmin bmax]. cbv zeta in E. destruct (memz _ _); [discriminate|]. apply ThreePhaseBase.bind_ok in E as (q & _ & E).
    apply ThreePhaseBase.bind_ok in E as (n & Kn & E). injection E as <-. split; [|exact F2]. cbn [ws_gens]. rewrite map_app. apply snoc; [exact F1|exact (key_on _ _ Kn)].
  - apply ThreePhaseBase.bind_ok in E as (n & Kn & E). injection E as <-. split; [exact F1|]. cbn [ws_shunts]. rewrite map_app. apply snoc; [exact F2|exact (key_on _ _ Kn)].
Qed.
Lemma fs_fine acc f acc' : Forall on (map os_bus acc) -> fs_step bs acc f = Ok acc' -> Forall on (map os_bus acc').
Proof.
  intros F E. unfold fs_step in E. destruct (_ && _)%bool; [|injection E as <-; auto]. apply ThreePhaseBase.bind_ok in E as (n & Kn & E). injection E as <-.
  rewrite map_app. apply snoc; [exact F|exact (key_on _ _ Kn)].
Qed.
Lemma load_fine acc l acc' : Forall on (map fst acc) -> load_step bs acc l = Ok acc' -> Forall on (map fst acc').
Proof.
  intros F E. unfold load_step in E. destruct (_ && _)%bool; [|injection E as <-; auto]. apply ThreePhaseBase.bind_ok in E as (n & Kn & E). injection E as <-.
  rewrite map_app. apply snoc; [exact F|exact (key_on _ _ Kn)].
Qed.
Lemma branch_fine acc b acc' : Forall (fun l : Z * Z * line => on (fst (fst l)) /\ on (snd (fst l))) acc -> branch_step bs acc b = Ok acc' ->
  Forall (fun l : Z * Z * line => on (fst (fst l)) /\ on (snd (fst l))) acc'.
Proof.
  intros F E. unfold branch_step in E. destruct (_ && _)%bool; [|injection E as <-; auto]. apply ThreePhaseBase.bind_ok in E as (f & Kf & E). apply ThreePhaseBase.bind_ok in E as (t & Kt & E).
  destruct (new_line _ _ _); [|discriminate]. destruct (line_shunt b); [discriminate|]. injection E as <-. apply snoc; [exact F|]. cbn. split; [exact (key_on _ _ Kf)|exact (key_on _ _ Kt)].
Qed.
Definition xfmr_on (x : xfmr) : Prop := on (x_from x) /\ on (x_to x).
Lemma make_on from to r x tr ang g b rating y : make_xfmr bs from to r x tr ang g b rating = Ok y -> xfmr_on y.
Proof.
  intros E. unfold make_xfmr in E. apply ThreePhaseBase.bind_ok in E as (f & Kf & E). apply ThreePhaseBase.bind_ok in E as (t & Kt & E).
  destruct (new_transformer _ _ _ _); [|discriminate]. injection E as <-. split; [exact (key_on _ _ Kf)|exact (key_on _ _ Kt)].
Qed.
Lemma x2_fine acc t acc' : Forall xfmr_on acc -> x2_step bs (rc_sbase c) acc t = Ok acc' -> Forall xfmr_on acc'.
Proof.
  intros F E. unfold x2_step in E. destruct (_ && _)%bool; [|injection E as <-; auto]. apply ThreePhaseBase.bind_ok in E as (o & E1 & E). injection E as <-.
  unfold two_winding in E1. apply ThreePhaseBase.bind_ok in E1 as (d & _ & E1). destruct (Z.eqb _ _); [injection E1 as <-; exact F|].
  apply ThreePhaseBase.bind_ok in E1 as (x & Ex & E1). injection E1 as <-. apply snoc; [exact F|exact (make_on _ _ _ _ _ _ _ _ _ _ Ex)].
Qed.
Lemma leg_on w from k z tr ang g b rating l : star_leg bs w from k z tr ang g b rating = Ok l -> Forall xfmr_on l.
Proof.
  unfold star_leg. destruct w; [|intros Q; injection Q as <-; constructor]. intros E. apply ThreePhaseBase.bind_ok in E as (x & Ex & E). injection E as <-.
  constructor; [exact (make_on _ _ _ _ _ _ _ _ _ _ Ex)|constructor].
Qed.
Definition stars (nums : list Z) (acc : list obus * list xfmr * Z) : Prop :=
  let '(buses, xs, next) := acc in
  Forall xfmr_on xs /\ (exists more, map ob_num buses = nums ++ more) /\ NoDup (map ob_num buses) /\ Forall (fun z => (z < next)%Z) (map ob_num buses).
Lemma x3_fine nums acc t acc' : stars nums acc -> x3_step bs (rc_sbase c) acc t = Ok acc' -> stars nums acc'.
Proof.
  destruct acc as [[buses xs] next]. intros (F1 & (more & F2) & F3 & F4) E. unfold x3_step in E. destruct (Z.eqb _ _); [injection E as <-; unfold stars; eauto|].
  apply ThreePhaseBase.bind_ok in E as (l & E1 & E). unfold three_winding in E1. apply ThreePhaseBase.bind_ok in E1 as (d & _ & E1).
  apply ThreePhaseBase.bind_ok in E1 as (l1 & L1 & E1). apply ThreePhaseBase.bind_ok in E1 as (l2 & L2 & E1). apply ThreePhaseBase.bind_ok in E1 as (l3 & L3 & E1). injection E1 as <-.
  apply leg_on in L1, L2, L3. destruct (l1 ++ l2 ++ l3) as [|y ys] eqn:EL; [injection E as <-; unfold stars; eauto|]. rewrite <- EL in E. injection E as <-. unfold stars. split.
  - apply Forall_app. split; [exact F1|]. rewrite !Forall_app. auto.
  - rewrite map_app. cbn [map ob_num]. split; [exists (more ++ [next]); rewrite F2, app_assoc; reflexivity|]. rewrite Forall_forall in F4. split.
    + apply (Permutation_NoDup (Permutation_cons_append _ next)). constructor; [|exact F3]. intros I. specialize (F4 _ I). lia.
    + rewrite Forall_forall. intros z Hz. apply in_app_iff in Hz as [Hz|[<-|[]]]; [specialize (F4 _ Hz); lia|lia].
Qed.
Lemma largest_top l z : largest l = Ok z -> Forall (fun k => (k <= z)%Z) (map ob_num l).
Proof.
  destruct l as [|b l]; [discriminate|]. cbn [largest]. intros E. injection E as <-. cbn [map].
  assert (G : forall l a, (a <= fold_left Z.max l a)%Z /\ Forall (fun k => (k <= fold_left Z.max l a)%Z) l).
  { clear. induction l as [|x l IH]; intros a; cbn; [split; [lia|constructor]|]. destruct (IH (Z.max a x)) as [G1 G2]. split; [lia|]. constructor; [lia|exact G2]. }
  destruct (G (map ob_num l) (ob_num b)) as [G1 G2]. constructor; assumption.
Qed.
Lemma sub_nodup A B (f : A -> B) (p : A -> bool) l : NoDup (map f l) -> NoDup (map f (filter p l)).
Proof.
  induction l as [|a l IH]; cbn; intros N; [constructor|]. inversion N as [|? ? N1 N2]; subst. destruct (p a); [|auto]. cbn. constructor; [|auto].
  intros I. apply N1. apply in_map_iff in I as (b & <- & Hb). apply filter_In in Hb as [Hb _]. now apply in_map.
Qed.
Lemma raw_fit o : NoDup (map b_num bs) -> parse_raw c = Ok o -> well_attached o /\ NoDup (map ob_num (n_buses o)).
Proof.
  intros ND E. unfold parse_raw in E. fold bs in E. apply ThreePhaseBase.bind_ok in E as (b0 & E0 & E).
  apply ThreePhaseBase.bind_ok in E as (gs & Eg & E). apply ThreePhaseBase.bind_ok in E as (ws & Ew & E). apply ThreePhaseBase.bind_ok in E as (sh & Es & E).
  apply ThreePhaseBase.bind_ok in E as (lo & El & E). apply ThreePhaseBase.bind_ok in E as (li & Ei & E). apply ThreePhaseBase.bind_ok in E as (x2 & E2 & E).
  apply ThreePhaseBase.bind_ok in E as (top & Et & E). apply ThreePhaseBase.bind_ok in E as ([[buses xs] nx] & E3 & E). injection E as <-.
  pose proof (on_bus b0) as ON. assert (N0 : NoDup (map ob_num b0)).
  { pose proof E0 as Q. unfold parse_buses in Q. apply parsed_buses in Q as ->. cbn. rewrite map_map. apply sub_nodup. exact ND. }
  eapply (ThreePhaseBase.mfold_inv _ _ _ (gens_fine (map ob_num b0))) in Eg; [|intros; eapply gen_fine; eassumption|repeat split; constructor].
  destruct Eg as (G1 & G2 & G3 & G4).
  eapply (ThreePhaseBase.mfold_inv _ _ _ (fun st => Forall on (map og_bus (ws_gens st)) /\ Forall on (map os_bus (ws_shunts st)))) in Ew; [|intros; eapply ss_fine; eassumption|split; [exact G3|constructor]].
  destruct Ew as (W1 & W2).
  eapply (ThreePhaseBase.mfold_inv _ _ _ (fun a => Forall on (map os_bus a))) in Es; [|intros; eapply fs_fine; eassumption|exact W2].
  eapply (ThreePhaseBase.mfold_inv _ _ _ (fun a => Forall on (map fst a))) in El; [|intros; eapply load_fine; eassumption|exact G4].
  eapply (ThreePhaseBase.mfold_inv _ _ _ (Forall (fun l : Z * Z * line => on (fst (fst l)) /\ on (snd (fst l))))) in Ei; [|intros; eapply branch_fine; eassumption|constructor].
  eapply (ThreePhaseBase.mfold_inv _ _ _ (Forall xfmr_on)) in E2; [|intros; eapply x2_fine; eassumption|constructor].
  apply largest_top in Et.
  eapply (ThreePhaseBase.mfold_inv _ _ _ (stars (map ob_num b0))) in E3; [|intros; eapply x3_fine; eassumption|].
  2:{ split; [exact E2|]. split; [exists []; rewrite app_nil_r; exact G1|]. split; [rewrite G1; exact N0|]. eapply Forall_impl; [|exact Et]. intros z Hz. cbv beta in Hz. lia. }
  destruct E3 as (X1 & (more & X2) & X3 & _). split; [|exact X3].
  assert (AT : forall z, on z -> attached {| n_buses := buses; n_slack := gs_slack gs; n_gens := ws_gens ws; n_loads := lo; n_shunts := sh; n_lines := li; n_xfmrs := xs |} z).
  { intros z Hz. unfold attached. cbn [n_buses]. rewrite X2. apply in_app_iff. left. exact (on_bus _ _ E0 Hz). }
  assert (AF : forall A (f : A -> Z) l, Forall on (map f l) -> Forall (attached {| n_buses := buses; n_slack := gs_slack gs; n_gens := ws_gens ws; n_loads := lo; n_shunts := sh; n_lines := li; n_xfmrs := xs |}) (map f l)).
  { intros A f l H. eapply Forall_impl; [|exact H]. exact AT. }
  unfold well_attached. cbn [n_slack n_gens n_loads n_shunts n_lines n_xfmrs].
  split; [apply AF; exact G2|]. split; [apply AF; exact W1|]. split; [apply AF; exact El|]. split; [apply AF; exact Es|]. split.
  - eapply Forall_impl; [|exact Ei]. intros x [A B]. split; apply AT; assumption.
  - eapply Forall_impl; [|exact X1]. intros x [A B]. split; apply AT; assumption.
Qed.
End Case.
Lemma file_fit to_int to_float lines o : load_raw to_int to_float lines = Ok o -> well_attached o /\ NoDup (map ob_num (n_buses o)).
Proof. intros E. unfold load_raw in E. apply ThreePhaseBase.bind_ok in E as (c & E1 & E). eapply raw_fit; [exact (numbers_unique _ _ _ _ E1)|exact E]. Qed.

(** *** the network of the solver *)
Lemma ref_of o z : attached o z -> exists k, sx_ref o z = Some k /\ is_bus o z k.
Proof.
  intros H. apply in_map_iff in H as (b & <- & Hb). destruct (place_in _ (fun x => Z.eqb (ob_num x) (ob_num b)) _ b Hb (Z.eqb_refl _)) as [k Hk].
  exists k. split; [exact Hk|]. apply place_some in Hk as (x & Hx & Q). apply Z.eqb_eq in Q. exists x. auto.
Qed.
Lemma is_bus_once o z k k' : NoDup (map ob_num (n_buses o)) -> is_bus o z k -> is_bus o z k' -> k = k'.
Proof.
  intros N (b & H & Q) (b' & H' & Q'). apply (proj1 (NoDup_nth_error _) N).
  - rewrite map_length. apply nth_error_Some. congruence.
  - rewrite (map_nth_error _ _ _ H), (map_nth_error _ _ _ H'). congruence.
Qed.
Lemma sx_numbers k l : map bus_id (sx_buses k l) = seq k (length l).
Proof. revert k. induction l as [|b l IH]; intros k; cbn; [reflexivity|]. now rewrite IH. Qed.
Lemma sx_elements opt o e : In e (elements (sx_network opt o)) ->
  (exists l f t, e = ELine l f t) \/ (exists y f t, e = EXf y f None t None) \/ (exists s, e = ESlack s) \/ (exists g, e = EGen g) \/ (exists l f, e = ELoad l f None) \/ (exists G B b, e = EShunt G B b).
Proof.
  unfold elements. cbn. rewrite !in_app_iff. intros H. destruct H as [H|[H|[H|[H|[H|H]]]]].
  - apply in_map_iff in H as (x & <- & _). eauto 10.
  - apply in_map_iff in H as (x & <- & _). eauto 10.
  - rewrite map_map in H. apply in_map_iff in H as (x & <- & _). eauto 10.
  - rewrite map_map in H. apply in_map_iff in H as (x & <- & _). eauto 10.
  - apply in_map_iff in H as (x & <- & _). eauto 10.
  - apply in_map_iff in H as (x & <- & _). eauto 14.
Qed.
Lemma sx_ok opt o : network_ok (sx_network opt o).
Proof.
  unfold network_ok. cbn [nw_buses sx_network]. rewrite sx_numbers. split; [apply seq_NoDup|]. intros e He k Hk. apply in_seq.
  assert (Q : forall z, Some k = sx_ref o z -> (0 <= k < 0 + length (n_buses o))%nat) by (intros z Hz; symmetry in Hz; apply place_lt in Hz; lia).
  unfold elements in He. cbn in He. rewrite !in_app_iff in He. destruct He as [H|[H|[H|[H|[H|H]]]]].
  - apply in_map_iff in H as (x & <- & _). cbn in Hk. destruct Hk as [Hk|[Hk|[]]]; eauto.
  - apply in_map_iff in H as (x & <- & _). cbn in Hk. destruct Hk as [Hk|[Hk|[Hk|[Hk|[]]]]]; try discriminate; eauto.
  - rewrite map_map in H. apply in_map_iff in H as (x & <- & _). cbn in Hk. destruct Hk as [Hk|[]]; eauto.
  - rewrite map_map in H. apply in_map_iff in H as (x & <- & _). cbn in Hk. destruct Hk as [Hk|[]]; eauto.
  - apply in_map_iff in H as (x & <- & _). cbn in Hk. destruct Hk as [Hk|[Hk|[]]]; try discriminate; eauto.
  - apply in_map_iff in H as (x & <- & _). cbn in Hk. destruct Hk as [Hk|[]]; eauto.
Qed.
Lemma sx_ends opt o : ends_on_buses (sx_network opt o).
Proof.
  split; intros; match goal with H : In _ _ |- _ => apply sx_elements in H as [(? & ? & ? & Q)|[(? & ? & ? & Q)|[(? & Q)|[(? & Q)|[(? & ? & Q)|(? & ? & ? & Q)]]]]] end; discriminate.
Qed.
Lemma sx_sorted opt o : sorted (sx_network opt o).
Proof. split; intros e []. Qed.
Lemma sx_proper nm opt o : proper (sx_details nm o) (sx_network opt o).
Proof.
  split; [|split].
  - intros k. cbn. destruct (nth_error (n_buses o) k); reflexivity.
  - intros e f t k _ _ _. cbn. destruct (nth_error (n_buses o) k); reflexivity.
  - intros s k _ _. cbn. destruct (nth_error (n_buses o) k); reflexivity.
Qed.
