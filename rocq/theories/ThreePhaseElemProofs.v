(** Element creation: what is added to the network and what is left alone. *)
From Coq Require Import Reals ZArith String Ascii List Bool Lia Lra Arith.
From Verif Require Import PyExc Components Devices UnbalancedLine UnbalancedProofs ThreePhase SpecThreePhase SpecThreeElems ThreePhaseBase ThreePhaseBusProofs.
Import ListNotations.
Local Open Scope R_scope.

(** *** growth of the element lists *)
Definition grew (n n' : net) (e : elems) : Prop :=
  nt_loads n' = nt_loads n ++ e_loads e /\ nt_xfmrs n' = nt_xfmrs n ++ e_xfmrs e /\ nt_caps n' = nt_caps n ++ e_caps e /\
  nt_regs n' = nt_regs n ++ e_regs e /\ nt_fuses n' = nt_fuses n ++ e_fuses e /\ nt_switches n' = nt_switches n ++ e_switches e /\
  nt_lines n' = nt_lines n ++ e_lines e.
Definition eapp (a b : elems) : elems :=
  {| e_loads := e_loads a ++ e_loads b; e_xfmrs := e_xfmrs a ++ e_xfmrs b; e_caps := e_caps a ++ e_caps b;
     e_regs := e_regs a ++ e_regs b; e_fuses := e_fuses a ++ e_fuses b; e_switches := e_switches a ++ e_switches b;
     e_lines := e_lines a ++ e_lines b |}.
Lemma grew_refl n : grew n n no_elems.
Proof. unfold grew. cbn. rewrite !app_nil_r. tauto. Qed.
Lemma grew_trans a b c e f : grew a b e -> grew b c f -> grew a c (eapp e f).
Proof.
  intros (A1 & A2 & A3 & A4 & A5 & A6 & A7) (B1 & B2 & B3 & B4 & B5 & B6 & B7). unfold grew. cbn.
  rewrite B1, B2, B3, B4, B5, B6, B7, A1, A2, A3, A4, A5, A6, A7, !app_assoc. tauto.
Qed.
Lemma grew_add n n' e : nt_loads n' = nt_loads n -> nt_xfmrs n' = nt_xfmrs n -> nt_caps n' = nt_caps n -> nt_regs n' = nt_regs n ->
  nt_fuses n' = nt_fuses n -> nt_switches n' = nt_switches n -> nt_lines n' = nt_lines n -> grew n (add_elems n' e) e.
Proof. intros. unfold grew. cbn. repeat split; congruence. Qed.

(** *** references stay inside the bus table *)
Definition bounded (k : nat) (l : list nat) : Prop := Forall (fun i => (i < k)%nat) l.
Lemma bounded_app k l m : bounded k (l ++ m) <-> bounded k l /\ bounded k m.
Proof. apply Forall_app. Qed.
Lemma bounded_le k k' l : (k <= k')%nat -> bounded k l -> bounded k' l.
Proof. intros L H. eapply Forall_impl; [|exact H]. cbn. lia. Qed.
Ltac bnd := repeat (apply Forall_cons; [cbn; lia|]); apply Forall_nil.
Definition good (n : net) : Prop := wf n /\ bounded (nt_next n) (all_refs n).
Definition elem_refs (e : elems) : list nat :=
  flat_map (fun l => opt_list (tl_from l) ++ opt_list (tl_to l)) (e_loads e) ++
  flat_map xfmr_refs (e_xfmrs e) ++ map tc_bus (e_caps e) ++
  flat_map (fun r => [tr_from r; tr_to r; tr_cur r]) (e_regs e) ++
  flat_map (fun f => [tf_from f; tf_to f; tf_mid f]) (e_fuses e) ++
  flat_map (fun s => [ts_from s; ts_to s]) (e_switches e).
Lemma good_add n e : good n -> bounded (nt_next n) (elem_refs e) -> good (add_elems n e).
Proof.
  intros [W B] E. split; [exact W|]. cbn [add_elems nt_next]. unfold all_refs, elem_refs in *. cbn.
  rewrite ?flat_map_app, ?map_app, !bounded_app in *. tauto.
Qed.
Lemma good_create n vm va name p v : good n -> good (fst (create_bus n vm va name p v)).
Proof.
  intros [W B]. split; [now apply wf_create|]. cbn [create_bus fst nt_next]. change (all_refs _) with (all_refs n).
  eapply bounded_le; [|exact B]. lia.
Qed.
Lemma good_init n i vr vi : good n -> good (set_init n i vr vi).
Proof. intros [W B]. split; [now apply wf_set_init|exact B]. Qed.

(** *** facts that survive *)
Lemma leads_mono n n' s p b : one_letter p -> ext n n' -> leads_to n s p b -> leads_to n' s p b.
Proof.
  intros O E L NI. specialize (L NI). unfold found in *. rewrite lookup_ok in *. rewrite (ext_map _ _ E); auto.
Qed.
Lemma leads_o_mono n n' s p b : one_letter p -> ext n n' -> leads_to_o n s p b -> leads_to_o n' s p b.
Proof. intros O E (t & H1 & H2). exists t. split; [exact H1|]. eapply leads_mono; eauto. Qed.
Lemma interior_mono n n' b name p : ext n n' -> interior_bus n b name p -> interior_bus n' b name p.
Proof.
  intros E (bus & N & V & M & P). destruct (ext_buses _ _ E) as (l & EB & _).
  assert (Q : nth_error (map ident (nt_buses n')) b = Some (ident bus)).
  { rewrite EB, nth_error_app1; [now apply map_nth_error|]. rewrite map_length. apply nth_error_Some. congruence. }
  rewrite nth_error_map in Q. destruct (nth_error (nt_buses n') b) as [bus'|] eqn:N'; [|discriminate].
  cbn in Q. unfold ident in Q. injection Q as Q1 Q2 Q3 Q4 Q5. exists bus'. split; [exact N'|].
  repeat split; congruence.
Qed.
Lemma lookup_leads n s p b : lookup_o n s p = Ok b -> leads_to_o n s p b.
Proof. intros H. apply lookup_o_ok in H as (t & -> & H). exists t. split; [reflexivity|]. intros _. exact H. Qed.
Lemma one_chr c : one_letter (chr c).
Proof. exists c. reflexivity. Qed.

Lemma ends_app a s : ends_with (a ++ s) s.
Proof. now exists a. Qed.
Lemma created_interior n vm va name p : wf n -> interior_bus (fst (create_bus n vm va name p true)) (snd (create_bus n vm va name p true)) name p.
Proof.
  intros W. eexists. split.
  - cbn [create_bus fst snd nt_buses]. rewrite nth_error_app2; rewrite (wf_length _ W); [|lia]. rewrite Nat.sub_diag. reflexivity.
  - cbn. auto.
Qed.

(** *** a loop that adds one group of elements per item *)
Lemma collect_loop A I T (f : net -> A -> pres net) (mk : list T -> elems) (items : A -> list I) (Q : net -> T -> I -> Prop) l :
  mk [] = no_elems -> (forall a b, eapp (mk a) (mk b) = mk (a ++ b)) ->
  (forall n n' e i, ext n n' -> Q n e i -> Q n' e i) ->
  (forall n x n', In x l -> good n -> f n x = Ok n' -> ext n n' /\ good n' /\ exists t, grew n n' (mk t) /\ Forall2 (Q n') t (items x)) ->
  forall n n', good n -> mfold f l n = Ok n' -> ext n n' /\ good n' /\ exists t, grew n n' (mk t) /\ Forall2 (Q n') t (flat_map items l).
Proof.
  intros MK0 MKA QM. induction l as [|x l IH]; intros H n n' G E; cbn in E.
  - injection E as <-. split; [apply ext_refl|]. split; [exact G|]. exists []. rewrite MK0. split; [apply grew_refl|constructor].
  - apply bind_ok in E as (n1 & E1 & E2).
    destruct (H n x n1 (or_introl eq_refl) G E1) as (X1 & G1 & t1 & W1 & Q1).
    destruct (IH (fun a b c Hb => H a b c (or_intror Hb)) n1 n' G1 E2) as (X2 & G2 & t2 & W2 & Q2).
    split; [eapply ext_trans; eauto|]. split; [exact G2|]. exists (t1 ++ t2). split.
    + rewrite <- MKA. eapply grew_trans; eauto.
    + cbn. apply Forall2_app; [|exact Q2].
      clear - QM Q1 X2. induction Q1; constructor; eauto.
Qed.

(** *** loads *)
Definition many_loads x := {| e_loads := x; e_xfmrs := []; e_caps := []; e_regs := []; e_fuses := []; e_switches := []; e_lines := [] |}.
Lemma load_mono n n' t l pl : ext n n' -> load_made n l pl t -> load_made n' l pl t.
Proof.
  intros E (H1 & H2 & H3 & H4 & H5 & H6 & H7 & H8). repeat (split; [assumption|]).
  destruct (tl_phase t) as [|a rest]; [exact H8|]. destruct H8 as [(f & F1 & F2) H8]. split.
  - exists f. split; [exact F1|]. eapply leads_o_mono; eauto. exists a; reflexivity.
  - destruct rest as [|b r]; [exact H8|]. destruct H8 as (g & G1 & G2). exists g. split; [exact G1|]. eapply leads_o_mono; eauto. exists b; reflexivity.
Qed.
Lemma last_token_spec name : last_part name (last_token name).
Proof.
  unfold last_token.
  assert (U : forall a b, has_underscore (a ++ b) = (has_underscore a || has_underscore b)%bool).
  { induction a; intros b; cbn; [reflexivity|]. rewrite IHa, orb_assoc. reflexivity. }
  assert (G : forall s acc, has_underscore acc = false ->
     has_underscore (last_token_from acc s) = false /\
     ((acc ++ s)%string = last_token_from acc s \/ exists pre, (acc ++ s)%string = (pre ++ "_" ++ last_token_from acc s)%string)).
  { induction s as [|c s IH]; intros acc HA; cbn [last_token_from].
    - rewrite sapp_nil. auto.
    - destruct (Ascii.eqb_spec c "_") as [->|NE].
      + destruct (IH EmptyString eq_refl) as [A B]. split; [exact A|]. right. cbn [append] in B. destruct B as [B|[pre B]].
        * exists acc. rewrite <- B. reflexivity.
        * exists (acc ++ "_" ++ pre)%string. rewrite B at 1. rewrite !sapp_assoc. reflexivity.
      + assert (HA' : has_underscore (acc ++ String c "") = false).
        { rewrite U, HA. cbn. destruct (Ascii.eqb_spec c "_"); [contradiction|reflexivity]. }
        destruct (IH _ HA') as [A B]. split; [exact A|]. rewrite sapp_assoc in B. exact B. }
  destruct (G name EmptyString eq_refl) as [A B]. split; [exact A|]. exact B.
Qed.
Lemma phload_step l name n pl n' : do_name l = Some name -> good n -> create_phload l name n pl = Ok n' ->
  ext n n' /\ good n' /\ exists t, grew n n' (many_loads t) /\ Forall2 (fun t i => load_made n' (fst i) (snd i) t) t [(l, pl)].
Proof.
  intros EN G E. unfold create_phload in E. apply bind_ok in E as (ph & EP & E). apply bind_ok in E as ([f t] & EE & E).
  injection E as <-. destruct (dp_phase pl) as [ph'|] eqn:DP; [|discriminate]. injection EP as ->.
  destruct ph as [|a rest]; [discriminate|]. apply bind_ok in EE as (f' & EF & EE). apply bind_ok in EE as (t' & ET & EE).
  injection EE as -> ->.
  assert (W := proj1 G). pose proof (wf_lookup_o _ _ _ _ W EF) as BF.
  assert (BT : bounded (nt_next n) (opt_list t)).
  { destruct rest as [|b r]; [injection ET as <-; constructor|]. apply bind_ok in ET as (g & EG & ET). injection ET as <-.
    constructor; [|constructor]. eapply wf_lookup_o; eauto. }
  split; [apply ext_add|]. split.
  - apply good_add; [exact G|]. cbn. rewrite !app_nil_r. constructor; [exact BF|exact BT].
  - eexists. split; [apply grew_add; reflexivity|]. constructor; [|constructor]. cbn [fst snd].
    unfold load_made. cbn [tl_p tl_q tl_z tl_ip tl_iq tl_triplex tl_phase tl_name tl_from tl_to fst snd].
    repeat (split; [reflexivity || assumption|]). split; [now destruct (dp_i pl)|]. split; [reflexivity|]. split; [exact DP|].
    split; [exists name; split; [exact EN|apply last_token_spec]|]. split.
    + exists f. split; [reflexivity|]. eapply leads_o_mono; [exact (one_chr a)|apply ext_add|]. now apply lookup_leads.
    + destruct rest as [|b r]; [injection ET as <-; reflexivity|]. apply bind_ok in ET as (g & EG & ET). injection ET as <-.
      exists g. split; [reflexivity|]. eapply leads_o_mono; [exact (one_chr b)|apply ext_add|]. now apply lookup_leads.
Qed.
Lemma flat_single A B (f : A -> B) l : flat_map (fun x => [f x]) l = map f l.
Proof. induction l; cbn; congruence. Qed.
Lemma load_step l n n' : good n -> create_load n l = Ok n' ->
  ext n n' /\ good n' /\ exists t, grew n n' (many_loads t) /\ Forall2 (fun t i => load_made n' (fst i) (snd i) t) t (map (pair l) (do_loads l)).
Proof.
  intros G E. unfold create_load in E. destruct (do_name l) as [name|] eqn:EN; [|discriminate].
  rewrite <- flat_single.
  refine (collect_loop _ _ _ (create_phload l name) many_loads (fun pl => [(l, pl)]) (fun n t i => load_made n (fst i) (snd i) t) (do_loads l) eq_refl _ _ _ n n' G E).
  - reflexivity.
  - intros. eapply load_mono; eauto.
  - intros m x m' _ Gm Em. eapply phload_step; eauto.
Qed.

(** *** capacitors *)
Definition many_caps x := {| e_loads := []; e_xfmrs := []; e_caps := x; e_regs := []; e_fuses := []; e_switches := []; e_lines := [] |}.
Lemma pdiv_ok x y z : pdiv x y = Ok z -> y <> 0 /\ z = x / y.
Proof.
  unfold pdiv, reqb. destruct (Req_EM_T y 0); [discriminate|]. injection 1 as <-. auto.
Qed.
Lemma pdiv_some x y : y <> 0 -> pdiv x y = Ok (x / y).
Proof. intros H. unfold pdiv, reqb. destruct (Req_EM_T y 0); [contradiction|reflexivity]. Qed.
Lemma attr_ok A (x : option A) a : attr x = Ok a -> x = Some a.
Proof. destruct x; cbn; congruence. Qed.
Lemma num_ok x a : num x = Ok a -> x = Some a.
Proof. destruct x; cbn; congruence. Qed.
Lemma cap_mono n n' t c pc : known (fst pc) -> ext n n' -> cap_made n c pc t -> cap_made n' c pc t.
Proof.
  intros K E (par & v & ctl & H1 & H2 & H3 & H4 & H5). exists par, v, ctl. split; [exact H1|]. split; [exact H2|]. split; [exact H3|].
  split; [|exact H5]. eapply leads_mono; eauto. now apply known_letter.
Qed.
Lemma mode_of_spec ctl m0 : cap_mode_of ctl = Ok m0 ->
  (m0 = C_MANUAL /\ ctl = "MANUAL"%string) \/ (m0 = C_VOLT /\ ctl = "VOLT"%string) \/
  ((m0 = C_VAR \/ m0 = C_VARVOLT) /\ ctl <> "MANUAL"%string /\ ctl <> "VOLT"%string).
Proof.
  unfold cap_mode_of. intros E.
  destruct (String.eqb_spec ctl "MANUAL"); [injection E as <-; auto|].
  destruct (String.eqb_spec ctl "VOLT"); [injection E as <-; auto|].
  destruct (String.eqb_spec ctl "VAR"); [injection E as <-; auto|].
  destruct (String.eqb_spec ctl "VARVOLT"); [injection E as <-; auto|discriminate].
Qed.
Lemma switch_of_spec p (sw : cap_switch) (o : option string) : In p ["A"; "B"; "C"]%string ->
  (if (String.eqb p "A" || String.eqb p "B" || String.eqb p "C")%bool then match o with Some t => cap_switch_of t | None => Ok OPEN end else Ok OPEN) = Ok sw ->
  sw = CLOSED <-> o = Some "CLOSED"%string.
Proof.
  intros HI E.
  assert (HB : (String.eqb p "A" || String.eqb p "B" || String.eqb p "C")%bool = true).
  { cbn in HI. destruct HI as [<-|[<-|[<-|[]]]]; reflexivity. }
  rewrite HB in E. destruct o as [t|].
  - unfold cap_switch_of in E. destruct (String.eqb_spec t "OPEN") as [H|H]; [rewrite H; injection E as <-; split; discriminate|].
    destruct (String.eqb_spec t "CLOSED") as [H'|H']; [rewrite H'; injection E as <-; tauto|discriminate].
  - injection E as <-. split; discriminate.
Qed.
Lemma phcap_step c n pc n' : good n -> create_phcap c n pc = Ok n' ->
  ext n n' /\ good n' /\ exists t, grew n n' (many_caps t) /\
    Forall2 (fun t i => known (fst (snd i)) /\ cap_made n' (fst i) (snd i) t) t (map (pair c) (filter (fun pc => mem (fst pc) (dc_connected c)) [pc])).
Proof.
  intros G E. unfold create_phcap in E. destruct pc as [p var]. cbn [filter fst].
  destruct (mem p (dc_connected c)); cbn [negb] in E.
  2:{ injection E as <-. split; [apply ext_refl|]. split; [exact G|]. exists []. split; [apply grew_refl|constructor]. }
  apply bind_ok in E as (ctl & E1 & E). apply bind_ok in E as (m0 & E2 & E). cbv zeta in E.
  apply bind_ok in E as (par & E3 & E). apply bind_ok in E as (b & E4 & E). apply bind_ok in E as (v & E5 & E).
  apply bind_ok in E as (ang & E6 & E). apply bind_ok in E as (B & E7 & E). apply bind_ok in E as (sw & E8 & E).
  injection E as <-. apply attr_ok in E1, E3, E5. apply pdiv_ok in E7 as [NZ ->].
  assert (K : known p). { apply known_angle. destruct (phase_angle p); [eauto|discriminate]. }
  assert (XI : forall vr vi e, ext n (add_elems (set_init n b vr vi) e)).
  { intros. eapply ext_trans; [apply ext_set_init|apply ext_add]. }
  split; [apply XI|]. split.
  - apply good_add; [now apply good_init|]. cbn. constructor; [|constructor]. eapply wf_lookup; [exact (proj1 G)|exact E4].
  - eexists. split; [apply grew_add; reflexivity|]. constructor; [|constructor]. cbn [fst snd]. split; [exact K|].
    exists par, v, ctl. cbn [fst snd tc_bus tc_B tc_mode tc_high tc_low tc_switch].
    split; [exact E3|]. split; [exact E5|]. split; [exact E1|]. split.
    { eapply leads_mono; [now apply known_letter|apply XI|]. intros _. exact E4. }
    split; [intros ->; apply NZ; ring|]. split; [field; intros ->; apply NZ; ring|].
    split; [reflexivity|]. split; [reflexivity|].
    destruct (mode_of_spec _ _ E2) as [[-> ->]|[[-> ->]|[[->| ->] [N1 N2]]]].
    + (* manual *)
      split; [split; [discriminate|intros [Q _]; discriminate]|]. split; [split; [auto|reflexivity]|].
      split; [congruence|]. intros _ HI. exact (switch_of_spec _ _ _ HI E8).
    + destruct (dc_high c) as [h|]; [destruct (dc_low c) as [lo|]|].
      * split; [split; [intros _; repeat split; discriminate|reflexivity]|].
        split; [split; [discriminate|intros [Q|[_ [Q|Q]]]; discriminate]|]. split; [injection E8 as <-; reflexivity|discriminate].
      * split; [split; [discriminate|intros (_ & _ & Q); congruence]|]. split; [split; [auto|reflexivity]|].
        split; [congruence|]. intros _ HI. exact (switch_of_spec _ _ _ HI E8).
      * split; [split; [discriminate|intros (_ & Q & _); congruence]|]. split; [split; [auto|reflexivity]|].
        split; [congruence|]. intros _ HI. exact (switch_of_spec _ _ _ HI E8).
    + split; [split; [discriminate|tauto]|]. split; [split; [discriminate|tauto]|]. split; [injection E8 as <-; reflexivity|discriminate].
    + split; [split; [discriminate|tauto]|]. split; [split; [discriminate|tauto]|]. split; [injection E8 as <-; reflexivity|discriminate].
Qed.
Lemma cap_step c n n' : good n -> create_cap n c = Ok n' ->
  ext n n' /\ good n' /\ exists t, grew n n' (many_caps t) /\ Forall2 (fun t i => known (fst (snd i)) /\ cap_made n' (fst i) (snd i) t) t (map (pair c) (cap_items c)).
Proof.
  intros G E. unfold create_cap in E.
  replace (map (pair c) (cap_items c)) with (flat_map (fun pc => map (pair c) (filter (fun pc => mem (fst pc) (dc_connected c)) [pc])) (dc_phases c)).
  2:{ clear E. unfold cap_items. induction (dc_phases c) as [|x l IH]; [reflexivity|]. cbn [flat_map filter]. destruct (mem (fst x) (dc_connected c)); cbn [map app]; [f_equal|]; exact IH. }
  refine (collect_loop _ _ _ (create_phcap c) many_caps _ (fun n t i => known (fst (snd i)) /\ cap_made n (fst i) (snd i) t) (dc_phases c) eq_refl _ _ _ n n' G E).
  - reflexivity.
  - intros a b e i X [K Q]. split; [exact K|]. eapply cap_mono; eauto.
  - intros m x m' _ Gm Em. now apply phcap_step.
Qed.

(** *** regulators *)
Definition many_regs x := {| e_loads := []; e_xfmrs := []; e_caps := []; e_regs := x; e_fuses := []; e_switches := []; e_lines := [] |}.
Lemma reg_mono n n' t r p : one_letter p -> ext n n' -> reg_made n r p t -> reg_made n' r p t.
Proof.
  intros K E (H1 & H2 & (nm & H3) & H4). split; [eapply leads_o_mono; eauto|]. split; [eapply leads_o_mono; eauto|].
  split; [|exact H4]. exists nm. eapply interior_mono; eauto.
Qed.
Lemma new_reg_spec tap step ty ra lo d : new_regulator tap step ty ra lo = Some d ->
  ((0 <= ra)%Z -> (0 <= lo)%Z -> r_tap d = clamp (- lo) ra tap) /\ r_step d = step /\ r_type d = ty /\
  match ty with
  | REG_A => r_ratio d * (1 + r_step d * IZR (r_tap d)) = 1
  | REG_B => r_ratio d + r_step d * IZR (r_tap d) = 1
  end.
Proof.
  unfold new_regulator, increment_tap. cbn [r_tap r_step r_type r_raise r_lower r_ratio]. rewrite Z.add_0_r. unfold clamp. intros E.
  set (t' := if (ra <=? tap)%Z then ra else if (tap <=? - lo)%Z then (- lo)%Z else tap) in E.
  assert (C : (0 <= ra)%Z -> (0 <= lo)%Z -> t' = Z.min ra (Z.max (- lo) tap)).
  { intros A B. unfold t'. destruct (Z.leb_spec ra tap); [|destruct (Z.leb_spec tap (- lo))]; lia. }
  destruct ty.
  - destruct (Req_EM_T (1 + step * IZR t') 0) as [|NZ]; [discriminate|]. cbn in E. injection E as <-. cbn.
    split; [exact C|]. split; [reflexivity|]. split; [reflexivity|]. field. exact NZ.
  - cbn in E. injection E as <-. cbn. split; [exact C|]. split; [reflexivity|]. split; [reflexivity|]. ring.
Qed.
Lemma phreg_step r step ty ct vt n p n' : one_letter p -> good n ->
  reg_type_of (dr_type r) = Ok ty -> step * IZR (dr_high r + dr_low r) = 2 * dr_regulation r ->
  create_phreg r step ty ct vt n p = Ok n' ->
  ext n n' /\ good n' /\ exists t, grew n n' (many_regs t) /\ Forall2 (fun t i => one_letter (snd i) /\ reg_made n' (fst i) (snd i) t) t [(r, p)].
Proof.
  intros O G ET ES E. unfold create_phreg in E.
  apply bind_ok in E as (f & E1 & E). apply bind_ok in E as (t & E2 & E). apply bind_ok in E as (tap & E3 & E).
  destruct (create_bus n (1 / 10) (1 / 10) (name_of n f ++ "-Reg") p true) as [n1 cur] eqn:EB.
  apply bind_ok in E as (dev & E4 & E). apply bind_ok in E as (u & E5 & E). injection E as <-.
  apply attr_ok in E3. destruct (new_regulator tap step ty (dr_raise r) (dr_lower r)) as [d|] eqn:ED; [|discriminate]. injection E4 as <-.
  destruct (new_reg_spec _ _ _ _ _ _ ED) as (C1 & C2 & C3 & C4).
  pose proof (ext_create n (1/10) (1/10) (name_of n f ++ "-Reg") p O (or_introl (ends_app _ _))) as X1.
  pose proof (good_create n (1/10) (1/10) (name_of n f ++ "-Reg") p true G) as G1.
  pose proof (created_interior n (1/10) (1/10) (name_of n f ++ "-Reg") p (proj1 G)) as I1.
  assert (GR : forall e, grew n (add_elems n1 e) e).
  { intros e. unfold create_bus in EB. injection EB as <- _. apply grew_add; reflexivity. }
  assert (NX : nt_next n1 = S (nt_next n) /\ cur = nt_next n) by (unfold create_bus in EB; injection EB as <- <-; auto).
  destruct NX as [NX NC]. rewrite EB in X1, G1, I1. cbn [fst snd] in X1, G1, I1.
  assert (X2 : forall e, ext n (add_elems n1 e)) by (intros; eapply ext_trans; [exact X1|apply ext_add]).
  split; [apply X2|]. split.
  - apply good_add; [exact G1|]. cbn. rewrite NX. pose proof (wf_lookup_o _ _ _ _ (proj1 G) E1). pose proof (wf_lookup_o _ _ _ _ (proj1 G) E2).
    bnd.
  - eexists. split; [apply GR|]. constructor; [|constructor]. cbn [fst snd]. split; [exact O|].
    unfold reg_made. cbn [tr_from tr_to tr_cur tr_dev tr_vlow tr_vhigh].
    split; [eapply leads_o_mono; [exact O|apply X2|now apply lookup_leads]|].
    split; [eapply leads_o_mono; [exact O|apply X2|now apply lookup_leads]|].
    split; [exists (name_of n f); eapply interior_mono; [apply ext_add|exact I1]|].
    split; [lra|]. split; [lra|]. split; [exists tap; split; [exact E3|exact C1]|].
    rewrite C2. split; [exact ES|]. rewrite C3.
    unfold reg_type_of in ET. destruct (String.eqb_spec (dr_type r) "A"); [injection ET as <-|]; [split; [assumption|rewrite <- C2; exact C4]|].
    destruct (String.eqb_spec (dr_type r) "B"); [injection ET as <-; split; [assumption|rewrite <- C2; exact C4]|discriminate].
Qed.
Lemma reg_step r n n' : Forall one_letter (dr_phases1 r) -> good n -> create_reg n r = Ok n' ->
  ext n n' /\ good n' /\ exists t, grew n n' (many_regs t) /\ Forall2 (fun t i => one_letter (snd i) /\ reg_made n' (fst i) (snd i) t) t (map (pair r) (dr_phases1 r)).
Proof.
  intros O G E. unfold create_reg in E.
  apply bind_ok in E as (u1 & _ & E). apply bind_ok in E as (u2 & _ & E). apply bind_ok in E as (u3 & _ & E).
  apply bind_ok in E as (step & E1 & E). apply bind_ok in E as (ty & E2 & E). apply bind_ok in E as (ct & E3 & E). apply bind_ok in E as (per & E4 & E).
  apply pdiv_ok in E1 as [NZ ->].
  rewrite <- flat_single.
  refine (collect_loop _ _ _ _ many_regs (fun p => [(r, p)]) (fun n t i => one_letter (snd i) /\ reg_made n (fst i) (snd i) t) (dr_phases1 r) eq_refl _ _ _ n n' G E).
  - reflexivity.
  - intros a b e i X [K Q]. split; [exact K|]. eapply reg_mono; eauto.
  - intros m x m' Hx Gm Em. rewrite Forall_forall in O. eapply phreg_step; eauto. field. exact NZ.
Qed.

(** *** fuses and switches *)
Definition many_fuses x := {| e_loads := []; e_xfmrs := []; e_caps := []; e_regs := []; e_fuses := x; e_switches := []; e_lines := [] |}.
Definition many_switches x := {| e_loads := []; e_xfmrs := []; e_caps := []; e_regs := []; e_fuses := []; e_switches := x; e_lines := [] |}.
Lemma fuse_step l n w n' : one_letter (wi_phase w) -> good n -> create_fuse l n w = Ok n' ->
  ext n n' /\ good n' /\ exists t, grew n n' (many_fuses t) /\ Forall2 (fun t i => one_letter (wi_phase (snd i)) /\ fuse_made n' (fst i) (snd i) t) t [(l, w)].
Proof.
  intros O G E. unfold create_fuse in E.
  apply bind_ok in E as (f & E1 & E). apply bind_ok in E as (t & E2 & E). apply bind_ok in E as (lim & E3 & E). apply bind_ok in E as (st & E4 & E).
  destruct (create_bus n (1 / 10) (1 / 10) (name_of n f ++ "-Fuse") (wi_phase w) true) as [n1 cur] eqn:EB. injection E as <-.
  apply num_ok in E3.
  pose proof (ext_create n (1/10) (1/10) (name_of n f ++ "-Fuse") (wi_phase w) O (or_intror (or_introl (ends_app _ _)))) as X1.
  pose proof (good_create n (1/10) (1/10) (name_of n f ++ "-Fuse") (wi_phase w) true G) as G1.
  pose proof (created_interior n (1/10) (1/10) (name_of n f ++ "-Fuse") (wi_phase w) (proj1 G)) as I1.
  assert (GR : forall e, grew n (add_elems n1 e) e).
  { intros e. unfold create_bus in EB. injection EB as <- _. apply grew_add; reflexivity. }
  assert (NX : nt_next n1 = S (nt_next n) /\ cur = nt_next n) by (unfold create_bus in EB; injection EB as <- <-; auto).
  destruct NX as [NX NC]. rewrite EB in X1, G1, I1. cbn [fst snd] in X1, G1, I1.
  assert (X2 : forall e, ext n (add_elems n1 e)) by (intros; eapply ext_trans; [exact X1|apply ext_add]).
  split; [apply X2|]. split.
  - apply good_add; [exact G1|]. cbn. rewrite NX. pose proof (wf_lookup_o _ _ _ _ (proj1 G) E1). pose proof (wf_lookup_o _ _ _ _ (proj1 G) E2).
    bnd.
  - eexists. split; [apply GR|]. constructor; [|constructor]. cbn [fst snd]. split; [exact O|].
    unfold fuse_made. cbn [tf_from tf_to tf_mid tf_limit tf_status tf_phase]. split; [reflexivity|].
    split; [eapply leads_o_mono; [exact O|apply X2|now apply lookup_leads]|].
    split; [eapply leads_o_mono; [exact O|apply X2|now apply lookup_leads]|].
    split; [exists (name_of n f); eapply interior_mono; [apply ext_add|exact I1]|]. split; [exact E3|].
    destruct (dl_status l (wi_phase w)) as [s|].
    + unfold fuse_status_of in E4. destruct (String.eqb_spec s "GOOD") as [H|H]; [rewrite H; injection E4 as <-; split; discriminate|].
      destruct (String.eqb_spec s "BLOWN") as [H'|H']; [rewrite H'; injection E4 as <-; tauto|discriminate].
    + injection E4 as <-. split; discriminate.
Qed.
Lemma switch_step l n w n' : one_letter (wi_phase w) -> good n -> create_switch l n w = Ok n' ->
  ext n n' /\ good n' /\ exists t, grew n n' (many_switches t) /\
   Forall2 (fun t i => one_letter (wi_phase (snd i)) /\ switch_made n' (fst i) (snd i) t) t
     (map (pair l) (match dl_phases l with Some ps => filter (fun w => mem (wi_phase w) ps) [w] | None => [] end)).
Proof.
  intros O G E. unfold create_switch in E. apply bind_ok in E as (phs & E0 & E). destruct (dl_phases l) as [ps|]; [|discriminate]. injection E0 as ->.
  cbn [filter]. destruct (mem (wi_phase w) phs); cbn [negb] in E.
  2:{ injection E as <-. split; [apply ext_refl|]. split; [exact G|]. exists []. split; [apply grew_refl|constructor]. }
  apply bind_ok in E as (f & E1 & E). apply bind_ok in E as (t & E2 & E). injection E as <-.
  split; [apply ext_add|]. split.
  - apply good_add; [exact G|]. cbn. pose proof (wf_lookup_o _ _ _ _ (proj1 G) E1). pose proof (wf_lookup_o _ _ _ _ (proj1 G) E2). bnd.
  - eexists. split; [apply grew_add; reflexivity|]. constructor; [|constructor]. cbn [fst snd]. split; [exact O|].
    unfold switch_made. cbn. split; [reflexivity|].
    split; [eapply leads_o_mono; [exact O|apply ext_add|now apply lookup_leads]|].
    split; [eapply leads_o_mono; [exact O|apply ext_add|now apply lookup_leads]|reflexivity].
Qed.
Lemma fuse_mono n n' t l w : one_letter (wi_phase w) -> ext n n' -> fuse_made n l w t -> fuse_made n' l w t.
Proof.
  intros O E (H1 & H2 & H3 & (nm & H4) & H5). split; [exact H1|]. split; [eapply leads_o_mono; eauto|]. split; [eapply leads_o_mono; eauto|].
  split; [|exact H5]. exists nm. eapply interior_mono; eauto.
Qed.
Lemma switch_mono n n' t l w : one_letter (wi_phase w) -> ext n n' -> switch_made n l w t -> switch_made n' l w t.
Proof.
  intros O E (H1 & H2 & H3 & H4). split; [exact H1|]. split; [eapply leads_o_mono; eauto|]. split; [eapply leads_o_mono; eauto|exact H4].
Qed.

(** *** lines *)
Definition many_lines x := {| e_loads := []; e_xfmrs := []; e_caps := []; e_regs := []; e_fuses := []; e_switches := []; e_lines := x |}.
Definition lines_made (cap : bool) (n' : net) (l : dline) (e : elems) : Prop :=
  if dl_fuse l then exists t, e = many_fuses t /\ Forall2 (fun t i => one_letter (wi_phase (snd i)) /\ fuse_made n' (fst i) (snd i) t) t (map (pair l) (dl_wires l))
  else if dl_switch l then exists t, e = many_switches t /\ Forall2 (fun t i => one_letter (wi_phase (snd i)) /\ switch_made n' (fst i) (snd i) t) t (map (pair l) (switch_wires l))
  else exists t, e = many_lines [t] /\ line_made cap l t.
Lemma scale_scaled k m : scaled k m (scale k m).
Proof.
  intros i j re im. unfold entry, scale.
  set (f := fun x : xnum => match x with Some c => Some (k * fst c, k * snd c) | None => None end).
  assert (F : f (Some (0, 0)) = Some (0, 0)) by (unfold f; cbn; f_equal; f_equal; ring).
  assert (N : nth j (nth i (map (map f) m) []) (Some (0, 0)) = f (nth j (nth i m []) (Some (0, 0)))).
  { transitivity (nth j (map f (nth i m [])) (f (Some (0, 0)))).
    - rewrite F. f_equal. exact (map_nth (map f) m [] i).
    - apply map_nth. }
  match goal with |- ?l = _ <-> _ => change l with (nth j (nth i (map (map f) m) []) (Some (0, 0))) end.
  rewrite N. unfold f. destruct (nth j (nth i m []) (Some (0, 0))) as [[a b]|]; cbn [fst snd]; split.
  - intros H. injection H as <- <-. exists a, b. auto.
  - intros (a' & b' & H & -> & ->). injection H as <- <-. reflexivity.
  - discriminate.
  - intros (a' & b' & H & _). discriminate.
Qed.
Lemma line_step inv cap l n n' : ((dl_fuse l || dl_switch l)%bool = true -> Forall (fun w => one_letter (wi_phase w)) (dl_wires l)) ->
  good n -> create_line inv cap n l = Ok n' ->
  ext n n' /\ good n' /\ exists e, grew n n' e /\ lines_made cap n' l e.
Proof.
  intros O G E. unfold create_line in E. unfold lines_made. destruct (dl_fuse l).
  - cbn [orb] in O. specialize (O eq_refl). rewrite <- flat_single.
    destruct (collect_loop _ _ _ (create_fuse l) many_fuses (fun w => [(l, w)]) (fun n t i => one_letter (wi_phase (snd i)) /\ fuse_made n (fst i) (snd i) t) (dl_wires l) eq_refl) with (n := n) (n' := n') as (X & G' & t & H1 & H2); auto.
    + intros a b e i X [K Q]. split; [exact K|]. eapply fuse_mono; eauto.
    + intros m x m' Hx Gm Em. rewrite Forall_forall in O. eapply fuse_step; eauto.
    + split; [exact X|]. split; [exact G'|]. eauto.
  - cbn [orb] in O. destruct (dl_switch l).
    + specialize (O eq_refl).
      replace (map (pair l) (switch_wires l)) with (flat_map (fun w => map (pair l) (match dl_phases l with Some ps => filter (fun w => mem (wi_phase w) ps) [w] | None => [] end)) (dl_wires l)).
      2:{ clear E O. unfold switch_wires. destruct (dl_phases l) as [ps|]; [|now induction (dl_wires l)].
          induction (dl_wires l) as [|x r IH]; [reflexivity|]. cbn [flat_map filter]. destruct (mem (wi_phase x) ps); cbn [map app]; [f_equal|]; exact IH. }
      destruct (collect_loop _ _ _ (create_switch l) many_switches (fun w => map (pair l) (match dl_phases l with Some ps => filter (fun w => mem (wi_phase w) ps) [w] | None => [] end)) (fun n t i => one_letter (wi_phase (snd i)) /\ switch_made n (fst i) (snd i) t) (dl_wires l) eq_refl) with (n := n) (n' := n') as (X & G' & t & H1 & H2); auto.
      * intros a b e i X [K Q]. split; [exact K|]. eapply switch_mono; eauto.
      * intros m x m' Hx Gm Em. rewrite Forall_forall in O. eapply switch_step; eauto.
      * split; [exact X|]. split; [exact G'|]. eauto.
    + set (phases := filter (fun p => negb (String.eqb p "N")) (map wi_phase (dl_wires l))) in E.
      destruct (new_unbalanced inv (dl_z l) (dl_len l) (List.length phases)) as [[z y]|] eqn:EN; [|discriminate]. injection E as <-.
      split; [apply ext_add|]. split; [apply good_add; [exact G|constructor]|].
      eexists. split; [apply grew_add; reflexivity|]. eexists. split; [reflexivity|].
      unfold line_made. cbn [tn_from tn_to tn_phases tn_amps tn_shunt]. fold phases. split; [reflexivity|]. split; [reflexivity|]. split; [reflexivity|].
      destruct (accepted_line inv _ _ _ _ _ EN) as (L & EL & EZ & NI & _).
      split; [lia|]. split; [lia|]. split; [reflexivity|]. split; [rewrite EZ; apply scale_scaled|].
      split; [rewrite EL; exact NI|]. cbn [tn_z tn_y]. destruct cap; [|exact I]. destruct (dl_shunt l); cbn [option_map]; [apply scale_scaled|exact I].
Qed.
