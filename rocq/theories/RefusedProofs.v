(** Proofs of the theorems on what is refused and on starting values. *)
From Coq Require Import Reals ZArith String Ascii List Bool Arith Lia Lra.
From Verif Require Import PyExc Components UnbalancedLine GlmText SpecGlm GlmProofs ThreePhase SpecThreePhase ThreePhaseBase LineImpedance SpecLineZ SpecRefused.
Import ListNotations.
Local Open Scope R_scope.

Lemma mfold_reaches S X (f : S -> X -> pres S) x l : In x l -> forall s s', mfold f l s = Ok s' -> exists s1 s2, f s1 x = Ok s2.
Proof.
  induction l as [|y l IH]; intros H s s' E; [elim H|]. cbn in E. apply ThreePhaseBase.bind_ok in E as (s1 & E1 & E2). destruct H as [->|H]; [eauto|exact (IH H s1 s' E2)].
Qed.
(** *** elements *)
Lemma unknown_refused inv cap ms n : In MUnknown ms -> parse_three inv cap ms <> Ok n.
Proof. intros H E. apply ThreePhaseBase.bind_ok in E as (n0 & _ & E). destruct (mfold_reaches _ _ _ _ _ H _ _ E) as (s1 & s2 & Q). discriminate. Qed.
Lemma regulators_accepted inv cap ms n r : parse_three inv cap ms = Ok n -> In (MReg r) ms ->
  dr_nwindings r = 2%nat /\ List.length (dr_phases1 r) = 3%nat /\ List.length (dr_phases2 r) = 3%nat /\ dr_conn1 r = Some "Y"%string /\ dr_conn2 r = Some "Y"%string.
Proof.
  intros E H. apply ThreePhaseBase.bind_ok in E as (n0 & _ & E). destruct (mfold_reaches _ _ _ _ _ H _ _ E) as (s1 & s2 & Q). cbn [create_element] in Q. unfold create_reg in Q.
  apply ThreePhaseBase.bind_ok in Q as (u1 & G1 & Q). apply ThreePhaseBase.bind_ok in Q as (u2 & G2 & Q). apply ThreePhaseBase.bind_ok in Q as (u3 & G3 & _).
  apply guard_ok in G1, G2, G3. apply andb_true_iff in G2 as [G2 G2']. apply andb_true_iff in G3 as [G3 G3']. apply Nat.eqb_eq in G1, G2, G2'.
  unfold is_y in G3, G3'. destruct (dr_conn1 r); [|discriminate]. destruct (dr_conn2 r); [|discriminate]. apply String.eqb_eq in G3, G3'. subst. repeat split; assumption.
Qed.
(** *** starting values *)
Definition begun (nds : list dnode) (n : net) : Prop := forall b, In b (nt_buses n) -> (tb_id b < nt_next n)%nat /\
  exists nd, In nd nds /\ is_root nd /\ tb_name b = dn_name nd /\ In (tb_phase b) (dn_phases nd) /\ starts nd (tb_phase b) (tb_vr b, tb_vi b).
Lemma angle_is p a : phase_angle p = Some a -> angle_of p a.
Proof.
  unfold phase_angle, angle_of. destruct (String.eqb_spec p "A"); [intros E; injection E as <-; auto|]. destruct (String.eqb_spec p "B"); [intros E; injection E as <-; right; left; split; [assumption|field]|].
  destruct (String.eqb_spec p "C"); [intros E; injection E as <-; right; right; left; split; [assumption|field]|]. destruct (String.eqb_spec p "1"); [intros E; injection E as <-; auto 6|].
  destruct (String.eqb_spec p "2"); [intros E; injection E as <-; right; right; right; right; split; [assumption|field]|discriminate].
Qed.
Lemma phase_begun nds nd s p s' : In nd nds -> In p (dn_phases nd) -> begun nds (fst s) -> node_phase nd s p = Ok s' -> begun nds (fst s').
Proof.
  intros Hn Hp B E. destruct s as [n st]. unfold node_phase in E. cbn [fst] in B. destruct (phase_angle p) as [ang|] eqn:PA; [|injection E as <-; exact B].
  apply ThreePhaseBase.bind_ok in E as ([[n1 b] st1] & E1 & E2).
  assert (G : begun nds n1).
  { clear E2. destruct (dn_parent nd) as [par|] eqn:Pa.
    - apply ThreePhaseBase.bind_ok in E1 as (b' & _ & E1). injection E1 as <- _ _. exact B.
    - destruct (dn_conn nd) as [c|] eqn:Co.
      + apply ThreePhaseBase.bind_ok in E1 as (b' & _ & E1). injection E1 as <- _ _. exact B.
      + apply ThreePhaseBase.bind_ok in E1 as ([m a] & V & E1). cbn [fst snd create_bus] in E1.
        assert (Old : forall x, In x (nt_buses n) -> Nat.eqb (tb_id x) (nt_next n) = false) by (intros x Hx; apply Nat.eqb_neq; pose proof (proj1 (B x Hx)); lia).
        assert (Keep : forall vr vi, map (fun b0 => if Nat.eqb (tb_id b0) (nt_next n) then {| tb_id := tb_id b0; tb_name := tb_name b0; tb_phase := tb_phase b0; tb_virtual := tb_virtual b0; tb_vnom := tb_vnom b0; tb_vr := vr; tb_vi := vi |} else b0) (nt_buses n) = nt_buses n).
        { intros vr vi. transitivity (map (fun x => x) (nt_buses n)); [|apply map_id]. apply map_ext_in. intros x Hx. now rewrite (Old x Hx). }
        assert (Last : forall x, In x (nt_buses n) -> (tb_id x < S (nt_next n))%nat /\ exists nd, In nd nds /\ is_root nd /\ tb_name x = dn_name nd /\ In (tb_phase x) (dn_phases nd) /\ starts nd (tb_phase x) (tb_vr x, tb_vi x))
          by (intros x Hx; destruct (B x Hx); split; [lia|assumption]).
        assert (Root : is_root nd) by (split; assumption).
        destruct (String.eqb_spec p "1") as [P1|P1]; [|destruct (String.eqb_spec p "2") as [P2|P2]]; injection E1 as <- _ _; intros x Hx.
        * cbn [set_init set_buses nt_buses nt_next] in *. rewrite map_app, Keep in Hx. cbn [map tb_id] in Hx. rewrite Nat.eqb_refl in Hx. apply in_app_or in Hx as [Hx|[<-|[]]]; [exact (Last x Hx)|].
          cbn. split; [lia|]. exists nd. repeat split; try assumption; try reflexivity; try apply Root. left. split; [exact P1|reflexivity].
        * cbn [set_init set_buses nt_buses nt_next] in *. rewrite map_app, Keep in Hx. cbn [map tb_id] in Hx. rewrite Nat.eqb_refl in Hx. apply in_app_or in Hx as [Hx|[<-|[]]]; [exact (Last x Hx)|].
          cbn. split; [lia|]. exists nd. repeat split; try assumption; try reflexivity; try apply Root. right. left. split; [exact P2|reflexivity].
        * cbn [nt_buses nt_next] in *. apply in_app_or in Hx as [Hx|[<-|[]]]; [exact (Last x Hx)|].
          cbn. split; [lia|]. exists nd. repeat split; try assumption; try reflexivity; try apply Root. right. right. split; [exact P1|]. split; [exact P2|]. exists m, a. split; [|reflexivity].
          assert (T : triplex p = false) by (unfold triplex; apply orb_false_iff; split; apply String.eqb_neq; assumption). rewrite T in V.
          destruct (dn_volt nd p) as [[m' a']|]; [left; now injection V as -> ->|]. right. apply ThreePhaseBase.bind_ok in V as (m' & Nm & V). injection V as -> ->. split; [reflexivity|].
          unfold num in Nm. destruct (dn_vnom nd); [|discriminate]. injection Nm as ->. split; [reflexivity|now apply angle_is]. }
  destruct (dn_source nd); [destruct st1 as [[m a]|]; [|discriminate]|]; injection E2 as <-; exact G.
Qed.
Lemma nodes_in ms nd : In (MNode nd) ms -> In nd (nodes_of ms).
Proof. induction ms as [|m ms IH]; [intros []|]. intros [->|H]; [now left|]. destruct m; cbn; auto. Qed.
Lemma buses_begin ms n : create_buses ms = Ok n -> forall b, In b (nt_buses n) ->
  exists nd, In nd (nodes_of ms) /\ is_root nd /\ tb_name b = dn_name nd /\ In (tb_phase b) (dn_phases nd) /\ starts nd (tb_phase b) (tb_vr b, tb_vi b).
Proof.
  intros E b Hb. apply ThreePhaseBase.bind_ok in E as ([n' st] & E & Q). injection Q as <-. cbn [fst] in Hb.
  assert (G : begun (nodes_of ms) (fst (n', st))); [|exact (proj2 (G b Hb))].
  refine (@ThreePhaseBase.mfold_inv _ _ _ (fun s => begun (nodes_of ms) (fst s)) ms _ _ _ _ E); [|intros x []].
  intros s m s' Hm B Em. destruct m; cbn [node_buses] in Em; try (injection Em as <-; exact B).
  refine (@ThreePhaseBase.mfold_inv _ _ _ (fun s => begun (nodes_of ms) (fst s)) _ _ _ _ B Em). intros s1 p s2 Hp B1. exact (phase_begun _ _ _ _ _ (nodes_in _ _ Hm) Hp B1).
Qed.
(** *** included files *)
Lemma missing_include schema over12 mega cron files input rows f r : files input = Some rows -> In r rows -> include_row f r -> files f = None ->
  forall x, read_glm schema over12 mega cron files input <> Ok x.
Proof.
  intros F H R N x E. unfold read_glm in E. rewrite F in E. apply ThreePhaseBase.bind_ok in E as (more & E & _). clear F. revert more E. induction rows as [|q rows IH]; intros more E; [elim H|].
  destruct H as [->|H].
  - pose proof (included_ok (inc_file (files := fun g => if String.eqb g f then Some ["x"%string] else None) R (l := ["x"%string]) ltac:(cbv beta; now rewrite String.eqb_refl) (inc_nil _))) as Q.
    cbn [includes] in E, Q. destruct (String.eqb (substring 0 8 r) "#include"); [|discriminate]. apply ThreePhaseBase.bind_ok in E as (e & E1 & E). rewrite E1 in Q. cbn [pbind] in Q.
    destruct (String.eqb_spec (strip_by quote_or_semi e) f) as [Ef|]; [|discriminate]. rewrite Ef, N in E. discriminate.
  - cbn [includes] in E. destruct (String.eqb (substring 0 8 q) "#include"); [|exact (IH H more E)].
    apply ThreePhaseBase.bind_ok in E as (e & _ & E). destruct (files (strip_by quote_or_semi e)); [|discriminate]. apply ThreePhaseBase.bind_ok in E as (r' & E & _). exact (IH H r' E).
Qed.
(** *** phases of wires *)
Lemma wire_cell (ws : list wire) i w : nth_error ws i = Some w -> In (i, i) (list_prod (seq 0 (List.length ws)) (seq 0 (List.length ws))).
Proof. intros H. assert (L : (i < List.length ws)%nat) by (apply nth_error_Some; congruence). apply in_prod; apply in_seq; lia. Qed.
Lemma overhead_phases E ws d phases neutral m : overhead_z E ws d phases neutral = Ok m -> incl (map w_phase ws) line_phases.
Proof.
  intros H p Hp. apply in_map_iff in Hp as (w & <- & Hw). apply In_nth_error in Hw as (i & Hi).
  apply ThreePhaseBase.bind_ok in H as (m0 & H & _). destruct (mfold_reaches _ _ _ _ _ (wire_cell _ _ _ Hi) _ _ H) as (s1 & s2 & Q).
  cbn [oh_cell] in Q. unfold wire_at in Q. rewrite Hi in Q. cbn [pbind] in Q. rewrite Nat.eqb_refl in Q. unfold index_of, rev_lookup in Q. unfold line_phases.
  destruct (String.eqb_spec (w_phase w) "A") as [->|]; [now left|]. destruct (String.eqb_spec (w_phase w) "B") as [->|]; [right; now left|].
  destruct (String.eqb_spec (w_phase w) "C") as [->|]; [do 2 right; now left|]. destruct (String.eqb_spec (w_phase w) "N") as [->|]; [do 3 right; now left|].
  destruct (String.eqb_spec (w_phase w) "E"); [|discriminate]. cbn [pbind] in Q. apply ThreePhaseBase.bind_ok in Q as (x & _ & Q). discriminate.
Qed.
Lemma triplex_phases_only E ws m : triplex_z E ws = Ok m -> incl (map w_phase ws) triplex_phases.
Proof.
  intros H p Hp. apply in_map_iff in Hp as (w & <- & Hw). apply In_nth_error in Hw as (i & Hi).
  apply ThreePhaseBase.bind_ok in H as (m0 & H & _). destruct (mfold_reaches _ _ _ _ _ (wire_cell _ _ _ Hi) _ _ H) as (s1 & s2 & Q).
  cbn [tp_cell] in Q. unfold wire_at in Q. rewrite Hi in Q. cbn [pbind] in Q. unfold wire_map in Q. unfold triplex_phases.
  destruct (String.eqb_spec (w_phase w) "1") as [->|]; [now left|]. destruct (String.eqb_spec (w_phase w) "2") as [->|]; [right; now left|].
  destruct (String.eqb_spec (w_phase w) "N") as [->|]; [do 2 right; now left|]. discriminate.
Qed.
