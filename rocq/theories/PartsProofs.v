(** C156: laws in the terms of the parsers. *)
From Coq Require Import String Reals ZArith List Bool Arith Lia Lra.
From Verif Require Import PyExc Components SpecComponents ComponentsProofs SpecUnbalanced UnbalancedLine Devices Network SpecNetwork SpecKirchhoff KirchhoffNet ThreePhase SpecThreePhase ThreePhaseBase SpecSolverNet
  RawTransformers RawParser SpecRaw SolverNet SolverNetProofs SolverRawProofs SpecParts.
Import ListNotations.
Local Open Scope R_scope.

(** *** three phases *)
Section Three.
Variables (n : net) (V : bref -> C).
Lemma same_bus s p b b' : bus_for n s p b -> bus_for n s p b' -> b = b'.
Proof. intros (x & E & F) (x' & E' & F'). rewrite E in E'. injection E' as <-. unfold found in *. congruence. Qed.
Lemma same_buses s ps bs bs' : Forall2 (bus_for n s) ps bs -> Forall2 (bus_for n s) ps bs' -> bs = bs'.
Proof. intros F. revert bs'. induction F as [|p b ps bs H F IH]; intros bs' G; inversion G; subst; [reflexivity|]. f_equal; [eapply same_bus; eassumption|auto]. Qed.
Lemma ends_of l ph : Forall2 (fun p x => dx_phase n l p = Ok x) (tn_phases l) ph -> exists fs ts, Forall2 (bus_for n (tn_from l)) (tn_phases l) fs /\ Forall2 (bus_for n (tn_to l)) (tn_phases l) ts /\
  length ph = length (tn_phases l) /\ forall i, (i < length (tn_phases l))%nat -> nth i ph (None, None) = (Some (nth i fs 0%nat), Some (nth i ts 0%nat)).
Proof.
  induction 1 as [|p x ps ph H F IH]; [exists [], []; repeat split; [constructor|constructor|cbn; lia]|]. destruct IH as (fs & ts & A & B & L & D). apply phase_ok in H as (f & t & -> & Hf & Ht).
  exists (f :: fs), (t :: ts). split; [now constructor|]. split; [now constructor|]. split; [cbn; now rewrite L|]. intros [|i] Hi; [reflexivity|]. cbn in *. apply D. lia.
Qed.
Lemma flat_map_same {A B} (f g : A -> list B) l : (forall x, In x l -> f x = g x) -> flat_map f l = flat_map g l.
Proof. induction l as [|x l IH]; intros H; cbn; [reflexivity|]. rewrite (H x) by (now left). rewrite IH; [reflexivity|intros; apply H; now right]. Qed.
Lemma cell_entry m i j : cell m i j = entry_of m i j.
Proof. reflexivity. Qed.
Lemma line_same l e I m : dx_line n l = Ok e -> (behaves V e I m <-> lawful n V (PLine l) I m).
Proof.
  intros E. unfold dx_line in E. apply bind_ok in E as (ph & E1 & E). injection E as <-. apply pmap_ok in E1. destruct (ends_of l ph E1) as (fs & ts & A & B & L & D).
  set (k := length (tn_phases l)) in *.
  assert (EQ : (let f i := fst (nth i ph (None, None)) in let t i := snd (nth i ph (None, None)) in
     let I0 i := Csum (fun j => Cmul (fst (cell (tn_y l) i j), snd (cell (tn_y l) i j)) (across V (f j) (t j))) (length ph) in
     let charging e i := Csum (fun j => Cmul (0, match tn_shunt l with Some m0 => snd (cell m0 i j) | None => 0 end / 2) (V (e j))) (length ph) in
     flat_map (fun i => [(f i, Cadd (I0 i) (charging f i)); (t i, Csub (charging t i) (I0 i))]) (seq 0 (length ph))) =
    (let f i := nth i fs 0%nat in let t i := nth i ts 0%nat in
     let I0 i := Csum (fun j => Cmul (entry_of (tn_y l) i j) (Csub (V (Some (f j))) (V (Some (t j))))) k in
     let charging (e : nat -> nat) i := Csum (fun j => Cmul (0, match tn_shunt l with Some m0 => snd (entry_of m0 i j) | None => 0 end / 2) (V (Some (e j)))) k in
     flat_map (fun i => [(Some (f i), Cadd (I0 i) (charging f i)); (Some (t i), Csub (charging t i) (I0 i))]) (seq 0 k))).
  { cbv zeta. rewrite L. apply flat_map_same. intros i Hi. apply in_seq in Hi. rewrite (D i) by lia. cbn [fst snd].
    assert (S : Csum (fun j => Cmul (fst (cell (tn_y l) i j), snd (cell (tn_y l) i j)) (across V (fst (nth j ph (None, None))) (snd (nth j ph (None, None))))) k =
                Csum (fun j => Cmul (entry_of (tn_y l) i j) (Csub (V (Some (nth j fs 0%nat))) (V (Some (nth j ts 0%nat))))) k).
    { apply Csum_ext. intros j Hj. rewrite (D j Hj), cell_entry, <- surjective_pairing. reflexivity. }
    assert (S1 : Csum (fun j => Cmul (0, match tn_shunt l with Some m0 => snd (cell m0 i j) | None => 0 end / 2) (V (fst (nth j ph (None, None))))) k =
                 Csum (fun j => Cmul (0, match tn_shunt l with Some m0 => snd (entry_of m0 i j) | None => 0 end / 2) (V (Some (nth j fs 0%nat)))) k) by (apply Csum_ext; intros j Hj; now rewrite (D j Hj)).
    assert (S2 : Csum (fun j => Cmul (0, match tn_shunt l with Some m0 => snd (cell m0 i j) | None => 0 end / 2) (V (snd (nth j ph (None, None))))) k =
                 Csum (fun j => Cmul (0, match tn_shunt l with Some m0 => snd (entry_of m0 i j) | None => 0 end / 2) (V (Some (nth j ts 0%nat)))) k) by (apply Csum_ext; intros j Hj; now rewrite (D j Hj)).
    now rewrite S, S1, S2. }
  cbv zeta in EQ. split; intros H.
  - inversion H. subst. exact (eq_ind_r (fun X => lawful n V (PLine l) X []) (law_line n V l fs ts A B) EQ).
  - inversion H as [l0 fs0 ts0 A0 B0| | | | | | | | | |]. subst. pose proof (same_buses _ _ _ _ A0 A). pose proof (same_buses _ _ _ _ B0 B). subst fs0 ts0. exact (eq_ind _ (fun X => behaves V (EUnb ph _ _ _) X []) (is_unb V ph _ _ _) _ EQ).
Qed.
Definition elem_of (p : part) (e : elem) : Prop :=
  match p with
  | PLine l => dx_line n l = Ok e | PXfmr x => e = dx_xfmr x | PSlack s => e = ESlack (dx_slack s) | PSwitch s => e = dx_switch s
  | PLoad l => e = dx_load l | PReg r => e = dx_reg r | PFuse f => e = dx_fuse f | PCap c => e = dx_cap c
  end.
Lemma part_same p e I m : elem_of p e -> (behaves V e I m <-> lawful n V p I m).
Proof.
  destruct p as [l|[fp fn tp tn d g b ra|ph from pri s1 t1 s2 t2 c g b]|s|s|l|r|f|c]; cbn [elem_of]; [apply line_same|intros ->; split; intros H..].
  - inversion H. subst. apply law_xfmr.
  - inversion H. subst. apply (is_xf V d fp fn tp tn).
  - inversion H. subst. apply (law_tap n V ph from pri s1 t1 s2 t2 c g b).
  - inversion H. subst. apply (is_ct V c (Some from) (Some pri) (Some s1) (Some t1) (Some s2) (Some t2)).
  - inversion H. subst. apply (law_slack n V s).
  - inversion H. subst. apply (is_slack V (dx_slack s)).
  - unfold dx_switch in H. destruct (ts_open s) eqn:E; cbn in H; inversion H; subst; [now apply law_open|now apply law_closed].
  - unfold dx_switch. inversion H as [| | | |s0 I0 E|s0 E| | | | |]; subst; rewrite E; cbn; [apply (SpecKirchhoff.is_closed V)|apply (is_open V)].
  - unfold dx_load in H. inversion H; subst. cbn [ld_P ld_Q ld_Zr ld_Zi ld_IP ld_IQ] in *. rewrite <- surjective_pairing in *. now apply law_load.
  - inversion H; subst. unfold dx_load. apply (is_load V {| ld_P := tl_p l; ld_Q := tl_q l; ld_Zr := fst (tl_z l); ld_Zi := snd (tl_z l); ld_IP := tl_ip l; ld_IQ := tl_iq l |}); cbn [ld_P ld_Q ld_Zr ld_Zi]; rewrite <- ?surjective_pairing; assumption.
  - inversion H. subst. apply (law_reg n V r).
  - inversion H. subst. apply (is_reg V (r_ratio (tr_dev r)) (Some (tr_from r)) (Some (tr_to r)) (Some (tr_cur r))).
  - inversion H. subst. apply (law_fuse n V f).
  - inversion H. subst. apply (is_fuse V (Some (tf_from f)) (Some (tf_to f)) (Some (tf_mid f))).
  - unfold dx_cap in H. destruct (tc_switch c) eqn:E; cbn in H; inversion H; subst; [now apply law_cap_open|now apply law_cap] || (inversion H; subst; [now apply law_cap|now apply law_cap_open]).
  - unfold dx_cap. inversion H; subst; match goal with E : tc_switch c = _ |- _ => rewrite E end; cbn; [apply (is_cap V)|apply (is_cap_open V)].
Qed.
End Three.
