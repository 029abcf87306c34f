(** A concrete case used beside the theorems about the RAW parser. *)
From Coq Require Import Reals ZArith List Bool Lra Lia.
From Verif Require Import Components RawTransformers RawParser SpecRaw SpecRawXfmr RawBaseProofs RawTableProofs RawGenProofs RawProofs RawXfmrProofs RawConsProofs.
Import ListNotations.
Local Open Scope R_scope.

Definition wbus (n ty : Z) (kv : R) : raw_bus := {| b_num := n; b_baskv := kv; b_ide := ty; b_vm := 1; b_va := 10 |}.
Definition wbuses : list raw_bus := [wbus 1 3 110; wbus 2 2 110; wbus 3 1 20; wbus 4 4 20].
Definition wgen (n : Z) (p q qt qb : R) (st : Z) : raw_gen :=
  {| g_bus := n; g_pg := p; g_qg := q; g_qt := qt; g_qb := qb; g_vs := 1; g_stat := st; g_wmod := 0; g_wpf := 1 |}.
Definition wg1 := wgen 1 50 10 100 (-100) 1.
Definition wg2 := wgen 1 20 5 100 (-100) 1.
Definition wg3 := wgen 2 40 0 30 (-30) 1.
Definition wg4 := wgen 2 10 3 3 3 1.
Definition wg5 := wgen 3 25 0 30 (-30) 1.
Definition wgens := [wg1; wg2; wg3; wg4; wg5].
Definition wss : raw_ss := {| ss_bus := 3; ss_modsw := 1; ss_stat := 1; ss_vhi := 1; ss_vlo := 1; ss_binit := 10; ss_steps := [(2%Z, 5)] |}.
Definition wsvc : raw_ss := {| ss_bus := 3; ss_modsw := 2; ss_stat := 1; ss_vhi := 1; ss_vlo := 1; ss_binit := 10; ss_steps := [(2%Z, 5); (1%Z, -3); (0%Z, 0); (4%Z, 7)] |}.
Definition wfs : raw_fs := {| fs_bus := 2; fs_status := 1; fs_gl := 1; fs_bl := -2 |}.
Definition wload (n st : Z) (p q : R) : raw_load := {| rl_bus := n; rl_status := st; rl_pl := p; rl_ql := q; rl_ip := 3; rl_iq := 1; rl_yp := 4; rl_yq := 5 |}.
Definition wloads := [wload 3 1 30 10; wload 3 0 99 99; wload 3 1 5 5; wload 4 1 7 7].
Definition wbranch (i j : Z) : raw_branch :=
  {| br_i := i; br_j := j; br_r := 1 / 100; br_x := 1 / 10; br_b := 1 / 5; br_gi := 0; br_bi := 0; br_gj := 0; br_bj := 0; br_st := 1 |}.
Definition wwind : winding := {| w_v := 1; w_nom := 0; w_ang := 30; w_rata := 0; w_ratb := 0; w_ratc := 0; w_cod := 0; w_rma := 1; w_rmi := 1; w_ntp := 33 |}.
Definition wz (r x b : R) : zpair := {| z_r := r; z_x := x; z_base := b |}.
(** 110 kV / 21 kV written in per unit of the bus voltage ... *)
Definition wx2 : raw_x2 :=
  {| t_i := 2; t_j := 3; t_cw := 1; t_cz := 1; t_cm := 1; t_mag1 := 0; t_mag2 := 0; t_stat := 1; t_z := wz 0 (1 / 10) 100;
     t_w1 := wwind; t_windv2 := 21 / 20; t_nomv2 := 0 |}.
(** ... and in kV and per unit of the winding base *)
Definition wx2' : raw_x2 :=
  {| t_i := 2; t_j := 3; t_cw := 2; t_cz := 2; t_cm := 1; t_mag1 := 0; t_mag2 := 0; t_stat := 1; t_z := wz 0 (1 / 20) 50;
     t_w1 := {| w_v := 110; w_nom := 0; w_ang := 30; w_rata := 0; w_ratb := 0; w_ratc := 0; w_cod := 0; w_rma := 1; w_rmi := 1; w_ntp := 33 |};
     t_windv2 := 21; t_nomv2 := 0 |}.
Definition wphys : physical := {| p_ui := 110; p_uj := 21; p_R := 0; p_X := 1 / 10 * (21 * 21 / 100) |}.
Definition wx3 (st : Z) : raw_x3 :=
  {| h_i := 1; h_j := 2; h_k := 3; h_cw := 1; h_cz := 1; h_cm := 1; h_mag1 := 0; h_mag2 := 0; h_stat := st;
     h_z12 := wz 0 (1 / 10) 100; h_z23 := wz 0 (1 / 5) 100; h_z31 := wz 0 (1 / 4) 100; h_w1 := wwind; h_w2 := wwind; h_w3 := wwind;
     h_vmstar := 1; h_anstar := 0 |}.
Definition wcase_of (gens : list raw_gen) (ss : list raw_ss) (x3 : list raw_x3) : raw_case :=
  {| rc_rev := 33; rc_sbase := 100; rc_buses := wbuses; rc_gens := gens; rc_ss := ss; rc_fs := [wfs];
     rc_loads := wloads; rc_branches := [wbranch 1 2; wbranch 2 4]; rc_x2 := [wx2; wx2']; rc_x3 := x3 |}.
Definition wcase := wcase_of wgens [wss; wsvc] [wx3 0].

Lemma wuni : forall g s x, NoDup (map b_num (rc_buses (wcase_of g s x))).
Proof. intros. cbn. repeat constructor; cbn; intuition discriminate. Qed.
Ltac nobus := let b := fresh "b" in let H := fresh "H" in let E := fresh "E" in let T := fresh "T" in intros (b & (H & E) & T); cbn in H; repeat (destruct H as [<-|H]; [cbn in *; try discriminate; congruence|]); contradiction.
Lemma wnom : forall g s x, ~ exists_online (wcase_of g s x) (-1).
Proof. intros. nobus. Qed.

Ltac each t := repeat (apply Forall_cons; [t|]); apply Forall_nil.
Lemma w_type : forall g s x n ty b, In b wbuses -> b_num b = n -> b_ide b = ty -> has_type (wcase_of g s x) n ty.
Proof. intros. exists b. split; [split; auto|auto]. Qed.
Lemma w_online : forall g s x n b, In b wbuses -> b_num b = n -> b_ide b <> 4%Z -> exists_online (wcase_of g s x) n.
Proof. intros. exists b. split; [split; auto|auto]. Qed.

Lemma w_slack1 : forall gs s x g, g_bus g = 1%Z -> g_stat g = 1%Z -> slack_on (wcase_of gs s x) g.
Proof. intros gs s x g E S. split; [|auto]. rewrite E. apply (w_type _ _ _ _ _ (wbus 1 3 110)); cbn; auto. Qed.
Lemma w_pv : forall gs s x g, g_bus g = 2%Z -> g_stat g = 1%Z -> pv_on (wcase_of gs s x) g.
Proof.
  intros gs s x g E S. split; [|split; [|auto]]; rewrite E; [nobus|]. apply (w_type _ _ _ _ _ (wbus 2 2 110)); cbn; auto.
Qed.
Lemma w_limits : forall n p q qt qb st, limits (wgen n p q qt qb st) qt qb.
Proof. intros. split; [auto|]. cbn. discriminate. Qed.
Lemma w_regulates : forall gs s x p q qt qb, 1 <= qt - qb -> regulates (wcase_of gs s x) (wgen 2 p q qt qb 1).
Proof.
  intros gs s x p q qt qb L. split; [apply w_pv; auto|split].
  - intros (_ & _ & t & b & L' & N). destruct (limits_fun _ _ _ _ _ (w_limits _ _ _ _ _ _) L') as (<- & <-).
    unfold narrow in N. rewrite Rabs_pos_eq in N by lra. lra.
  - intros (_ & t & b & L' & E1 & E2). destruct (limits_fun _ _ _ _ _ (w_limits _ _ _ _ _ _) L') as (<- & <-). lra.
Qed.
Lemma w_fixed : forall gs s x, fixed_q (wcase_of gs s x) wg4.
Proof.
  intros. split; [apply w_pv; auto|split; [cbn; discriminate|]]. exists 3, 3. split; [apply w_limits|].
  unfold narrow. rewrite Rabs_pos_eq; lra.
Qed.
Lemma w_wind : forall gs s x n p q qt qb st, wind_ok (wcase_of gs s x) (wgen n p q qt qb st).
Proof. intros gs s x n p q qt qb st _ [E|E]; discriminate. Qed.
Lemma w_silent5 : forall gs s x, ~ slack_on (wcase_of gs s x) wg5 /\ ~ pv_on (wcase_of gs s x) wg5.
Proof. intros. split; [intros (T & _); revert T; nobus|intros (_ & T & _); revert T; nobus]. Qed.
Lemma w_not_pv1 : forall gs s x g, g_bus g = 1%Z -> ~ pv_on (wcase_of gs s x) g.
Proof. intros gs s x g E (_ & T & _). rewrite E in T. revert T. nobus. Qed.

Lemma w_sscont : forall gs s x, continuous (wcase_of gs s x) wsvc.
Proof. intros. split; [split; [nobus|auto]|auto]. Qed.
Lemma w_ssstep : forall gs s x, stepped (wcase_of gs s x) wss.
Proof. intros. split; [split; [nobus|auto]|cbn; discriminate]. Qed.

Lemma w_bus2 : forall gs s x, bus_at (wcase_of gs s x) 2 (wbus 2 2 110).
Proof. intros. split; cbn; auto. Qed.
Lemma w_bus3 : forall gs s x, bus_at (wcase_of gs s x) 3 (wbus 3 1 20).
Proof. intros. split; cbn; auto 6. Qed.

Lemma w_describes : describes 100 (wbus 2 2 110) (wbus 3 1 20) wx2 wphys.
Proof.
  split; [exists 110; split; [split; cbn; intros; lra|]|split; [exists 20; split; [split; cbn; intros; lra|]|]].
  - repeat split; cbn; intros; try discriminate; lra.
  - repeat split; cbn; intros; try discriminate; lra.
  - left. cbn. repeat split; lra.
Qed.
Lemma w_describes' : describes 100 (wbus 2 2 110) (wbus 3 1 20) wx2' wphys.
Proof.
  split; [exists 110; split; [split; cbn; intros; lra|]|split; [exists 20; split; [split; cbn; intros; lra|]|]].
  - repeat split; cbn; intros; try discriminate; try contradiction; lra.
  - repeat split; cbn; intros; try discriminate; try contradiction; lra.
  - right; left. cbn. repeat split; lra.
Qed.
Lemma w_x2_fine : forall gs s x t, t = wx2 \/ t = wx2' -> x2_fine (wcase_of gs s x) t.
Proof.
  intros gs s x t Ht.
  assert (D : describes 100 (wbus 2 2 110) (wbus 3 1 20) t wphys) by (destruct Ht as [->| ->]; [apply w_describes|apply w_describes']).
  destruct (units_element (wcase_of gs s x) (wuni gs s x) t (wbus 2 2 110) (wbus 3 1 20) wphys) as (y & E & _).
  - destruct Ht as [->| ->]; apply w_bus2.
  - destruct Ht as [->| ->]; apply w_bus3.
  - cbn. lra.
  - cbn. discriminate.
  - cbn. discriminate.
  - destruct Ht as [->| ->]; discriminate.
  - cbn. lra.
  - cbn. lra.
  - cbn. lra.
  - destruct Ht as [->| ->]; discriminate.
  - destruct Ht as [->| ->]; intros [X|X]; discriminate.
  - exact D.
  - right. cbn. lra.
  - exists (Some y). auto.
Qed.

(** the case is acceptable: with one regulating machine, one fixed machine, two machines on the slack bus, a
    machine on a load bus, and both kinds of switched shunt *)
Lemma wcase_ok : raw_ok wcase.
Proof.
  unfold wcase. split; [cbn; auto|]. split; [exists (wbus 1 3 110); cbn; split; [auto|discriminate]|].
  split; [each ltac:(apply w_wind)|]. split; [intros l1 g l2 h _ _ _ _ _; cbn; lra|].
  split.
  { exists [2%Z], [3%Z]. split; [|split].
    - apply col_skip; [intros (P & _); revert P; apply w_not_pv1; auto|].
      apply col_skip; [intros (P & _); revert P; apply w_not_pv1; auto|].
      apply col_take; [apply w_regulates; lra|auto|].
      apply col_skip; [intros (_ & N & _); apply N, w_fixed|].
      apply col_skip; [intros (P & _); revert P; apply w_silent5|]. constructor.
    - apply col_skip; [intros (_ & E); discriminate|]. apply col_take; [apply w_sscont|auto|constructor].
    - repeat constructor; cbn; intuition discriminate. }
  split; [each ltac:(intros _; apply (w_online _ _ _ _ (wbus 3 1 20)); cbn; auto; discriminate)|].
  split; [each ltac:(intros _; apply (w_online _ _ _ _ (wbus 2 2 110)); cbn; auto; discriminate)|].
  split.
  { apply Forall_cons; [|apply Forall_cons; [|apply Forall_cons; [|apply Forall_cons; [|apply Forall_nil]]]]; intros (N & E); try discriminate.
    - apply (w_online _ _ _ _ (wbus 3 1 20)); cbn; auto; discriminate.
    - apply (w_online _ _ _ _ (wbus 3 1 20)); cbn; auto; discriminate.
    - exfalso. apply N. apply (w_type _ _ _ _ _ (wbus 4 4 20)); cbn; auto 6. }
  split.
  { constructor; [|constructor; [|constructor]].
    - intros _. split; [apply (w_online _ _ _ _ (wbus 1 3 110)); cbn; auto; discriminate|split; [apply (w_online _ _ _ _ (wbus 2 2 110)); cbn; auto; discriminate|]].
      cbn. repeat split; auto. left. lra.
    - intros (_ & N & _). exfalso. apply N. apply (w_type _ _ _ _ _ (wbus 4 4 20)); cbn; auto 6. }
  split; [each ltac:(intros _; apply w_x2_fine; auto)|].
  each ltac:(cbn; intros N; congruence).
Qed.
Lemma wcase_parses : exists net, parse_raw wcase = Ok net.
Proof. apply raw_total; [apply wuni|apply wnom|apply wcase_ok]. Qed.

(** two machines on one slack bus, with a system base of [sb] *)
Definition tcase (sb : R) : raw_case :=
  {| rc_rev := 33; rc_sbase := sb; rc_buses := [wbus 1 3 110]; rc_gens := [wg1; wg2]; rc_ss := []; rc_fs := [];
     rc_loads := []; rc_branches := []; rc_x2 := []; rc_x3 := [] |}.
Lemma tuni : forall sb, NoDup (map b_num (rc_buses (tcase sb))).
Proof. intros. cbn. repeat constructor; cbn; intuition discriminate. Qed.
Lemma tnom : forall sb, ~ exists_online (tcase sb) (-1).
Proof. intros. nobus. Qed.
Lemma t_slack : forall sb g, g_bus g = 1%Z -> g_stat g = 1%Z -> slack_on (tcase sb) g.
Proof. intros sb g E S. split; [|auto]. rewrite E. exists (wbus 1 3 110). split; [split; cbn; auto|auto]. Qed.
Lemma t_slacks : forall sb, chosen (slack_on (tcase sb)) (rc_gens (tcase sb)) [wg1; wg2].
Proof. intros. repeat (apply col_take; [apply t_slack; auto|auto|]). constructor. Qed.
Lemma t_ok : forall sb, sb <> 0 -> raw_ok (tcase sb).
Proof.
  intros sb S. split; [cbn; auto|]. split; [exists (wbus 1 3 110); cbn; split; [auto|discriminate]|].
  split; [each ltac:(intros N; exfalso; apply N; apply t_slack; auto)|]. split; [intros l1 g l2 h _ _ _ _ _; auto|].
  split; [|repeat split; apply Forall_nil]. exists [], []. split; [|split; [constructor|constructor]].
  repeat (apply col_skip; [intros ((N & _) & _); apply N; apply t_slack; auto|]). constructor.
Qed.
Lemma t_slack_net : forall sb net, parse_raw (tcase sb) = Ok net ->
  exists s, In s (n_slack net) /\ sl_bus s = 1%Z /\ sl_pinit s = 50 / 100 + 20 / sb.
Proof.
  intros sb net H. apply (raw_exact _ (tuni sb) (tnom sb)) in H as (_ & [_ (on & N1 & N2 & N3) _ _ _ _ _]).
  assert (on = [wg1; wg2]) by (eapply collects_fun; [|exact N1|apply t_slacks]; intros; congruence). subst on.
  cbn in N2. destruct (n_slack net) as [|s l]; [discriminate|]. injection N2 as E1 E2. exists s. split; [cbn; auto|split; [auto|]].
  inversion N3 as [|? ? (l1 & g & l2 & b & F1 & F2 & F3 & F4 & F5 & F6 & F7 & F8) _]; subst. rewrite F8.
  destruct l1 as [|y l1]; simpl in F1; injection F1 as <- F1.
  - subst l2. cbn. rewrite E1. cbn. rewrite Rplus_0_r. auto.
  - exfalso. apply (F3 wg1); [cbn; auto|cbn; auto].
Qed.

(** a continuous shunt on the slack bus is accepted: two voltage sources on one bus *)
Definition wsvc1 : raw_ss := {| ss_bus := 1; ss_modsw := 2; ss_stat := 1; ss_vhi := 1; ss_vlo := 9 / 10; ss_binit := 10; ss_steps := [(2%Z, 5)] |}.
Definition scase : raw_case :=
  {| rc_rev := 33; rc_sbase := 100; rc_buses := [wbus 1 3 110]; rc_gens := [wg1]; rc_ss := [wsvc1]; rc_fs := [];
     rc_loads := []; rc_branches := []; rc_x2 := []; rc_x3 := [] |}.
Lemma s_two_sources : exists net s g, parse_raw scase = Ok net /\ In s (n_slack net) /\ In g (n_gens net) /\ sl_bus s = og_bus g /\ sl_vset s <> og_vset g.
Proof.
  assert (U : NoDup (map b_num (rc_buses scase))) by (cbn; repeat constructor; cbn; intuition discriminate).
  assert (M : ~ exists_online scase (-1)) by nobus.
  assert (SL : slack_on scase wg1) by (split; [exists (wbus 1 3 110); split; [split; cbn; auto|auto]|auto]).
  assert (CO : continuous scase wsvc1) by (split; [split; [nobus|auto]|auto]).
  assert (OK : raw_ok scase).
  { split; [cbn; auto|]. split; [exists (wbus 1 3 110); cbn; split; [auto|discriminate]|].
    split; [each ltac:(intros N; exfalso; apply N; apply SL)|]. split; [intros l1 g l2 h _ _ _ _ _; cbn; lra|].
    split; [exists [], [1%Z]; split; [|split]|].
    - apply col_skip; [intros ((N & _) & _); apply N; apply SL|constructor].
    - apply col_take; [auto|auto|constructor].
    - repeat constructor. intros [].
    - split; [|repeat split; apply Forall_nil]. each ltac:(intros _; exists (wbus 1 3 110); split; [split; cbn; auto|cbn; discriminate]). }
  destruct (raw_total scase U M OK) as (net & H). exists net. pose proof H as H0.
  apply (raw_exact _ U M) in H0 as (_ & [_ (on & N1 & N2 & N3) (G & S & N4 & N5 & N6) _ _ _ _]).
  assert (on = [wg1]) by (eapply collects_fun; [|exact N1|apply col_take; [exact SL|reflexivity|constructor]]; intros; congruence). subst on.
  cbn in N2. destruct (n_slack net) as [|s l]; [discriminate|]. injection N2 as E1 E2.
  destruct (collects_all _ _ _ _ wsvc1 N6 ltac:(cbn; auto) CO) as (g & Hg & (lo & hi & q & _ & _ & _ & ->)).
  exists s. eexists. split; [auto|split; [cbn; auto|split; [rewrite N4; apply in_or_app; right; exact Hg|]]]. cbn. split; [auto|].
  inversion N3 as [|? ? (l1 & g & l2 & b & F1 & F2 & F3 & F4 & F5 & F6 & F7 & F8) _]; subst. rewrite F5.
  destruct l1 as [|y l1]; simpl in F1; [injection F1 as <- <-|destruct l1; discriminate]. cbn. lra.
Qed.

Lemma w_on : chosen (load_on wcase) wloads [wload 3 1 30 10; wload 3 1 5 5].
Proof.
  apply col_take; [split; [nobus|auto]|auto|]. apply col_skip; [intros (_ & E); discriminate|].
  apply col_take; [split; [nobus|auto]|auto|]. apply col_skip; [|constructor]. intros (N & _). apply N. apply (w_type _ _ _ _ _ (wbus 4 4 20)); cbn; auto 6.
Qed.
Lemma w_fixed_only : chosen (fixed_q wcase) wgens [wg4].
Proof.
  apply col_skip; [intros (P & _); revert P; apply w_not_pv1; auto|]. apply col_skip; [intros (P & _); revert P; apply w_not_pv1; auto|].
  apply col_skip; [intros F; destruct (w_regulates wgens [wss; wsvc] [wx3 0] 40 0 30 (-30) ltac:(lra)) as (_ & N & _); apply N; exact F|].
  apply col_take; [apply w_fixed|auto|]. apply col_skip; [intros (P & _); revert P; apply w_silent5|constructor].
Qed.
Lemma w_steps : chosen (stepped wcase) [wss; wsvc] [wss].
Proof. apply col_take; [apply w_ssstep|auto|]. apply col_skip; [intros (_ & N); apply N; auto|constructor]. Qed.
Lemma w_fixed_shunts : chosen (fs_on wcase) [wfs] [wfs].
Proof. apply col_take; [split; [nobus|split; [auto|left; cbn; lra]]|auto|constructor]. Qed.
Lemma w_taps : taps_usable wx2.
Proof. intros [E|E]; discriminate. Qed.
Lemma t_mixed : forall sb, sb <> 0 -> exists net s, parse_raw (tcase sb) = Ok net /\ In s (n_slack net) /\ sl_pinit s = 50 / 100 + 20 / sb.
Proof.
  intros sb S. destruct (raw_total _ (tuni sb) (tnom sb) (t_ok sb S)) as (net & H). destruct (t_slack_net sb net H) as (s & I & _ & E).
  exists net, s. auto.
Qed.
