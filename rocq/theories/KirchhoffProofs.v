(** Lemmas for C142: what every element contributes to the rows, without optimisation and at homotopy factor 0. *)
From Coq Require Import String List Bool Arith Reals Lra Lia.
From Verif Require Import Expr Segment Collect SpecSystem Components SpecComponents ComponentsProofs ElementProofs UnbalancedLine
  SpecUnbalanced UnbalancedProofs Network SpecNetwork NetworkAssign SpecKirchhoff.
Import ListNotations.
Local Open Scope R_scope.

Definition pair_of (w : nat -> R) (j : nat) : C := (w j, w (S j)).
Definition load_p (l : load) (dV : C) : C := if both0 (ld_P l) (ld_Q l) then C0 else pq_current (ld_P l) (ld_Q l) dV.
Definition load_z (l : load) (dV : C) : C := if both0 (ld_Zr l) (ld_Zi l) then C0 else Cmul (ld_G l, ld_B l) dV.
(** currents and missed laws, given the element's own unknowns [w] *)
Definition draws (V : bref -> C) (e : elem) (w : nat -> R) : currents :=
  match e with
  | ELine l f t => let I := Cmul (ln_G l, ln_B l) (across V f t) in
      [(f, Cadd I (Cmul (0, ln_Bsh l) (V f))); (t, Csub (Cmul (0, ln_Bsh l) (V t)) I)]
  | EUnb ph g b B => let n := length ph in let f i := fst (nth i ph (None, None)) in let t i := snd (nth i ph (None, None)) in
      let I i := Csum (fun j => Cmul (g i j, b i j) (across V (f j) (t j))) n in
      let charging e i := Csum (fun j => Cmul (0, B i j / 2) (V (e j))) n in
      flat_map (fun i => [(f i, Cadd (I i) (charging f i)); (t i, Csub (charging t i) (I i))]) (seq 0 n)
  | EXf x fp fn tp tn => let k := Cpolar (xf_tr x) (xf_ang x) in let I := pair_of w 0 in
      let J := Cmul (xf_G x, xf_B x) (Csub (pair_of w 2) (V tp)) in
      [(fp, I); (fn, Copp I); (tp, Copp J); (tn, Cmul (Cconj k) I)]
  | ECt c from pri s1 t1 s2 t2 => let k := / ct_ratio c in let I1 := pair_of w 0 in let I2 := pair_of w 2 in
      let J0 := Cmul (ct_g0 c, ct_b0 c) (across V from pri) in
      let J1 := Cmul (ct_g1 c, ct_b1 c) (across V s1 t1) in let J2 := Cmul (ct_g2 c, ct_b2 c) (across V s2 t2) in
      [(from, J0); (pri, Csub (Cscale k (Csub I2 I1)) J0); (s1, Cadd I1 J1); (t1, Copp J1); (s2, Cadd I2 J2); (t2, Copp J2)]
  | ESlack s => [(sl_bus s, pair_of w 0)]
  | ESwitch true f t | EVs _ _ f t => [(f, pair_of w 0); (t, Copp (pair_of w 0))]
  | ESwitch false f t => []
  | EGen g => [(gen_bus g, Copp (Copp (pq_current (- gen_P g) (w 0%nat) (V (gen_bus g)))))]
  | ELoad l f t => let I := Cadd (load_p l (across V f t)) (Cadd (ld_IP l, ld_IQ l) (load_z l (across V f t))) in [(f, I); (t, Copp I)]
  | EShunt G B b => [(b, Cmul (G / 100, B / 100) (V b))]
  | EReg ratio f t cur => let J := Cscale 10000 (Csub (pair_of w 2) (V cur)) in
      [(f, pair_of w 0); (cur, Csub (pair_of w 4) J); (t, Copp (pair_of w 4))]
  | EFuse f t m => let J := Cmul (10000, 10000) (across V f m) in [(f, J); (m, Csub (pair_of w 0) J); (t, Copp (pair_of w 0))]
  | ECap B true f t => let I := Cmul (0, B) (across V f t) in [(f, I); (t, Copp I)]
  | ECap _ false _ _ => []
  end.
Definition laws (V : bref -> C) (e : elem) (w : nat -> R) : list R :=
  match e with
  | EXf x fp fn tp tn => let k := Cpolar (xf_tr x) (xf_ang x) in let I := pair_of w 0 in let Vs := pair_of w 2 in
      let J := Cmul (xf_G x, xf_B x) (Csub Vs (V tp)) in
      re_im (Csub (across V fp fn) (Cmul k (Csub Vs (V tn)))) ++ re_im (Csub J (Cmul (Cconj k) I))
  | ECt c from pri s1 t1 s2 t2 => let k := / ct_ratio c in
      re_im (Csub (V s1) (Cscale k (V pri))) ++ re_im (Cadd (V s2) (Cscale k (V pri)))
  | ESlack s => re_im (Csub (V (sl_bus s)) (Cpolar (sl_V s) (sl_ang s)))
  | ESwitch true f t => re_im (across V t f)
  | EVs vr vi f t => re_im (Csub (vr, vi) (across V f t))
  | EGen g => [gen_Vset g * gen_Vset g - Cnorm2 (V (gen_bus g))]
  | EReg ratio f t cur => let J := Cscale 10000 (Csub (pair_of w 2) (V cur)) in
      re_im (Csub (V f) (Cscale ratio (pair_of w 2))) ++ re_im (Csub J (Cscale ratio (pair_of w 0))) ++ re_im (across V t cur)
  | EFuse f t m => re_im (across V t m)
  | _ => []
  end.

Fixpoint spread (a : bref -> nodes) (l : currents) (r : nat) : R :=
  match l with [] => 0 | (b, c) :: l => at_bus (a b) c r + spread a l r end.
Fixpoint own (n : nat) (m : list R) (r : nat) : R :=
  match m with [] => 0 | x :: m => hit (Some n) r * x + own (S n) m r end.
Lemma spread_app a l m r : spread a (l ++ m) r = spread a l r + spread a m r.
Proof. induction l as [|[b c] l IH]; cbn [app spread]; [ring|rewrite IH; ring]. Qed.
Lemma own_app a : forall n b r, own n (a ++ b) r = own n a r + own (n + length a) b r.
Proof.
  induction a as [|x a IH]; intros n b r; cbn [app own length]; [rewrite Nat.add_0_r; ring|].
  rewrite IH. replace (S n + length a)%nat with (n + S (length a))%nat by lia. ring.
Qed.
Lemma own_pair n c r : own n (re_im c) r = hit (Some n) r * fst c + hit (Some (S n)) r * snd c.
Proof. cbn [re_im own]. ring. Qed.
Lemma laws_length V e w : length (laws V e w) = own_unknowns e.
Proof. destruct e; try reflexivity; destruct closed; reflexivity. Qed.

Lemma free_false l r : free_row false l r.
Proof. intros E. discriminate. Qed.
#[export] Hint Resolve free_false : core.
Lemma branch_mul G B c : branch_current G B c = Cmul (G, B) c.
Proof. reflexivity. Qed.
Lemma scale_0 c : Cscale (1 - 0) c = c.
Proof. unfold Cscale. apply C_eq; simpl; ring. Qed.
Lemma scale_20 c : Cscale (1 + 20 * 0) c = c.
Proof. unfold Cscale. apply C_eq; simpl; ring. Qed.
Lemma bus_opp b c r : at_bus b (Copp c) r = - at_bus b c r.
Proof. unfold at_bus, Copp. simpl. ring. Qed.
Lemma bus_add b c d r : at_bus b (Cadd c d) r = at_bus b c r + at_bus b d r.
Proof. unfold at_bus, Cadd. simpl. ring. Qed.
Lemma bus_sub b c d r : at_bus b (Csub c d) r = at_bus b c r - at_bus b d r.
Proof. unfold at_bus, Csub. simpl. ring. Qed.
Lemma bus_gnd c r : at_bus GROUND c r = 0.
Proof. unfold at_bus. simpl. ring. Qed.
Lemma bus_C0 b r : at_bus b C0 r = 0.
Proof. unfold at_bus, C0. simpl. ring. Qed.
Lemma at_pair n c r : at_bus (pair_at n) c r = own n (re_im c) r.
Proof. rewrite own_pair. reflexivity. Qed.

Section Rows.
Variable tbl : table.
Variable v : nat -> R.
Let V (b : bref) : C := volt v (at_ref tbl b).

Lemma rows_line l f t n r : F (present (fst (assign_elem false tbl n (ELine l f t)))) v 0 r = spread (at_ref tbl) (draws V (ELine l f t) (fun j => v (n + j)%nat)) r.
Proof.
  cbn [assign_elem fst]. unfold line_stampers. rewrite !F_some, F_end, line_branch, !shunt_branch by auto. cbv zeta.
  rewrite !scale_0, !scale_20, !branch_mul, !volt_gnd. cbn [balance draws spread]. unfold across. fold (V f) (V t).
  rewrite !bus_opp, !bus_add, !bus_sub, !bus_gnd. ring.
Qed.
Lemma rows_load l f t n r : F (present (fst (assign_elem false tbl n (ELoad l f t)))) v 0 r = spread (at_ref tbl) (draws V (ELoad l f t) (fun j => v (n + j)%nat)) r.
Proof.
  cbn [assign_elem]. unfold load_stampers. cbv zeta.
  pose proof (fun m => pq_branch (ld_P l) (ld_Q l) (at_ref tbl f) (at_ref tbl t) m false v 0 r (free_false _ _)) as Hpq.
  pose proof (fun m => Ic_branch (ld_IP l) (ld_IQ l) (at_ref tbl f) (at_ref tbl t) m false v 0 r (free_false _ _)) as Hic.
  pose proof (shunt_branch (ld_G l) (ld_B l) (at_ref tbl f) (at_ref tbl t) false v 0 r (free_false _ _)) as Hz.
  cbv zeta in Hpq, Hz. cbn [balance] in *. rewrite scale_0, branch_mul in Hz.
  cbn [draws spread]. unfold across, load_p, load_z. fold (V f) (V t) in *.
  rewrite !bus_opp, !bus_add in *.
  set (d := Csub (V f) (V t)) in *.
  assert (Z0 : both0 (ld_IP l) (ld_IQ l) = true -> forall b, at_bus b (ld_IP l, ld_IQ l) r = 0).
  { intros B b. apply both0_true in B as [-> ->]. apply bus_C0. }
  destruct (both0 (ld_P l) (ld_Q l)), (both0 (ld_IP l) (ld_IQ l)), (both0 (ld_Zr l) (ld_Zi l));
  repeat match goal with |- context [two_terminal_details lh_pq ?f ?t ?n ?o] =>
    let E := fresh in specialize (Hpq n); destruct (two_terminal_details lh_pq f t n o) as [d1 n1] eqn:E; cbn [fst] in Hpq end;
  repeat match goal with |- context [two_terminal_details lh_Ic ?f ?t ?n ?o] =>
    let E := fresh in specialize (Hic n); destruct (two_terminal_details lh_Ic f t n o) as [d2 n2] eqn:E; cbn [fst] in Hic end;
  cbn [fst]; rewrite ?F_some, ?F_none, ?F_some, ?F_none, ?F_some, ?F_end; rewrite ?Hz; try rewrite Hpq; try rewrite Hic; rewrite ?bus_C0, ?(Z0 eq_refl), ?bus_opp; try ring.
Qed.

Lemma pair_volt n k : pair_of (fun j => v (n + j)%nat) k = volt v (pair_at (n + k)).
Proof. unfold pair_of, volt. cbn. replace (n + S k)%nat with (S (n + k)) by lia. reflexivity. Qed.
Lemma volt_i n : volt v (xf_current n false) = volt v (pair_at n). Proof. reflexivity. Qed.
Lemma volt_s n : volt v (xf_secondary n false) = volt v (pair_at (n + 2)).
Proof. unfold volt. cbn. replace (n + 3)%nat with (S (n + 2)) by lia. reflexivity. Qed.
Lemma at_i n c r : at_bus (xf_current n false) c r = own n (re_im c) r.
Proof. now rewrite <- at_pair. Qed.
Lemma at_s n c r : at_bus (xf_secondary n false) c r = own (n + 2) (re_im c) r.
Proof. rewrite <- at_pair. unfold at_bus. cbn [xf_secondary pair_at n_Vr n_Vi]. replace (n + 3)%nat with (S (n + 2)) by lia. reflexivity. Qed.
Lemma len_re_im c : length (re_im c) = 2%nat. Proof. reflexivity. Qed.

Lemma rows_xf x fp fn tp tn n r : let e := EXf x fp fn tp tn in let w j := v (n + j)%nat in
  F (present (fst (assign_elem false tbl n e))) v 0 r = spread (at_ref tbl) (draws V e w) r + own n (laws V e w) r.
Proof.
  cbv zeta. cbn [assign_elem]. unfold xf_stampers. cbn [fst]. rewrite !F_some, F_end, xf_branch, line_branch by auto. cbv zeta.
  rewrite scale_20, branch_mul, volt_s, volt_i. unfold xf_ratio.
  replace (xf_tr x + (1 - xf_tr x) * 0) with (xf_tr x) by ring. replace (xf_ang x * (1 - 0)) with (xf_ang x) by ring.
  cbn [balance draws laws spread]. rewrite !pair_volt, Nat.add_0_r. fold (V fp) (V fn) (V tp) (V tn). unfold across.
  rewrite !at_i, !at_s, !own_app, len_re_im. set (k := Cpolar _ _). set (I := volt v (pair_at n)). set (Vs := volt v (pair_at (n + 2))).
  rewrite !bus_opp, !own_pair. unfold Csub, Copp. cbn [fst snd]. ring.
Qed.
Lemma rows_ct c from pri s1 t1 s2 t2 n r : let e := ECt c from pri s1 t1 s2 t2 in let w j := v (n + j)%nat in
  F (present (fst (assign_elem false tbl n e))) v 0 r = spread (at_ref tbl) (draws V e w) r + own n (laws V e w) r.
Proof.
  cbv zeta. cbn [assign_elem]. rewrite ct_rows by auto. cbv zeta. rewrite !scale_20, !branch_mul.
  replace (ct_ratio c + (1 - ct_ratio c) * 0) with (ct_ratio c) by ring.
  assert (V1 : volt v (ct_current 0 n false) = volt v (pair_at n)) by (unfold volt; cbn; rewrite Nat.add_0_r; replace (n + 1)%nat with (S n) by lia; reflexivity).
  assert (V2 : volt v (ct_current 1 n false) = volt v (pair_at (n + 2))) by (unfold volt; cbn; replace (n + 2 + 1)%nat with (S (n + 2)) by lia; reflexivity).
  assert (A1 : forall c, at_bus (ct_current 0 n false) c r = at_bus (pair_at n) c r) by (intros; unfold at_bus; cbn; rewrite Nat.add_0_r; replace (n + 1)%nat with (S n) by lia; reflexivity).
  assert (A2 : forall c, at_bus (ct_current 1 n false) c r = at_bus (pair_at (n + 2)) c r) by (intros; unfold at_bus; cbn; replace (n + 2 + 1)%nat with (S (n + 2)) by lia; reflexivity).
  cbn [balance draws laws spread]. rewrite !V1, !V2, !A1, !A2, !at_pair, !pair_volt, Nat.add_0_r.
  fold (V from) (V pri) (V s1) (V t1) (V s2) (V t2). unfold across. rewrite !own_app, len_re_im. ring.
Qed.
Lemma rows_slack s n r : let e := ESlack s in let w j := v (n + j)%nat in
  F (present (fst (assign_elem false tbl n e))) v 0 r = spread (at_ref tbl) (draws V e w) r + own n (laws V e w) r.
Proof.
  cbv zeta. cbn [assign_elem]. rewrite slack_rows by auto. cbn [balance draws laws spread]. rewrite at_pair, pair_volt, Nat.add_0_r. unfold V. ring.
Qed.
Lemma rows_vs vr vi f t n r : let e := EVs vr vi f t in let w j := v (n + j)%nat in
  F (present (fst (assign_elem false tbl n e))) v 0 r = spread (at_ref tbl) (draws V e w) r + own n (laws V e w) r.
Proof.
  cbv zeta. cbn [assign_elem]. rewrite vs_rows by auto. cbv zeta. cbn [balance draws laws spread]. rewrite at_pair, pair_volt, Nat.add_0_r. unfold across, V. ring.
Qed.
Lemma rows_switch c f t n r : let e := ESwitch c f t in let w j := v (n + j)%nat in
  F (present (fst (assign_elem false tbl n e))) v 0 r = spread (at_ref tbl) (draws V e w) r + own n (laws V e w) r.
Proof.
  destruct c; cbv zeta; cbn [assign_elem]; unfold switch_stampers.
  - rewrite vs_rows by auto. cbv zeta. cbn [balance draws laws spread]. rewrite at_pair, pair_volt, Nat.add_0_r. fold (V f) (V t).
    replace (Csub (0, 0) (Csub (V f) (V t))) with (across V t f) by (unfold across, Csub; apply C_eq; simpl; ring). ring.
  - cbn [fst draws laws spread own]. rewrite F_end. ring.
Qed.
Lemma rows_gen g n r : let e := EGen g in let w j := v (n + j)%nat in
  F (present (fst (assign_elem false tbl n e))) v 0 r = spread (at_ref tbl) (draws V e w) r + own n (laws V e w) r.
Proof.
  cbv zeta. cbn [assign_elem]. unfold gen_stampers.
  pose proof (gen_branch (- gen_P g) (gen_Vset g) (at_ref tbl (gen_bus g)) n false v 0 r (free_false _ _)) as G.
  destruct (two_terminal_details gen_lh (at_ref tbl (gen_bus g)) GROUND n false) as [d n']. cbn [fst] in *. rewrite F_some, F_end, G.
  cbn [balance draws laws spread own]. unfold eq_at. rewrite !Nat.add_0_r, !bus_opp. fold (V (gen_bus g)). ring.
Qed.
Lemma rows_shunt G B b n r : let e := EShunt G B b in let w j := v (n + j)%nat in
  F (present (fst (assign_elem false tbl n e))) v 0 r = spread (at_ref tbl) (draws V e w) r + own n (laws V e w) r.
Proof.
  cbv zeta. cbn [assign_elem fst]. unfold shunt_stampers. rewrite F_some, F_end, shunt_branch by auto. cbv zeta.
  rewrite scale_0, branch_mul, volt_gnd. cbn [balance draws laws spread own]. rewrite bus_gnd. fold (V b). ring.
Qed.
Lemma rows_cap B c f t n r : let e := ECap B c f t in let w j := v (n + j)%nat in
  F (present (fst (assign_elem false tbl n e))) v 0 r = spread (at_ref tbl) (draws V e w) r + own n (laws V e w) r.
Proof.
  destruct c; cbv zeta; cbn [assign_elem fst].
  - rewrite F_some, F_end, shunt_branch by auto. cbv zeta. rewrite scale_0, branch_mul. cbn [balance draws laws spread own]. unfold across, V. ring.
  - rewrite F_end. cbn [draws laws spread own]. ring.
Qed.
Lemma rows_fuse f t m n r : let e := EFuse f t m in let w j := v (n + j)%nat in
  F (present (fst (assign_elem false tbl n e))) v 0 r = spread (at_ref tbl) (draws V e w) r + own n (laws V e w) r.
Proof.
  cbv zeta. cbn [assign_elem]. rewrite fuse_rows by auto. cbv zeta. rewrite scale_20. cbn [balance draws laws spread].
  rewrite at_pair, pair_volt, Nat.add_0_r. unfold across, V. ring.
Qed.
Lemma rows_reg ratio f t cur n r : let e := EReg ratio f t cur in let w j := v (n + j)%nat in
  F (present (fst (assign_elem false tbl n e))) v 0 r = spread (at_ref tbl) (draws V e w) r + own n (laws V e w) r.
Proof.
  cbv zeta. cbn [assign_elem]. rewrite reg_rows by auto. cbv zeta.
  replace ((1 + 20 * 0) * 10000) with 10000 by ring. replace (ratio + (1 - ratio) * 0) with ratio by ring.
  cbn [balance draws laws spread]. rewrite volt_i, volt_s, at_i, at_s, at_pair, !pair_volt, Nat.add_0_r, !own_app, !len_re_im.
  fold (V f) (V t) (V cur). unfold across. replace (n + 2 + 2)%nat with (n + 4)%nat by lia. ring.
Qed.
Lemma rows_unb ph g b B n r : let e := EUnb ph g b B in let w j := v (n + j)%nat in
  F (present (fst (assign_elem false tbl n e))) v 0 r = spread (at_ref tbl) (draws V e w) r + own n (laws V e w) r.
Proof.
  cbv zeta. cbn [assign_elem fst].
  pose proof (unb_rows (map (fun p : bref * bref => (at_ref tbl (fst p), at_ref tbl (snd p))) ph) g b B false v 0 r) as Rows.
  cbv zeta in Rows. rewrite Rows. clear Rows. cbn [balance draws laws own]. rewrite map_length, Rplus_0_r.
  assert (Ph : forall i, phase (map (fun p : bref * bref => (at_ref tbl (fst p), at_ref tbl (snd p))) ph) i =
    (at_ref tbl (fst (nth i ph (None, None))), at_ref tbl (snd (nth i ph (None, None))))).
  { intros i. unfold phase. exact (map_nth (fun p : bref * bref => (at_ref tbl (fst p), at_ref tbl (snd p))) ph (None, None) i). }
  assert (CE : forall g h m, (forall j, g j = h j) -> Csum g m = Csum h m).
  { intros g0 h m E. unfold Csum. induction (seq 0 m) as [|a l IH]; cbn [fold_right]; [reflexivity|now rewrite E, IH]. }
  unfold Rsum. induction (seq 0 (length ph)) as [|i l IH]; cbn [fold_right flat_map app]; [reflexivity|].
  rewrite IH. cbn [spread]. rewrite Rplus_0_r, <- Rplus_assoc. f_equal.
  unfold I_from, I_to, I_series, I_shunt. rewrite !Ph. cbn [fst snd].
  rewrite (CE (fun j => Cscale (series_scale 0 i j) _) (fun j => Cmul (g i j, b i j) (across V (fst (nth j ph (None, None))) (snd (nth j ph (None, None)))))).
  2:{ intros j. rewrite Ph. cbn [fst snd]. unfold across, V. unfold series_scale. destruct (Nat.eqb i j); [apply scale_20|apply scale_0]. }
  rewrite (CE (fun j => Cscale (1 - 0) (Cmul (0, B i j / 2) (volt v (fst _)))) (fun j => Cmul (0, B i j / 2) (V (fst (nth j ph (None, None)))))).
  2:{ intros j. rewrite Ph. cbn [fst snd]. apply scale_0. }
  rewrite (CE (fun j => Cscale (1 - 0) (Cmul (0, B i j / 2) (volt v (snd _)))) (fun j => Cmul (0, B i j / 2) (V (snd (nth j ph (None, None)))))).
  2:{ intros j. rewrite Ph. cbn [fst snd]. apply scale_0. }
  rewrite !bus_add, !bus_sub, !bus_opp. ring.
Qed.
Lemma rows_elem e n r : let w j := v (n + j)%nat in
  F (present (fst (assign_elem false tbl n e))) v 0 r = spread (at_ref tbl) (draws V e w) r + own n (laws V e w) r.
Proof.
  destruct e; [|apply rows_unb|apply rows_xf|apply rows_ct|apply rows_slack|apply rows_switch|apply rows_gen| |apply rows_vs|apply rows_shunt|
    apply rows_reg|apply rows_fuse|apply rows_cap]; cbv zeta.
  - rewrite rows_line. cbn [laws own]. ring.
  - rewrite rows_load. cbn [laws own]. ring.
Qed.
End Rows.

(** *** the relation and the functions *)
Lemma pq_unique P Q dV I : dV <> C0 -> power dV I = (P, Q) -> I = pq_current P Q dV.
Proof.
  intros H E. pose proof (Cnorm2_pos _ H) as N. destruct dV as [x y], I as [p q]. unfold power, pq_current, Cmul, Cconj, Cscale, Cnorm2 in *.
  simpl in *. injection E as <- <-. apply C_eq; simpl; field; auto.
Qed.
Lemma C0_dec (c : C) : c = C0 \/ c <> C0.
Proof. destruct c as [x y]. unfold C0. destruct (Req_dec x 0) as [->|Hx]; [destruct (Req_dec y 0) as [->|Hy]; [now left|]|]; right; intros E; injection E; auto. Qed.
Lemma both0_C x y : both0 x y = true <-> (x, y) = C0.
Proof. rewrite both0_true. unfold C0. split; [intros [-> ->]; auto|intros E; injection E; auto]. Qed.
Lemma z_spec l dV : (ld_Zr l, ld_Zi l) = C0 /\ load_z l dV = C0 \/ (ld_Zr l, ld_Zi l) <> C0 /\ Cmul (ld_Zr l, ld_Zi l) (load_z l dV) = dV.
Proof.
  unfold load_z, ld_G, ld_B. destruct (both0 (ld_Zr l) (ld_Zi l)) eqn:B; [left; split; auto; now apply both0_C|right].
  split; [intros E; apply both0_C in E; congruence|]. rewrite <- branch_mul. now apply branch_spec.
Qed.
Lemma Cmul_cancel Z a b : Z <> C0 -> Cmul Z a = Cmul Z b -> a = b.
Proof.
  intros H E. pose proof (Cnorm2_pos _ H) as N. destruct Z as [x y], a as [a1 a2], b as [b1 b2]. unfold Cmul, Cnorm2 in *. simpl in *. injection E as E1 E2.
  assert (M : forall s t, (x * x + y * y) * s = (x * x + y * y) * t -> s = t) by (intros; eapply Rmult_eq_reg_l; eauto).
  f_equal; apply M.
  - transitivity (x * (x * a1 - y * a2) + y * (x * a2 + y * a1)); [ring|]. rewrite E1, E2. ring.
  - transitivity (x * (x * a2 + y * a1) - y * (x * a1 - y * a2)); [ring|]. rewrite E1, E2. ring.
Qed.
Definition energised_at (V : bref -> C) (e : elem) : Prop :=
  match e with
  | ELoad l f t => (ld_P l, ld_Q l) <> C0 -> across V f t <> C0
  | EGen g => V (gen_bus g) <> C0
  | _ => True
  end.
Lemma behaves_draws V e w : energised_at V e -> behaves V e (draws V e w) (laws V e w).
Proof.
  intros H. destruct e; try destruct closed; cbn [draws laws energised_at] in *.
  - now constructor.
  - constructor.
  - exact (is_xf V x fp fn tp tn (pair_of w 0) (pair_of w 2)).
  - exact (is_ct V c from pri s1 t1 s2 t2 (pair_of w 0) (pair_of w 2)).
  - constructor.
  - constructor.
  - constructor.
  - apply is_gen with (Q := - w 0%nat); auto. pose proof (pq_power (- gen_P g) (w 0%nat) _ H) as E.
    unfold power, Cmul, Cconj, Copp in *. simpl in *. injection E as E1 E2. apply C_eq; simpl; lra.
  - apply is_load; [|apply z_spec]. unfold load_p. destruct (both0 (ld_P l) (ld_Q l)) eqn:B; [left; split; auto; now apply both0_C|right].
    assert (across V f t <> C0) by (apply H; intros E; apply both0_C in E; congruence). split; auto. now apply pq_power.
  - constructor.
  - constructor.
  - exact (is_reg V ratio f t cur (pair_of w 0) (pair_of w 2) (pair_of w 4)).
  - exact (is_fuse V f t interior (pair_of w 0)).
  - constructor.
  - constructor.
Qed.
Definition values (l : list R) : nat -> R := fun j => nth j l 0.
Lemma behaves_inv V e I m : behaves V e I m -> exists l, length l = own_unknowns e /\ I = draws V e (values l) /\ m = laws V e (values l).
Proof.
  destruct 1.
  - exists []. subst. repeat split.
  - exists []. repeat split.
  - exists [fst I; snd I; fst Vs; snd Vs]. destruct I, Vs. repeat split.
  - exists [fst I1; snd I1; fst I2; snd I2]. destruct I1, I2. repeat split.
  - exists [fst I; snd I]. destruct I. repeat split.
  - exists [fst I; snd I]. destruct I. repeat split.
  - exists []. repeat split.
  - exists [- Q]. repeat split. cbn [draws]. do 3 f_equal. change (values [- Q] 0) with (- Q).
    assert (E : Copp I = pq_current (- gen_P g) (- Q) (V (gen_bus g))).
    { apply pq_unique; auto. unfold power, Cmul, Cconj, Copp in *. destruct I, (V (gen_bus g)). simpl in *. injection H0 as E1 E2. apply C_eq; simpl; lra. }
    rewrite <- E. destruct I. unfold Copp. apply C_eq; simpl; ring.
  - exists []. repeat split. cbn [draws].
    assert (Ep : Ip = load_p l (across V f t)).
    { unfold load_p. destruct (both0 (ld_P l) (ld_Q l)) eqn:B.
      - destruct H as [[_ ->]|[N E]]; auto. apply both0_C in B. unfold C0 in B. injection B as B1 B2. rewrite B1, B2 in E.
        rewrite (pq_unique _ _ _ _ N E). unfold pq_current, Cscale, C0. apply C_eq; simpl; ring.
      - destruct H as [[E _]|[N E]]; [apply both0_C in E; congruence|]. now apply pq_unique. }
    assert (Ez : Iz = load_z l (across V f t)).
    { destruct (z_spec l (across V f t)) as [[Z E]|[Z E]]; destruct H0 as [[Z' E']|[Z' E']]; try contradiction; [congruence|].
      apply (Cmul_cancel (ld_Zr l, ld_Zi l)); auto. congruence. }
    subst I. now rewrite <- Ep, <- Ez.
  - exists [fst I; snd I]. destruct I. repeat split.
  - exists []. repeat split.
  - exists [fst I; snd I; fst Vs; snd Vs; fst M; snd M]. destruct I, Vs, M. repeat split.
  - exists [fst I; snd I]. destruct I. repeat split.
  - exists []. repeat split.
  - exists []. repeat split.
Qed.
