(** C30-C35, C38, C40, C41, C62, C63: what the elements contribute to the equations.
    [free_row]: with optimisation the statements are about the rows of the multipliers (the circuit equations);
    without it they hold for every row. *)
From Coq Require Import String List Bool Arith Reals Lra Lia.
From Verif Require Import Expr Segment Collect SpecSystem Components SpecComponents ComponentsProofs ElementProofs ComponentsWitness.
Import ListNotations.
Local Open Scope R_scope.

(** C30, C31: the three parts of a load *)
Theorem C30_load_currents : forall l f t n opt v tx, exists Ipq Ic Iz,
  (forall r, free_row opt (bus_unknowns f ++ bus_unknowns t) r ->
     F (present (fst (load_stampers l f t n opt))) v tx r =
     let I := Cadd Ipq (Cadd Ic Iz) in balance opt f I r + balance opt t (Copp I) r) /\
  (Csub (volt v f) (volt v t) <> C0 -> power (Csub (volt v f) (volt v t)) Ipq = (ld_P l, ld_Q l)) /\
  (ld_P l = 0 -> ld_Q l = 0 -> Ipq = C0) /\ Ic = (ld_IP l, ld_IQ l) /\
  ((ld_Zr l, ld_Zi l) <> C0 -> Cmul (ld_Zr l, ld_Zi l) Iz = Cscale (1 - tx) (Csub (volt v f) (volt v t))) /\
  ((ld_Zr l, ld_Zi l) = C0 -> Iz = C0).
Proof. exact load_draws. Qed.
Print Assumptions C30_load_currents.
Example C30_example : F (present (fst (load_stampers witness_load bus0 GROUND 2 false))) (fun n => if Nat.eqb n 0 then 2 else 0) 0 0 = 1 / 2 /\
  F (present (fst (load_stampers witness_load bus0 GROUND 2 false))) (fun n => if Nat.eqb n 0 then 2 else 0) 0 1 = - (1 / 4).
Proof. exact witness_load_rows. Qed.

(** an impedance fed with k times its voltage *)
Theorem C31_impedance_power : forall (Z V I : C) k, Cmul Z I = Cscale k V ->
  Cmul (power V I) (Cconj Z) = (k * Cnorm2 V, 0) /\ (0 <= fst Z -> 0 < k -> 0 <= fst (power V I)).
Proof. exact impedance_power. Qed.
Print Assumptions C31_impedance_power.
Theorem C31_empty_load : forall l f t n opt, ld_P l = 0 -> ld_Q l = 0 -> ld_IP l = 0 -> ld_IQ l = 0 -> ld_Zr l = 0 -> ld_Zi l = 0 ->
  present (fst (load_stampers l f t n opt)) = [] /\ snd (load_stampers l f t n opt) = n.
Proof. exact empty_load. Qed.
Print Assumptions C31_empty_load.
Example C31_example : Cmul (1, 1) (1, -1) = Cscale 1 (2, 0).
Proof. unfold Cmul, Cscale. simpl. f_equal; ring. Qed.

(** C32 *)
Theorem C32_pi_model : forall r x b l f t opt v tx, new_line r x b = Some l -> exists Is,
  Cmul (r, x) Is = Cscale (1 + 20 * tx) (Csub (volt v f) (volt v t)) /\
  let Ish V := Cscale (1 - tx) (Cmul (0, b / 2) V) in
  let If := Cadd Is (Ish (volt v f)) in
  let It := Cadd (Copp Is) (Ish (volt v t)) in
  (forall row, free_row opt (bus_unknowns f ++ bus_unknowns t) row ->
     F (present (line_stampers l f t opt)) v tx row = balance opt f If row + balance opt t It row) /\
  fst (power (volt v f) If) + fst (power (volt v t) It) = (1 + 20 * tx) * (r / (r * r + x * x)) * Cnorm2 (Csub (volt v f) (volt v t)).
Proof. exact line_currents. Qed.
Print Assumptions C32_pi_model.
Theorem C32_absorbs : forall r x tx V, 0 <= r -> 0 < r * r + x * x -> - (1 / 20) <= tx -> 0 <= (1 + 20 * tx) * (r / (r * r + x * x)) * Cnorm2 V.
Proof. exact line_absorbs. Qed.
Print Assumptions C32_absorbs.
Theorem C32_rejected_iff : forall r x b, new_line r x b = None <-> r = 0 /\ x = 0.
Proof. exact line_rejected. Qed.
Print Assumptions C32_rejected_iff.
Example C32_example : exists l, new_line 3 4 1 = Some l /\ ln_G l = 3 / 25 /\ ln_B l = - (4 / 25).
Proof. exact witness_line. Qed.

(** C33: k is the complex ratio, I the unknown primary current, Is the ideal secondary current and Iz the current through the
    winding impedance *)
Theorem C33_transformer : forall r x tr ang_deg xf fp fn tp tn n opt v tx, new_transformer r x tr ang_deg = Some xf ->
  let i := xf_current n opt in let s := xf_secondary n opt in
  let k := Cpolar (tr + (1 - tr) * tx) (ang_deg * PI / 180 * (1 - tx)) in
  let I := volt v i in
  let Vp := Csub (volt v fp) (volt v fn) in let Vs := Csub (volt v s) (volt v tn) in
  exists Is Iz, Cmul (r, x) Iz = Cscale (1 + 20 * tx) (Csub (volt v s) (volt v tp)) /\
  (Vp = Cmul k Vs -> Cadd (power Vp I) (power Vs Is) = C0) /\ Is = Copp (Cmul (Cconj k) I) /\
  forall row, free_row opt (bus_unknowns fp ++ bus_unknowns fn ++ bus_unknowns tp ++ bus_unknowns tn ++ bus_unknowns i ++ bus_unknowns s) row ->
    F (present (fst (xf_stampers xf fp fn tp tn n opt))) v tx row =
    balance opt fp I row + balance opt fn (Copp I) row +
    balance opt s (Cadd Is Iz) row + balance opt tn (Copp Is) row + balance opt tp (Copp Iz) row +
    balance opt i (Csub Vp (Cmul k Vs)) row.
Proof. exact xf_rows. Qed.
Print Assumptions C33_transformer.
Example C33_example : exists xf, new_transformer 0 (1/10) 2 30 = Some xf /\ xf_ang xf = PI / 6 /\ xf_B xf = -10.
Proof. exact witness_transformer. Qed.

(** C34 *)
Theorem C34_center_tap_rows : forall c from pri s1 t1 s2 t2 n opt v tx,
  let i1 := ct_current 0 n opt in let i2 := ct_current 1 n opt in
  let k := / (ct_ratio c + (1 - ct_ratio c) * tx) in
  let I1 := volt v i1 in let I2 := volt v i2 in let Ip := Cscale k (Csub I2 I1) in
  let J0 := Cscale (1 + 20 * tx) (branch_current (ct_g0 c) (ct_b0 c) (Csub (volt v from) (volt v pri))) in
  let J1 := Cscale (1 + 20 * tx) (branch_current (ct_g1 c) (ct_b1 c) (Csub (volt v s1) (volt v t1))) in
  let J2 := Cscale (1 + 20 * tx) (branch_current (ct_g2 c) (ct_b2 c) (Csub (volt v s2) (volt v t2))) in
  forall row, free_row opt (flat_map bus_unknowns [from; pri; s1; t1; s2; t2; i1; i2]) row ->
    F (present (fst (ct_stampers c from pri s1 t1 s2 t2 n opt))) v tx row =
    balance opt from J0 row + balance opt pri (Csub Ip J0) row +
    balance opt s1 (Cadd I1 J1) row + balance opt t1 (Copp J1) row +
    balance opt s2 (Cadd I2 J2) row + balance opt t2 (Copp J2) row +
    balance opt i1 (Csub (volt v s1) (Cscale k (volt v pri))) row + balance opt i2 (Cadd (volt v s2) (Cscale k (volt v pri))) row.
Proof. exact ct_rows. Qed.
Print Assumptions C34_center_tap_rows.
(** each winding has its per unit impedance times the square of its own nominal voltage over the rating *)
Theorem C34_windings : forall ratio rating res rea vnom,
  (new_center_tap ratio rating res rea vnom = None <-> rating = 0) /\
  forall c, new_center_tap ratio rating res rea vnom = Some c -> ct_ratio c = ratio /\
    forall i Y, In (i, Y) [(0%nat, (ct_g0 c, ct_b0 c)); (1%nat, (ct_g1 c, ct_b1 c)); (2%nat, (ct_g2 c, ct_b2 c))] -> vnom i <> 0 ->
      ((res i, rea i) <> C0 -> Cmul (Cscale (vnom i * vnom i / rating) (res i, rea i)) Y = C1) /\ ((res i, rea i) = C0 -> Y = C0).
Proof. exact center_tap_windings. Qed.
Print Assumptions C34_windings.
Theorem C34_lossless : forall k Vp V1 V2 I1 I2, V1 = Cscale k Vp -> V2 = Copp (Cscale k Vp) ->
  Cadd (power Vp (Cscale k (Csub I2 I1))) (Cadd (power V1 I1) (power V2 I2)) = C0.
Proof. exact ct_lossless. Qed.
Print Assumptions C34_lossless.
Example C34_windings_example : exists c, new_center_tap 60 2 (fun _ => 1) (fun _ => 0) (fun _ => 2) = Some c /\ ct_g0 c = 1 / 2 /\ ct_b0 c = 0.
Proof. exact witness_windings. Qed.
Example C34_example : let Vp := (7200, 0) in let V1 := Cscale (1/60) Vp in V1 = (120, 0) /\ power V1 (1, 2) = (120, -240).
Proof. exact witness_center_tap. Qed.

(** C35: a homotopy factor has the effect of other parameters at factor 0, in every row including the optimality rows *)
Theorem C35_line : forall l f t opt v tx r,
  F (present (line_stampers l f t opt)) v tx r =
  F (present (line_stampers {| ln_G := (1 + 20 * tx) * ln_G l; ln_B := (1 + 20 * tx) * ln_B l; ln_Bsh := (1 - tx) * ln_Bsh l |} f t opt)) v 0 r.
Proof. exact line_element_homotopy. Qed.
Print Assumptions C35_line.
Theorem C35_transformer : forall x fp fn tp tn n opt v tx r,
  F (present (fst (xf_stampers x fp fn tp tn n opt))) v tx r =
  F (present (fst (xf_stampers {| xf_tr := xf_tr x + (1 - xf_tr x) * tx; xf_ang := xf_ang x * (1 - tx);
                                  xf_G := (1 + 20 * tx) * xf_G x; xf_B := (1 + 20 * tx) * xf_B x |} fp fn tp tn n opt))) v 0 r.
Proof. exact xf_element_homotopy. Qed.
Print Assumptions C35_transformer.
Theorem C35_center_tap : forall c from pri s1 t1 s2 t2 n opt v tx r, ct_ratio c + (1 - ct_ratio c) * tx <> 0 ->
  let k := 1 + 20 * tx in
  F (present (fst (ct_stampers c from pri s1 t1 s2 t2 n opt))) v tx r =
  F (present (fst (ct_stampers {| ct_ratio := ct_ratio c + (1 - ct_ratio c) * tx; ct_g0 := k * ct_g0 c; ct_b0 := k * ct_b0 c;
       ct_g1 := k * ct_g1 c; ct_b1 := k * ct_b1 c; ct_g2 := k * ct_g2 c; ct_b2 := k * ct_b2 c |} from pri s1 t1 s2 t2 n opt))) v 0 r.
Proof. exact ct_element_homotopy. Qed.
Print Assumptions C35_center_tap.
(** shunts (also capacitors, impedance loads and line charging) vanish at factor 1 *)
Theorem C35_shunts_vanish : forall G B f t opt v r, F [(line_details f t opt true, [G; B; 0])] v 1 r = 0.
Proof. exact shunt_full. Qed.
Print Assumptions C35_shunts_vanish.
(** loads of constant power or current, generators, slacks and sources do not depend on the factor *)
Theorem C35_others_unchanged : forall s f t n opt c v tx r, In s [lh_pq; lh_Ic; gen_lh; slack_lh; vs_lh] ->
  F [(fst (two_terminal_details s f t n opt), c)] v tx r = F [(fst (two_terminal_details s f t n opt), c)] v 0 r.
Proof. exact unchanged. Qed.
Print Assumptions C35_others_unchanged.
Example C35_example : exists v, F (present (line_stampers {| ln_G := 1; ln_B := 0; ln_Bsh := 2 |} bus0 GROUND false)) v 1 0 = 21 /\
  F (present (line_stampers {| ln_G := 1; ln_B := 0; ln_Bsh := 2 |} bus0 GROUND false)) v 0 0 = 1 /\
  F (present (line_stampers {| ln_G := 1; ln_B := 0; ln_Bsh := 2 |} bus0 GROUND false)) v 0 1 = 2.
Proof. exact witness_homotopy. Qed.

(** C38: v n is the reactive power unknown of the generator (drawn), I the current it injects *)
Theorem C38_generator_current : forall P Vset b n opt v tx, exists I,
  (volt v b <> C0 -> power (volt v b) I = (P, - v n)) /\
  forall r, free_row opt (bus_unknowns b ++ [Some n]) r ->
    F (present (fst (gen_stampers P Vset b n opt))) v tx r =
    balance opt b (Copp I) r + hit (eq_at opt n 1 0) r * (Vset * Vset - Cnorm2 (volt v b)).
Proof. exact gen_rows. Qed.
Print Assumptions C38_generator_current.
Theorem C38_generator_voltage : forall P Vset b n (opt : bool) v tx, let m := (if opt then n + 1 else n)%nat in away b m ->
  (F (present (fst (gen_stampers P Vset b n opt))) v tx m = 0 <-> Cnorm2 (volt v b) = Vset * Vset).
Proof. exact gen_holds. Qed.
Print Assumptions C38_generator_voltage.
Theorem C38_slack_voltage : forall Vset ang b n (opt : bool) v tx, let m := (if opt then n + 2 else n)%nat in away b m -> away b (S m) ->
  (F (present (fst (slack_stampers Vset ang b n opt))) v tx m = 0 /\ F (present (fst (slack_stampers Vset ang b n opt))) v tx (S m) = 0 <->
   volt v b = Cpolar Vset ang).
Proof. exact slack_holds. Qed.
Print Assumptions C38_slack_voltage.
Example C38_example : exists v, F (present (fst (gen_stampers 1 1 bus0 2 false))) v 0 2 = 0 /\ volt v bus0 <> C0.
Proof. exact witness_generator. Qed.

(** C40 *)
Theorem C40_l1_is_quadratic : forall b n v tx, (forall k, (k < 4)%nat -> ~ In (Some (n + k)%nat) [n_Lr b; n_Li b]) ->
  (forall k, (k < 4)%nat -> F (present (fst (l1_stampers b n))) v tx (n + k)%nat = 0) ->
  let L := mult v b in
  v n - v (n + 2)%nat = fst L /\ v (n + 1)%nat - v (n + 3)%nat = snd L /\
  v n + v (n + 2)%nat = - 1 /\ v (n + 1)%nat + v (n + 3)%nat = - 1 /\
  (Rabs (fst L) < 1 -> v n < 0 /\ v (n + 2)%nat < 0).
Proof. exact l1_solution. Qed.
Print Assumptions C40_l1_is_quadratic.
Example C40_example : exists v, forall k, (k < 4)%nat -> F (present (fst (l1_stampers bus0 4))) v 0 (4 + k)%nat = 0.
Proof. exact witness_l1. Qed.

(** C41 *)
Theorem C41_source_rows : forall Vr Vi f t n opt v tx r, free_row opt (bus_unknowns f ++ bus_unknowns t ++ bus_unknowns (pair_at n)) r ->
  F (present (fst (vs_stampers Vr Vi f t n opt))) v tx r =
  let I := volt v (pair_at n) in
  balance opt f I r + balance opt t (Copp I) r +
  at_bus (pair_at (if opt then n + 2 else n)) (Csub (Vr, Vi) (Csub (volt v f) (volt v t))) r.
Proof. exact vs_rows. Qed.
Print Assumptions C41_source_rows.
Theorem C41_source_voltage : forall Vr Vi f t n (opt : bool) v tx, let m := (if opt then n + 2 else n)%nat in
  away f m -> away f (S m) -> away t m -> away t (S m) ->
  (F (present (fst (vs_stampers Vr Vi f t n opt))) v tx m = 0 /\ F (present (fst (vs_stampers Vr Vi f t n opt))) v tx (S m) = 0 <->
   Csub (volt v f) (volt v t) = (Vr, Vi)).
Proof. exact vs_holds. Qed.
Print Assumptions C41_source_voltage.
Theorem C41_switch : forall f t n opt,
  switch_stampers true f t n opt = vs_stampers 0 0 f t n opt /\ switch_stampers false f t n opt = ([], n).
Proof. exact switch_is. Qed.
Print Assumptions C41_switch.
Example C41_example : exists v, F (present (fst (vs_stampers 0 0 bus0 bus2 4 false))) v 0 4 = 0 /\
   F (present (fst (vs_stampers 0 0 bus0 bus2 4 false))) v 0 5 = 0 /\ volt v bus0 = (1, 2) /\
   F (present (fst (vs_stampers 0 0 bus0 bus2 4 false))) v 0 0 = 3.
Proof. exact witness_source. Qed.

(** C62: shunts and capacitors *)
Theorem C62_shunt : forall G B b opt v tx, exists I,
  power (volt v b) I = Cscale (1 - tx) (G / 100 * Cnorm2 (volt v b), - (B / 100 * Cnorm2 (volt v b))) /\
  forall r, free_row opt (bus_unknowns b) r -> F (present (shunt_stampers G B b opt)) v tx r = balance opt b I r.
Proof. exact shunt_rows. Qed.
Print Assumptions C62_shunt.
Theorem C62_capacitor : forall var vnom f t opt v tx, vnom <> 0 ->
  capacitor_stampers var vnom false f t opt = Some [] /\
  exists l I, capacitor_stampers var vnom true f t opt = Some l /\
  power (Csub (volt v f) (volt v t)) I = (0, - ((1 - tx) * (var * (Cnorm2 (Csub (volt v f) (volt v t)) / (vnom * vnom))))) /\
  forall r, free_row opt (bus_unknowns f ++ bus_unknowns t) r -> F (present l) v tx r = balance opt f I r + balance opt t (Copp I) r.
Proof. exact capacitor_rows. Qed.
Print Assumptions C62_capacitor.
Example C62_example : exists l, capacitor_stampers 3 2 true bus0 GROUND false = Some l /\ F (present l) (fun n => if Nat.eqb n 0 then 2 else 0) 0 1 = 3 / 2.
Proof. exact witness_capacitor. Qed.

(** C63: series devices with an interior node and a current sensor *)
Theorem C63_fuse_rows : forall f t m n opt v tx r, free_row opt (flat_map bus_unknowns [f; t; m; pair_at n]) r ->
  F (present (fst (fuse_stampers f t m n opt))) v tx r =
  let J := Cscale (1 + 20 * tx) (Cmul (10000, 10000) (Csub (volt v f) (volt v m))) in
  let I := volt v (pair_at n) in
  balance opt f J r + balance opt m (Csub I J) r + balance opt t (Copp I) r +
  at_bus (pair_at (if opt then n + 2 else n)) (Csub (volt v t) (volt v m)) r.
Proof. exact fuse_rows. Qed.
Print Assumptions C63_fuse_rows.
Theorem C63_regulator_rows : forall ratio f t cur n opt v tx r,
  let i := xf_current n opt in let s := xf_secondary n opt in let m := (n + if opt then 8 else 4)%nat in
  free_row opt (flat_map bus_unknowns [f; t; cur; i; s; pair_at m]) r ->
  F (present (fst (reg_stampers ratio f t cur n opt))) v tx r =
  let k := ratio + (1 - ratio) * tx in
  let I := volt v i in
  let J := Cscale ((1 + 20 * tx) * 10000) (Csub (volt v s) (volt v cur)) in
  let M := volt v (pair_at m) in
  balance opt f I r + balance opt s (Csub J (Cscale k I)) r + balance opt cur (Csub M J) r + balance opt t (Copp M) r +
  balance opt i (Csub (volt v f) (Cscale k (volt v s))) r +
  at_bus (pair_at (if opt then m + 2 else m)) (Csub (volt v t) (volt v cur)) r.
Proof. exact reg_rows. Qed.
Print Assumptions C63_regulator_rows.
(** where these equations hold at factor 0, the output voltage is the input divided by the ratio minus the small drop, the
    sensor current is the ratio times the input current, and no power is lost but in the 1e-4 resistance *)
Theorem C63_regulator_solved : forall ratio Vf Vs Vcur Vt I J M, ratio <> 0 ->
  J = Cscale 10000 (Csub Vs Vcur) -> Csub J (Cscale ratio I) = C0 -> Csub M J = C0 ->
  Csub Vf (Cscale ratio Vs) = C0 -> Csub Vt Vcur = C0 ->
  M = Cscale ratio I /\ Vf = Cscale ratio (Cadd Vt (Cscale (1 / 10000) M)) /\
  Csub (power Vf I) (power Vt M) = (1 / 10000 * Cnorm2 M, 0).
Proof. exact reg_solved. Qed.
Print Assumptions C63_regulator_solved.
Example C63_example : exists Vs I J M, J = Cscale 10000 (Csub Vs (1, 0)) /\ Csub J (Cscale 2 I) = C0 /\ Csub M J = C0 /\ M <> C0.
Proof. exact witness_regulator. Qed.
