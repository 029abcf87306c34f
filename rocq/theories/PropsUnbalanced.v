(** C36, C37, C64: unbalanced lines. *)
From Coq Require Import List Bool Arith Reals.
From Verif Require Import Collect SpecSystem Components SpecComponents UnbalancedLine SpecUnbalanced UnbalancedProofs UnbalancedWitness.
Import ListNotations.
Local Open Scope R_scope.

(** every row, with and without optimisation *)
Theorem C36_rows : forall lines g b B opt v tx r,
  let n := length lines in let Y i j := (g i j, b i j) in
  let f i := fst (phase lines i) in let t i := snd (phase lines i) in
  let Vf i := volt v (f i) in let Vt i := volt v (t i) in let Lf i := mult v (f i) in let Lt i := mult v (t i) in
  F (present (unb_stampers lines g b B opt)) v tx r =
  Rsum (fun i => balance opt (f i) (I_from n Y B Vf Vt tx i) r + balance opt (t i) (I_to n Y B Vf Vt tx i) r +
    if opt then at_bus (f i) (I_from n (fun i j => Cconj (Y i j)) (fun i j => - B i j) Lf Lt tx i) r +
                at_bus (t i) (I_to n (fun i j => Cconj (Y i j)) (fun i j => - B i j) Lf Lt tx i) r else 0) n.
Proof. exact unb_rows. Qed.
Print Assumptions C36_rows.
Theorem C36_series_cancels : forall n Y B Vf Vt tx i,
  Cadd (I_from n Y B Vf Vt tx i) (I_to n Y B Vf Vt tx i) = Cadd (I_shunt n B tx Vf i) (I_shunt n B tx Vt i).
Proof. exact series_cancels. Qed.
Print Assumptions C36_series_cancels.

(** C37: the rows of the voltages are the derivatives of the line's Lagrangian exactly for symmetric matrices *)
Theorem C37_correct_iff_symmetric : forall lines g b B tx, well_placed lines -> tx <> 1 ->
  let Y i j := (g i j, b i j) in
  ((forall v c, voltage_unknown lines c ->
      derivable_pt_lim (fun t => line_lagrangian lines Y B tx (set_v v c t)) (v c) (F (present (unb_stampers lines g b B true)) v tx c)) <->
   forall i j, (i < length lines)%nat -> (j < length lines)%nat -> Y i j = Y j i /\ B i j = B j i).
Proof. exact dual_rows_iff. Qed.
Print Assumptions C37_correct_iff_symmetric.
Example C37_example : exists v c, voltage_unknown two_phases c /\
  ~ derivable_pt_lim (fun t => line_lagrangian two_phases (fun i j => (one_way i j, 0)) (fun _ _ => 0) 0 (set_v v c t)) (v c)
      (F (present (unb_stampers two_phases one_way (fun _ _ => 0) (fun _ _ => 0) true)) v 0 c).
Proof. exact asymmetric_wrong. Qed.
Example C37_placed : well_placed two_phases.
Proof. exact two_phases_placed. Qed.

(** C64: for every inversion routine *)
Theorem C64_accepted : forall inv z0 len nph z y, new_unbalanced inv z0 len nph = Some (z, y) ->
  let n := length z0 in
  (1 <= n <= 3)%nat /\ nph = n /\
  exists Z0 Yc : nat -> nat -> C,
    (forall i j, (i < n)%nat -> (j < n)%nat -> entry z0 i j = Some (Z0 i j) /\ entry z i j = Some (Cscale len (Z0 i j)) /\ entry y i j = Some (Yc i j)) /\
    (forall i j, (i < n)%nat -> (j < n)%nat ->
       Cnorm2 (Csub (Csum (fun k => Cmul (Cscale len (Z0 i k)) (Yc k j)) n) (if Nat.eqb i j then C1 else C0)) <= (1 / 90000) * (1 / 90000)) /\
    len <> 0 /\ forall i, (i < n)%nat -> exists j, (j < n)%nat /\ Z0 i j <> C0.
Proof. exact accepted_lengths. Qed.
Print Assumptions C64_accepted.
(** a single phase of non-zero impedance and length is always accepted, with its exact admittance *)
Theorem C64_one_phase : forall inv (Z : C) len, len <> 0 -> Z <> C0 ->
  exists Y, new_unbalanced inv [[Some Z]] len 1 = Some ([[Some (Cscale len Z)]], [[Some Y]]) /\ Cmul (Cscale len Z) Y = C1.
Proof. exact one_phase. Qed.
Print Assumptions C64_one_phase.
(** two or three phases are accepted whenever the inversion routine returns the inverse *)
Theorem C64_true_inverse : forall inv z0 len y (Z0 Y : nat -> nat -> C),
  let n := length z0 in let Z i j := Cscale len (Z0 i j) in
  (2 <= n <= 3)%nat -> (forall r, In r z0 -> length r = n) -> length y = n -> (forall r, In r y -> length r = n) ->
  (forall i j, (i < n)%nat -> (j < n)%nat -> entry z0 i j = Some (Z0 i j) /\ entry y i j = Some (Y i j)) ->
  (forall i j, (i < n)%nat -> (j < n)%nat -> Csum (fun k => Cmul (Z i k) (Y k j)) n = (if Nat.eqb i j then C1 else C0) /\
                                           Csum (fun k => Cmul (Y i k) (Z k j)) n = (if Nat.eqb i j then C1 else C0)) ->
  (forall m, (forall i j, (i < n)%nat -> (j < n)%nat -> entry m i j = Some (Z i j)) -> inv m = Some y) ->
  exists z, new_unbalanced inv z0 len n = Some (z, y) /\ forall i j, (i < n)%nat -> (j < n)%nat -> entry z i j = Some (Z i j).
Proof. exact true_inverse_accepted. Qed.
Print Assumptions C64_true_inverse.
Example C64_true_inverse_example : exists z, new_unbalanced (fun _ => Some coupled_inv) coupled 2 2 = Some (z, coupled_inv) /\ entry z 0 1 = Some (2, 0).
Proof. exact coupled_accepted. Qed.
Example C64_example : exists y, new_unbalanced half_inv [[Some (1, 0)]] 2 1 = Some ([[Some (2 * 1, 2 * 0)]], y).
Proof. exact one_phase_accepted. Qed.
Example C64_zero_phase_rejected : forall inv len a, new_unbalanced inv [[Some a; Some (0, 0)]; [Some (0, 0); Some (0, 0)]] len 2 = None.
Proof. exact zero_phase_rejected. Qed.
