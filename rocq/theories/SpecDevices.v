(** Specification side of C26-C29. *)
From Coq Require Import List Bool Arith ZArith Reals.
From Verif Require Import Devices.
Import ListNotations.
Local Open Scope R_scope.

(** a device that has to act on the voltages [v]: a good fuse above its limit, a voltage controlled capacitor
    whose switch does not match the side of the band the code associates with it; the modes without
    implementation always raise *)
Definition must_act (v : nat -> R) (d : device) : Prop :=
  match d with
  | DFuse f => f_status f = GOOD /\ f_limit f < sqrt (v (f_Ir f) * v (f_Ir f) + v (f_Ii f) * v (f_Ii f))
  | DCap c =>
      let m := sqrt (v (c_Vr c) * v (c_Vr c) + v (c_Vi c) * v (c_Vi c)) in
      match c_mode c with
      | C_MANUAL => False
      | C_VOLT => (c_high c < m /\ c_switch c = OPEN) \/ (m < c_low c /\ c_switch c = CLOSED)
      | C_VAR | C_VARVOLT => True
      end
  | DReg _ | DOther => False
  end.
(** no device has to act; devices of positive sequence networks are never touched *)
Definition settled (three_phase : bool) (v : nat -> R) (ds : list device) : Prop :=
  three_phase = true -> forall d, In d ds -> ~ must_act v d.

(** a sequence of voltage vectors shown to a fuse *)
Fixpoint fuse_history (vs : list (nat -> R)) (f : fuse) : fuse :=
  match vs with [] => f | v :: r => fuse_history r (fst (fuse_adjust v f)) end.

(** tap changes requested one after the other; None: one of them raised *)
Fixpoint tap_history (incs : list Z) (r : regulator) : option regulator :=
  match incs with
  | [] => Some r
  | i :: rest => match increment_tap r i with None => None | Some (r', _) => tap_history rest r' end
  end.
Definition ratio_of (r : regulator) : R :=
  match r_type r with REG_A => 1 / (1 + r_step r * IZR (r_tap r)) | REG_B => 1 - r_step r * IZR (r_tap r) end.

(** the usual rule of voltage controlled capacitor banks: switch in when low, out when high *)
Definition expected_switch (m low high : R) (s : cap_switch) : cap_switch :=
  if Rlt_dec m low then CLOSED else if Rlt_dec high m then OPEN else s.

(** a sequence of voltage vectors shown to a capacitor; None: an exception *)
Fixpoint cap_history (vs : list (nat -> R)) (c : capacitor) : option capacitor :=
  match vs with [] => Some c | v :: r => match cap_adjust v c with None => None | Some (c', _) => cap_history r c' end end.
(** the side of the band of the last voltage outside it: below is Some true, above Some false *)
Definition last_side (low high : R) (ms : list R) : option bool :=
  fold_left (fun s m => if Rlt_dec m low then Some true else if Rlt_dec high m then Some false else s) ms None.

(** nearest position in the range *)
Definition clamp (lo hi x : Z) : Z := Z.max lo (Z.min hi x).

Section Controller.
Context {H V E Res : Type}.
Variable homotopy : H -> list device -> V -> H * ((bool * V * Res) + E).
Variable read : V -> nat -> R.

(** a count kept by the power flow solver, at the end *)
Definition dcount (cnt : H -> nat) (o : @dout H V E Res) : nat := match o with DOk _ _ _ _ h | DErr _ _ h => cnt h end.

(** [n] successful power flows, all from [v] and none with a blown fuse, each followed by an adjustment *)
Definition unsettled_runs (n : nat) (tp : bool) (v : V) (hh : nat -> H) (dd : nat -> list device) (vv : nat -> V) : Prop :=
  forall i, (i < n)%nat -> any_blown (dd i) = false /\ (exists res, homotopy (hh i) (dd i) v = (hh (S i), inl (true, vv i, res))) /\
    try_adjust_devices tp (read (vv i)) (dd i) = Some (dd (S i), true).
End Controller.
