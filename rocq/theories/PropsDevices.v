(** Property theorems C26-C29 (devicecontroller.py, fuse.py, regulator.py, capacitor.py). *)
From Coq Require Import List Bool Arith ZArith Reals Lra Lia.
From Verif Require Import Devices SpecDevices DevicesProofs DevicesWitness.
Import ListNotations.
Local Open Scope R_scope.

(** C26: what is returned was computed by a power flow on the returned devices from the initial vector, and after
    a success no device has to act on the returned vector. *)
Theorem C26_returned_result : forall (H V E Res : Type) (homotopy : H -> list device -> V -> H * ((bool * V * Res) + E)) (read : V -> nat -> R)
    device_control three_phase h ds v ok v' res ds' h',
  device_run homotopy read device_control three_phase h ds v = DOk ok v' res ds' h' ->
  (exists h0, homotopy h0 ds' v = (h', inl (ok, v', res))) /\
  (ok = true -> device_control = true -> settled three_phase (read v') ds') /\
  (device_control = false -> ds' = ds).
Proof. exact (@run_result). Qed.
Print Assumptions C26_returned_result.

(** C26: being settled is exactly that another pass leaves all devices alone and reports nothing. *)
Theorem C26_settled_iff : forall three_phase v ds,
  settled three_phase v ds <-> try_adjust_devices three_phase v ds = Some (ds, false).
Proof. exact settled_iff. Qed.
Print Assumptions C26_settled_iff.

Theorem C26_at_most_ten : forall (H V E Res : Type) (homotopy : H -> list device -> V -> H * ((bool * V * Res) + E)) (read : V -> nat -> R)
    (cnt : H -> nat), (forall h ds v, cnt (fst (homotopy h ds v)) = S (cnt h)) ->
  forall device_control three_phase h ds v,
  (dcount cnt (device_run homotopy read device_control three_phase h ds v) <= cnt h + 10)%nat.
Proof. exact (@run_count). Qed.
Print Assumptions C26_at_most_ten.

(** C26: it gives up exactly after ten successful power flows that all called for an adjustment. *)
Theorem C26_gives_up_iff : forall (H V E Res : Type) (homotopy : H -> list device -> V -> H * ((bool * V * Res) + E)) (read : V -> nat -> R)
    three_phase h ds v ds' h',
  device_run homotopy read true three_phase h ds v = DErr DENotSettled ds' h' <->
  exists ds0 a, try_adjust_devices three_phase (read v) ds = Some (ds0, a) /\
  exists hh dd vv, hh 0%nat = h /\ dd 0%nat = ds0 /\ hh 10%nat = h' /\ dd 10%nat = ds' /\
    unsettled_runs homotopy read 10 three_phase v hh dd vv.
Proof. exact (@run_gives_up). Qed.
Print Assumptions C26_gives_up_iff.

(** without device control, or on a positive sequence network, exactly one power flow is made and no device touched *)
Theorem C26_no_control_single_run : forall (H V E Res : Type) (homotopy : H -> list device -> V -> H * ((bool * V * Res) + E)) (read : V -> nat -> R)
    device_control three_phase h ds v, (device_control && three_phase = false)%bool -> any_blown ds = false ->
  device_run homotopy read device_control three_phase h ds v =
  match homotopy h ds v with (h', inl (ok, v', res)) => DOk ok v' res ds h' | (h', inr e) => DErr (DEHomotopy e) ds h' end.
Proof. exact (@run_uncontrolled). Qed.
Print Assumptions C26_no_control_single_run.

(** a capacitor whose voltage is high when connected and low when not makes the controller give up ... *)
Example C26_hunting : exists ds' h', device_run hunting_flow hunting_read true true 0%nat [DCap hunting_cap] 0%nat = DErr DENotSettled ds' h'.
Proof. exact hunting_gives_up. Qed.
(** ... and one that settles after two power flows, having been opened in between *)
Example C26_settling : device_run settling_flow settling_read true true 0%nat [DCap hunting_cap] 1%nat = DOk true 3%nat tt [DCap (set_switch hunting_cap OPEN)] 2%nat.
Proof. exact settling_settles. Qed.

(** C27 *)
Theorem C27_blows_iff_over_limit : forall v f, f_status f = GOOD ->
  (f_status (fst (fuse_adjust v f)) = BLOWN <-> f_limit f < sqrt (v (f_Ir f) * v (f_Ir f) + v (f_Ii f) * v (f_Ii f))) /\
  (snd (fuse_adjust v f) = true <-> f_status (fst (fuse_adjust v f)) = BLOWN).
Proof. exact fuse_blows_iff. Qed.
Print Assumptions C27_blows_iff_over_limit.

Theorem C27_stays_blown : forall vs f, f_status f = BLOWN -> fuse_history vs f = f.
Proof. exact fuse_stays_blown. Qed.
Print Assumptions C27_stays_blown.

(** over a whole history: blown iff some vector exceeded the limit *)
Theorem C27_history : forall vs f, f_status f = GOOD ->
  (f_status (fuse_history vs f) = BLOWN <->
   exists v, In v vs /\ f_limit f < sqrt (v (f_Ir f) * v (f_Ir f) + v (f_Ii f) * v (f_Ii f))).
Proof. exact fuse_history_blown. Qed.
Print Assumptions C27_history.

(** every fuse in a returned network is good and is the fuse it was at the start: a run in which a fuse blows returns nothing *)
Theorem C27_no_result_after_blowing : forall (H V E Res : Type) (homotopy : H -> list device -> V -> H * ((bool * V * Res) + E)) (read : V -> nat -> R)
    device_control three_phase h ds v ok v' res ds' h',
  device_run homotopy read device_control three_phase h ds v = DOk ok v' res ds' h' ->
  forall i f, nth_error ds' i = Some (DFuse f) -> f_status f = GOOD /\ nth_error ds i = Some (DFuse f).
Proof. exact (@run_fuses). Qed.
Print Assumptions C27_no_result_after_blowing.

(** a fuse over its limit in the first solution makes the run raise *)
Example C27_overloaded : exists ds' h', device_run overload_flow overload_read true true 0%nat [DFuse overload_fuse] 0%nat = DErr DEBlown ds' h'.
Proof. exact overload_raises. Qed.

(** C28: over the lifetime of a regulator *)
Theorem C28_tap_in_range_and_ratio : forall tap step ty raise lower r0 incs r, (- lower <= raise)%Z ->
  new_regulator tap step ty raise lower = Some r0 -> tap_history incs r0 = Some r ->
  (- lower <= r_tap r <= raise)%Z /\ r_type r = ty /\ r_step r = step /\
  r_ratio r = match ty with REG_A => 1 / (1 + step * IZR (r_tap r)) | REG_B => 1 - step * IZR (r_tap r) end.
Proof. exact regulator_invariant. Qed.
Print Assumptions C28_tap_in_range_and_ratio.

Theorem C28_change_and_report : forall r inc r' a, (- r_lower r <= r_raise r)%Z -> increment_tap r inc = Some (r', a) ->
  (a = true <-> r_tap r' <> r_tap r) /\
  ((- r_lower r <= r_tap r + inc <= r_raise r)%Z -> r_tap r' = (r_tap r + inc)%Z) /\
  ((r_raise r < r_tap r + inc)%Z -> r_tap r' = r_raise r) /\
  ((r_tap r + inc < - r_lower r)%Z -> r_tap r' = (- r_lower r)%Z).
Proof. exact increment_result. Qed.
Print Assumptions C28_change_and_report.

Theorem C28_raises_iff : forall r inc, (- r_lower r <= r_raise r)%Z ->
  (increment_tap r inc = None <-> r_type r = REG_A /\ 1 + r_step r * IZR (clamp (- r_lower r) (r_raise r) (r_tap r + inc)) = 0).
Proof. exact increment_raises. Qed.
Print Assumptions C28_raises_iff.

Example C28_example : exists r0 r, new_regulator 3 (1/160) REG_B 16 16 = Some r0 /\ tap_history [5; 30; -2]%Z r0 = Some r /\ r_tap r = 14%Z.
Proof. eexists; eexists; split; [reflexivity|]; split; reflexivity. Qed.

(** C29: with a proper band a voltage controlled capacitor moves only outside the band, and then to the switch state
    opposite to the usual rule (in when low, out when high). *)
Theorem C29_wrong_direction : forall v c, c_mode c = C_VOLT -> c_low c <= c_high c ->
  let m := sqrt (v (c_Vr c) * v (c_Vr c) + v (c_Vi c) * v (c_Vi c)) in
  exists c' a, cap_adjust v c = Some (c', a) /\ c' = set_switch c (c_switch c') /\
    (a = true <-> c_switch c' <> c_switch c) /\
    (c_low c <= m <= c_high c -> c_switch c' = c_switch c) /\
    (c_high c < m -> c_switch c' = CLOSED) /\ (m < c_low c -> c_switch c' = OPEN) /\
    ((m < c_low c \/ c_high c < m) -> c_switch c' <> expected_switch m (c_low c) (c_high c) (c_switch c)).
Proof. exact cap_volt. Qed.
Print Assumptions C29_wrong_direction.

(** over the lifetime of a capacitor it is out of the circuit exactly when the last voltage outside the band was low *)
Theorem C29_lifetime : forall high low vr vi vs, exists c, cap_history vs (new_capacitor C_VOLT high low vr vi) = Some c /\
  (c_switch c = OPEN <-> last_side low high (map (fun v => sqrt (v vr * v vr + v vi * v vi)) vs) = Some true).
Proof. exact cap_lifetime. Qed.
Print Assumptions C29_lifetime.

Example C29_low_voltage_opens : exists c' , cap_adjust (fun _ => 0) hunting_cap = Some (c', true) /\ c_switch c' = OPEN.
Proof. exact low_voltage_opens. Qed.
Example C29_lifetime_example : last_side 1 5 [3; 0; 2] = Some true /\ last_side 1 5 [0; 6; 3] = Some false /\ last_side 1 5 [2; 3] = None.
Proof. exact sides. Qed.
