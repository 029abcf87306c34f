(** Model of src/logic/devicecontroller.py and of the devices it controls:
    src/models/components/fuse.py, capacitor.py, regulator.py. *)
From Coq Require Import List Bool Arith ZArith Reals.
Import ListNotations.
Local Open Scope R_scope.

(** abs(complex(re, im)) *)
Definition cabs (re im : R) : R := sqrt (re * re + im * im).
Definition gtb (x y : R) : bool := if Rlt_dec y x then true else false.
Definition ltb (x y : R) : bool := if Rlt_dec x y then true else false.

(** Fuse, fuse.py:12-67; f_Ir and f_Ii are the indexes of the current sensor's unknowns *)
Inductive fuse_status := GOOD | BLOWN.
Record fuse := { f_limit : R; f_status : fuse_status; f_Ir : nat; f_Ii : nat }.
Definition set_status (f : fuse) (s : fuse_status) : fuse :=
  {| f_limit := f_limit f; f_status := s; f_Ir := f_Ir f; f_Ii := f_Ii f |}.
(** try_adjust_device, fuse.py:55-67 *)
Definition fuse_adjust (v : nat -> R) (f : fuse) : fuse * bool :=
  match f_status f with
  | BLOWN => (f, false)
  | GOOD => if gtb (cabs (v (f_Ir f)) (v (f_Ii f))) (f_limit f) then (set_status f BLOWN, true) else (f, false)
  end.
(** get_stamps, fuse.py:43-47, raises for a blown fuse *)
Definition fuse_stamps_raise (f : fuse) : bool := match f_status f with BLOWN => true | GOOD => false end.

(** Capacitor, capacitor.py:6-66 *)
Inductive cap_switch := OPEN | CLOSED.
Inductive cap_mode := C_MANUAL | C_VOLT | C_VAR | C_VARVOLT.
Record capacitor := { c_mode : cap_mode; c_high : R; c_low : R; c_switch : cap_switch; c_Vr : nat; c_Vi : nat }.
Definition set_switch (c : capacitor) (s : cap_switch) : capacitor :=
  {| c_mode := c_mode c; c_high := c_high c; c_low := c_low c; c_switch := s; c_Vr := c_Vr c; c_Vi := c_Vi c |}.
(** __init__ closes the switch, capacitor.py:29-31 *)
Definition new_capacitor (mode : cap_mode) (high low : R) (vr vi : nat) : capacitor :=
  {| c_mode := mode; c_high := high; c_low := low; c_switch := CLOSED; c_Vr := vr; c_Vi := vi |}.
(** try_adjust_device, capacitor.py:45-66: two consecutive ifs; None is the exception of line 64 *)
Definition cap_adjust (v : nat -> R) (c : capacitor) : option (capacitor * bool) :=
  match c_mode c with
  | C_MANUAL => Some (c, false)
  | C_VOLT =>
      let m := cabs (v (c_Vr c)) (v (c_Vi c)) in
      let '(c1, a1) := if gtb m (c_high c)
                       then match c_switch c with OPEN => (set_switch c CLOSED, true) | CLOSED => (c, false) end
                       else (c, false) in
      let '(c2, a2) := if ltb m (c_low c)
                       then match c_switch c1 with CLOSED => (set_switch c1 OPEN, true) | OPEN => (c1, a1) end
                       else (c1, a1) in
      Some (c2, a2)
  | _ => None
  end.

(** Regulator, regulator.py:16-95 *)
Inductive reg_type := REG_A | REG_B.
Record regulator := { r_tap : Z; r_step : R; r_type : reg_type; r_raise : Z; r_lower : Z; r_ratio : R }.
(** try_increment_tap_position, regulator.py:73-91; None: ZeroDivisionError of 0 ** -1.  The ratio is also written to the transformer. *)
Definition increment_tap (r : regulator) (inc : Z) : option (regulator * bool) :=
  let t := r_tap r in
  let t' := if (r_raise r <=? t + inc)%Z then r_raise r
            else if (t + inc <=? - r_lower r)%Z then (- r_lower r)%Z
            else (t + inc)%Z in
  let mk ratio := Some ({| r_tap := t'; r_step := r_step r; r_type := r_type r; r_raise := r_raise r; r_lower := r_lower r; r_ratio := ratio |},
                        negb (Z.eqb t t')) in
  match r_type r with
  | REG_A => if Req_EM_T (1 + r_step r * IZR t') 0 then None else mk (/ (1 + r_step r * IZR t'))
  | REG_B => mk (1 - r_step r * IZR t')
  end.
(** __init__ ends with try_increment_tap_position(0), regulator.py:71 *)
Definition new_regulator (tap : Z) (step : R) (ty : reg_type) (raise lower : Z) : option regulator :=
  option_map fst (increment_tap {| r_tap := tap; r_step := step; r_type := ty; r_raise := raise; r_lower := lower; r_ratio := 0 |} 0).

(** the elements the controller looks at; everything else is [DOther] *)
Inductive device := DFuse (f : fuse) | DCap (c : capacitor) | DReg (r : regulator) | DOther.

Definition adjust_device (v : nat -> R) (d : device) : option (device * bool) :=
  match d with
  | DFuse f => let '(f', a) := fuse_adjust v f in Some (DFuse f', a)
  | DCap c => option_map (fun p => (DCap (fst p), snd p)) (cap_adjust v c)
  | DReg r => Some (DReg r, false)      (* regulator.py:93-95 always returns False *)
  | DOther => Some (DOther, false)
  end.

(** try_adjust_devices, devicecontroller.py:38-49 *)
Fixpoint adjust_all (v : nat -> R) (ds : list device) : option (list device * bool) :=
  match ds with
  | [] => Some ([], false)
  | d :: r =>
      match adjust_device v d with
      | None => None
      | Some (d', a) => match adjust_all v r with
                        | None => None
                        | Some (r', a') => Some (d' :: r', (a || a')%bool)
                        end
      end
  end.
Definition try_adjust_devices (three_phase : bool) (v : nat -> R) (ds : list device) : option (list device * bool) :=
  if three_phase then adjust_all v ds else Some (ds, false).

Definition any_blown (ds : list device) : bool :=
  existsb (fun d => match d with DFuse f => fuse_stamps_raise f | _ => false end) ds.

Section Controller.
Context {H V E Res : Type}.
(** homotopy.run_powerflow(v_init) on the network with the given devices, once the stamps could be built;
    [H] is whatever state it keeps, so calls can be counted.  Result: success, vector, everything else. *)
Variable homotopy : H -> list device -> V -> H * ((bool * V * Res) + E).
Variable read : V -> nat -> R.

Inductive derror := DEHomotopy (e : E) | DEBlown | DEMode | DENotSettled.
Inductive dout := DOk (ok : bool) (v : V) (res : Res) (ds : list device) (h : H) | DErr (e : derror) (ds : list device) (h : H).

(** building the matrix stamper asks every element for its stamps, so a blown fuse raises (homotopycontroller.py:19) *)
Definition solve (h : H) (ds : list device) (v : V) : H * ((bool * V * Res) + derror) :=
  if any_blown ds then (h, inr DEBlown)
  else let (h', r) := homotopy h ds v in
       (h', match r with inl x => inl x | inr e => inr (DEHomotopy e) end).

Definition MAX_DEVICE_ITERATIONS : nat := 10.

(** the loop of devicecontroller.py:29-36 *)
Fixpoint device_loop (n : nat) (device_control three_phase : bool) (h : H) (ds : list device) (v_init : V) : dout :=
  match n with
  | O => DErr DENotSettled ds h
  | S n' =>
      match solve h ds v_init with
      | (h', inr e) => DErr e ds h'
      | (h', inl (ok, v, res)) =>
          if negb ok then DOk false v res ds h'
          else if negb device_control then DOk true v res ds h'
          else match try_adjust_devices three_phase (read v) ds with
               | None => DErr DEMode ds h'
               | Some (ds', adjusted) =>
                   if adjusted then device_loop n' device_control three_phase h' ds' v_init
                   else DOk true v res ds' h'
               end
      end
  end.

(** run_powerflow, devicecontroller.py:19-36 *)
Definition device_run (device_control three_phase : bool) (h : H) (ds : list device) (v_init : V) : dout :=
  if device_control then
    match try_adjust_devices three_phase (read v_init) ds with
    | None => DErr DEMode ds h
    | Some (ds', _) => device_loop MAX_DEVICE_ITERATIONS device_control three_phase h ds' v_init
    end
  else device_loop MAX_DEVICE_ITERATIONS device_control three_phase h ds v_init.
End Controller.
Arguments DOk {H V E Res}. Arguments DErr {H V E Res}.
