(** What a GridLAB-D file says about transformers, regulators and node voltages; written without the reader. *)
From Coq Require Import Reals ZArith String Ascii List Bool.
From Verif Require Import PyExc SpecComponents SpecUnbalanced Components UnbalancedLine GlmText SpecGlm LineImpedance ThreePhase SpecReader SpecLineZ SpecReader2.
Import ListNotations.
Local Open Scope R_scope.
Set Implicit Arguments.

Definition opt_complex (E : prims) (o : gobj) (k : string) (v : option (R * R)) : Prop :=
  silent o k /\ v = None \/ exists x, complex E o k x /\ v = Some x.
Definition opt_bare (E : prims) (o : gobj) (k unit : string) (v : option R) : Prop :=
  silent o k /\ v = None \/ exists x, bare E o k unit x /\ v = Some x.
(** *** transformers *)
(** connections of the windings, and whether the transformer is center tapped *)
Definition connect_is (c : gobj) (l : list string) : Prop := exists t, says c "connect_type" t /\ In t l.
Definition wiring (c : gobj) (a b : option string) (tap : bool) : Prop :=
  connect_is c ["1"; "WYE_WYE"]%string /\ (a, b, tap) = (Some "Y"%string, Some "Y"%string, false) \/
  connect_is c ["2"; "DELTA_DELTA"]%string /\ (a, b, tap) = (Some "D"%string, Some "D"%string, false) \/
  connect_is c ["3"; "DELTA_GWYE"]%string /\ (a, b, tap) = (Some "D"%string, Some "Y"%string, false) \/
  connect_is c ["5"; "SINGLE_PHASE_CENTER_TAPPED"]%string /\ (a, b, tap) = (None, None, true) \/
  ~ connect_is c ["1"; "WYE_WYE"; "2"; "DELTA_DELTA"; "3"; "DELTA_GWYE"; "5"; "SINGLE_PHASE_CENTER_TAPPED"]%string /\ (a, b, tap) = (None, None, false).
(** the voltage v of a winding, and the number in its text *)
Definition winding_volts (E : prims) (c : gobj) (k : string) (v raw : option R) : Prop :=
  silent c k /\ v = None /\ raw = None \/
  exists t x, says c k t /\ among E t x /\ raw = Some x /\ (part_of "kV" t /\ v = Some (x * 1000) \/ ~ part_of "kV" t /\ v = Some x).
(** the resistance of the transformer and the reactances of the windings *)
Definition tap_reactances (x : R) : list R := [0.8 * x; 0.4 * x; 0.4 * x].
Definition ohms (E : prims) (c : gobj) (tap : bool) (r : option R) (xs : list R) : Prop :=
  (exists x, number E c "reactance" x /\ opt_bare E c "resistance" "Ohm/km" r /\
     (tap = false /\ xs = [x] \/
      tap = true /\ silent c "impedance1" /\ xs = tap_reactances x \/
      tap = true /\ exists z1, complex E c "impedance1" z1 /\
        (silent c "impedance2" /\ xs = [0.8 * x; snd z1; 0.4 * x; 0.4 * x] \/ exists z2, complex E c "impedance2" z2 /\ xs = [x; snd z1; snd z2]))) \/
  silent c "reactance" /\
    (exists z, complex E c "impedance" z /\ r = Some (fst z) /\ (tap = false /\ xs = [snd z] \/ tap = true /\ xs = tap_reactances (snd z))) \/
  silent c "reactance" /\ silent c "impedance" /\ opt_bare E c "resistance" "Ohm/km" r /\ xs = [].
(** a rating in volt-amperes *)
Definition one_rating (E : prims) (c : gobj) (k : string) (v : option R) : Prop :=
  silent c k /\ v = None \/
  exists t x, says c k t /\ (part_of "kVA" t /\ among E t x \/ ~ part_of "kVA" t /\ p_float E t = Some x) /\ v = Some (x * 1000).
Definition sum_given (l : list (option R)) : option R :=
  match flat_map (fun x => match x with Some x => [x] | None => [] end) l with [] => None | l => Some (fold_right Rplus 0 l) end.
Definition rated_power (E : prims) (c : gobj) (p : option R) : Prop :=
  (exists t x, says c "power_rating" t /\ among E t x /\ p = Some (x * 1000)) \/
  silent c "power_rating" /\ exists a b d, one_rating E c "powerA_rating" a /\ one_rating E c "powerB_rating" b /\ one_rating E c "powerC_rating" d /\
    p = sum_given [a; b; d].
Definition times (k : R) (x : option R) : option R := option_map (fun x => k * x) x.
Definition three_windings (a b : option string) (tap : bool) (v1 v2 raw2 r p : option R) (ps : list string) : list dwinding :=
  ({| dw_nom := v1; dw_rated := p; dw_conn := a; dw_res := times (1 / 2) r; dw_phases := ps |} ::
   {| dw_nom := v2; dw_rated := if tap then times (1 / 2) p else p; dw_conn := b; dw_res := times (if tap then 1 else 1 / 2) r;
      dw_phases := if tap then "1"%string :: tl ps else ps |} ::
   if tap then [{| dw_nom := times (-1) raw2; dw_rated := times (1 / 2) p; dw_conn := None; dw_res := r; dw_phases := ["2"%string] |}] else []).
Definition xfmr_ok (E : prims) (objs : list (string * gobj)) (o : gobj) (part : list dmodel) : Prop :=
  forall core, phase_core o core -> exists x, part = [MXfmr x] /\ dx_shift x = None /\
    (forall c a b tap sh v1 raw1 v2 raw2 r xs p, configured objs o c -> wiring c a b tap -> opt_complex E c "shunt_impedance" sh ->
       winding_volts E c "primary_voltage" v1 raw1 -> winding_volts E c "secondary_voltage" v2 raw2 -> ohms E c tap r xs -> rated_power E c p ->
       dx_tap x = tap /\ dx_shunt x = sh /\ dx_reactances x = xs /\ dx_windings x = three_windings a b tap v1 v2 raw2 r p (phase_letters core)) /\
    ((forall c, ~ configured objs o c) ->
       dx_tap x = false /\ dx_shunt x = None /\ dx_reactances x = [] /\ dx_windings x = three_windings None None false None None None None None (phase_letters core)).
(** *** regulators *)
Definition integer (E : prims) (o : gobj) (k : string) (v : Z) : Prop := exists t, says o k t /\ p_int E t = Some v.
(** the phases of ps, then each of A, B, C that is missing and occurs in a setting, in the order of the settings *)
Inductive extended (c : gobj) : list string -> list string -> list string -> Prop :=
  | ext_nil : forall ps, extended c [] ps ps
  | ext_new : forall k ks p ps qs, k = ("tap_pos_" ++ p)%string \/ k = ("compensator_r_setting_" ++ p)%string \/ k = ("compensator_x_setting_" ++ p)%string ->
      In p ["A"; "B"; "C"]%string -> ~ silent c k -> ~ In p ps -> extended c ks (ps ++ [p]) qs -> extended c (k :: ks) ps qs
  | ext_old : forall k ks p ps qs, k = ("tap_pos_" ++ p)%string \/ k = ("compensator_r_setting_" ++ p)%string \/ k = ("compensator_x_setting_" ++ p)%string ->
      In p ["A"; "B"; "C"]%string -> silent c k \/ In p ps -> extended c ks ps qs -> extended c (k :: ks) ps qs.
Definition settings : list string :=
  ["tap_pos_A"; "tap_pos_B"; "tap_pos_C"; "compensator_r_setting_A"; "compensator_r_setting_B"; "compensator_r_setting_C";
   "compensator_x_setting_A"; "compensator_x_setting_B"; "compensator_x_setting_C"]%string.
Definition reg_ok (E : prims) (objs : list (string * gobj)) (o : gobj) (part : list dmodel) : Prop :=
  exists c r, configured objs o c /\ part = [MReg r] /\ dr_nwindings r = 2%nat /\
    (silent c "connect_type" /\ dr_conn1 r = None /\ dr_conn2 r = None \/ connect_is c ["1"; "WYE_WYE"]%string /\ dr_conn1 r = Some "Y"%string /\ dr_conn2 r = Some "Y"%string) /\
    (forall core, phase_core o core -> extended c settings (phase_letters core) (dr_phases1 r) /\ dr_phases2 r = dr_phases1 r) /\
    number E c "band_width" (dr_width r) /\ number E c "band_center" (dr_center r) /\ number E c "regulation" (dr_regulation r) /\ dr_creg r = dr_regulation r /\
    integer E c "raise_taps" (dr_raise r) /\ integer E c "lower_taps" (dr_lower r) /\ dr_high r = dr_raise r /\ dr_low r = dr_lower r /\
    (silent c "Type" /\ dr_type r = "B"%string \/ says c "Type" (dr_type r)) /\ says c "Control" (dr_ctrl r) /\
    (forall p z, dr_tap r p = Some z <-> integer E c ("tap_pos_" ++ p) z) /\
    forall p, In p ["A"; "B"; "C"]%string -> silent c ("tap_pos_" ++ p) /\ dr_tap r p = None \/ exists z, integer E c ("tap_pos_" ++ p) z /\ dr_tap r p = Some z.
(** *** nominal voltages of nodes *)
(** object j is a node or meter that names n as its parent *)
Definition child_of (n : string) (o : gobj) : Prop := (go_class o = "node"%string \/ go_class o = "meter"%string) /\ says o "parent" n.
(** the nominal voltage of the node of object i, after all objects: that of the last later child, otherwise its own *)
Definition node_voltage (E : prims) (objs : list (string * gobj)) (i : nat) (name : string) (o : gobj) (n : dnode) : Prop :=
  (dn_source n = true -> opt_number E o "nominal_voltage" (dn_vnom n)) /\
  (dn_source n = false ->
     (forall j nj oj, (i < j)%nat -> nth_error objs j = Some (nj, oj) -> child_of name oj ->
        (forall k nk ok, (j < k)%nat -> nth_error objs k = Some (nk, ok) -> ~ child_of name ok) -> opt_number E oj "nominal_voltage" (dn_vnom n)) /\
     ((forall j nj oj, (i < j)%nat -> nth_error objs j = Some (nj, oj) -> ~ child_of name oj) -> opt_number E o "nominal_voltage" (dn_vnom n))).
