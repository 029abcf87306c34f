(** The network a GridLAB-D file should give, stated in terms of the texts of its objects; written without reader and parser. *)
From Coq Require Import Reals ZArith String Ascii List Bool.
From Verif Require Import PyExc SpecComponents SpecUnbalanced Components Devices UnbalancedLine GlmText SpecGlm LineImpedance ThreePhase SpecThreePhase SpecThreeElems SpecReader SpecLineZ SpecReader2 SpecReader3.
Import ListNotations.
Local Open Scope R_scope.
Set Implicit Arguments.

(** *** files whose names and phases make sense *)
Definition config_classes : list string :=
  ["regulator_configuration"; "line_configuration"; "line_spacing"; "transformer_configuration"; "triplex_line_conductor";
   "triplex_line_configuration"; "underground_line_conductor"; "overhead_line_conductor"]%string.
Definition clean_object (o : gobj) : Prop :=
  In (go_class o) config_classes \/
  exists core, phase_core o core /\ NoDup (phase_letters core) /\ Forall known (phase_letters core).
Definition clean_file (objs : list (string * gobj)) : Prop :=
  NoDup (map fst objs) /\ Forall (fun no => clean_object (snd no)) objs.

(** the elements ts are those of the objects of a kind, object by object in file order *)
Definition grouped T (objs : list (string * gobj)) (kind : gobj -> Prop) (ok : nat -> string -> gobj -> list T -> Prop) (ts : list T) : Prop :=
  exists gs, ts = concat gs /\ List.length gs = List.length objs /\
    forall i name o g, nth_error objs i = Some (name, o) -> nth_error gs i = Some g -> (kind o -> ok i name o g) /\ (~ kind o -> g = []).
(** b is the bus of phase p of the node the attribute k names *)
Definition at_end (n : net) (o : gobj) (k p : string) (b : nat) : Prop := exists a, says o k a /\ leads_to n a p b.

(** *** fuses and switches *)
Definition fuse_group (E : prims) (n : net) (o : gobj) (g : list tfuse) : Prop :=
  forall core, phase_core o core -> exists ws, wires_as_told o "_status" ["BLOWN"; "OPEN"]%string (phase_letters core) ws /\
    Forall2 (fun w t => tf_phase t = wi_phase w /\ at_end n o "from" (wi_phase w) (tf_from t) /\ at_end n o "to" (wi_phase w) (tf_to t) /\
                        (exists name, interior_bus n (tf_mid t) (name ++ "-Fuse") (wi_phase w)) /\
                        fuse_limit E o (Some (tf_limit t)) /\ tf_status t = GOOD) ws g.
Definition switch_group (n : net) (o : gobj) (g : list tswitch) : Prop :=
  forall core, phase_core o core -> exists ws, wires_as_told o "_state" ["OPEN"]%string (phase_letters core) ws /\
    Forall2 (fun w t => ts_phase t = wi_phase w /\ at_end n o "from" (wi_phase w) (ts_from t) /\ at_end n o "to" (wi_phase w) (ts_to t) /\
                        ts_open t = wi_open w) (filter (fun w => mem (wi_phase w) (phase_letters core)) ws) g.

(** *** regulators *)
Definition reg_unit (E : prims) (n : net) (o c : gobj) (p : string) (t : treg) : Prop :=
  at_end n o "from" p (tr_from t) /\ at_end n o "to" p (tr_to t) /\ (exists name, interior_bus n (tr_cur t) (name ++ "-Reg") p) /\
  exists center width reg up down tap,
    number E c "band_center" center /\ number E c "band_width" width /\ number E c "regulation" reg /\
    integer E c "raise_taps" up /\ integer E c "lower_taps" down /\ integer E c ("tap_pos_" ++ p) tap /\
    tr_vlow t = center - width / 2 /\ tr_vhigh t = center + width / 2 /\
    ((0 <= up)%Z -> (0 <= down)%Z -> r_tap (tr_dev t) = clamp (- down) up tap) /\
    r_step (tr_dev t) * IZR (up + down) = 2 * reg /\
    match r_type (tr_dev t) with
    | REG_A => says c "Type" "A" /\ r_ratio (tr_dev t) * (1 + r_step (tr_dev t) * IZR (r_tap (tr_dev t))) = 1
    | REG_B => (silent c "Type" \/ says c "Type" "B") /\ r_ratio (tr_dev t) + r_step (tr_dev t) * IZR (r_tap (tr_dev t)) = 1
    end.
(** the three phases A, B, C in some order *)
Definition reg_group (E : prims) (objs : list (string * gobj)) (n : net) (o : gobj) (g : list treg) : Prop :=
  exists c, configured objs o c /\ connect_is c ["1"; "WYE_WYE"]%string /\
    forall core, phase_core o core -> exists ps, extended c settings (phase_letters core) ps /\ List.length ps = 3%nat /\ Forall2 (reg_unit E n o c) ps g.

(** *** loads *)
Definition on_phase (p : string) (g : list tload) : list tload := filter (fun t => String.eqb (tl_phase t) p) g.
Definition load_ends (n : net) (node : string) (t : tload) : Prop :=
  match tl_phase t with
  | EmptyString => False
  | String a rest =>
      (exists f, tl_from t = Some f /\ leads_to n node (String a "") f) /\
      match rest with EmptyString => tl_to t = None | String b _ => exists h, tl_to t = Some h /\ leads_to n node (String b "") h end
  end.
Definition load_group (E : prims) (sch : list (string * string)) (n : net) (name : string) (o : gobj) (g : list tload) : Prop :=
  (forall par, says o "parent" par -> Forall (load_ends n par) g) /\ (silent o "parent" -> Forall (load_ends n name) g) /\
  forall core b, phase_core o core -> delta_phases core b ->
    (forall t, In t g -> exists c p, lands b c p /\ tl_phase t = p) /\
    (forall t, In t g -> ~ In "S"%char (chars core) -> tl_triplex t = None) /\
    (forall t, In t g -> In "S"%char (chars core) -> exists c r, core = String c r /\ tl_triplex t = Some (String c EmptyString)) /\
    forall c p, lands b c p ->
      (forall s1 s2 v, complex0 E o ("power_" ++ c) s1 -> complex0 E o ("constant_power_" ++ c) s2 -> zip_power E sch o c v ->
         sumR (map tl_p (on_phase p g)) = fst s1 + fst s2 + v /\ sumR (map tl_q (on_phase p g)) = snd s1 + snd s2) /\
      (forall z1 z2, complex0 E o ("impedance_" ++ c) z1 -> complex0 E o ("constant_impedance_" ++ c) z2 ->
         filter nonzero (map tl_z (on_phase p g)) = filter nonzero [z1; z2]) /\
      (forall i, complex0 E o ("constant_current_" ++ c) i ->
         filter nonzero (map (fun t => (tl_ip t, tl_iq t)) (on_phase p g)) = filter nonzero [i]).

(** *** capacitors *)
Definition cap_unit (E : prims) (n : net) (o : gobj) (p : string) (t : tcap) : Prop :=
  at_end n o "parent" p (tc_bus t) /\
  (exists q v, number E o ("capacitor_" ++ p) q /\ number E o "cap_nominal_voltage" v /\ v <> 0 /\ tc_B t * (v * v) = q) /\
  cap_limits E o (tc_high t) (tc_low t) /\
  (tc_mode t = C_VOLT <-> says o "control" "VOLT" /\ tc_high t <> None /\ tc_low t <> None) /\
  (tc_mode t = C_MANUAL <-> says o "control" "MANUAL" \/ says o "control" "VOLT" /\ (tc_high t = None \/ tc_low t = None)) /\
  (tc_mode t <> C_MANUAL -> tc_switch t = CLOSED) /\
  (tc_mode t = C_MANUAL -> tc_switch t = CLOSED <-> says o ("switch" ++ p) "CLOSED").
(** the phases a capacitor is connected to *)
Definition cap_connected (o : gobj) (ps : list string) : Prop :=
  (forall t core, says o "phases_connected" t -> wrapped core t -> ps = phase_letters core) /\
  (forall core, silent o "phases_connected" -> phase_core o core -> ps = phase_letters core).
Definition cap_group (E : prims) (n : net) (o : gobj) (g : list tcap) : Prop :=
  exists conn f, cap_connected o conn /\ (forall p, f p = true <-> ~ silent o ("capacitor_" ++ p) /\ In p conn) /\
    Forall2 (cap_unit E n o) (filter f ["A"; "B"; "C"]%string) g.

(** *** transformers *)
Definition coil_volts (conn : option string) (u v : R) : Prop :=
  (conn = Some "D"%string -> v = u * sqrt 3) /\ (conn <> Some "D"%string -> v = u).
Definition other_end (n : net) (o : gobj) (k : string) (conn : option string) (ps : list string) (i : nat) (t : tref) : Prop :=
  (conn = Some "D"%string -> exists q b, succ_phase ps i = Some q /\ t = Some b /\ at_end n o k q b) /\ (conn <> Some "D"%string -> t = None).
Definition magnetising (sh : option (R * R)) (s vp g b : R) : Prop :=
  match sh with
  | None => g = 0 /\ b = 0
  | Some (r, x) =>
      (r = 0 /\ x = 0 -> g = 0 /\ b = 0) /\
      (~ (r = 0 /\ x = 0) -> vp <> 0 /\
         let k := s / (vp * vp) * (s / (vp * vp)) in inverse_of (g * k) (b * k) (r * (vp * vp / s)) (x * (vp * vp / s)))
  end.
Definition tap_magnetising (sh : option (R * R)) (s v g b : R) : Prop :=
  match sh with
  | None => g = 0 /\ b = 0
  | Some (r, x) =>
      (r = 0 /\ x = 0 -> g = 0 /\ b = 0) /\
      (~ (r = 0 /\ x = 0) -> inverse_of g b (r * (v * v / (s / 2))) (x * (v * v / (s / 2))))
  end.
Definition two_coils (E : prims) (objs : list (string * gobj)) (n : net) (o : gobj) (g : list txfmr) : Prop :=
  forall core c a b sh v1 raw1 v2 raw2 r xs p, phase_core o core -> configured objs o c -> wiring c a b false -> opt_complex E c "shunt_impedance" sh ->
    winding_volts E c "primary_voltage" v1 raw1 -> winding_volts E c "secondary_voltage" v2 raw2 -> ohms E c false r xs -> rated_power E c p ->
    List.length g = List.length (phase_letters core) /\
    forall i ph, nth_error (phase_letters core) i = Some ph ->
      exists fp fn tp tn d gm bm V1 V2 vp vs s rr, nth_error g i = Some (TX (Some fp) fn (Some tp) tn d gm bm p) /\
        at_end n o "from" ph fp /\ other_end n o "from" a (phase_letters core) i fn /\
        at_end n o "to" ph tp /\ other_end n o "to" b (phase_letters core) i tn /\
        v1 = Some V1 /\ v2 = Some V2 /\ coil_volts a V1 vp /\ coil_volts b V2 vs /\ p = Some s /\ r = Some rr /\
        s <> 0 /\ vs <> 0 /\ xf_tr d = vp / vs /\ xf_ang d = 0 /\
        inverse_of (xf_G d) (xf_B d) (rr * (vs * vs / s)) (fold_right Rplus 0 xs * (vs * vs / s)) /\ magnetising sh s vp gm bm.
Definition three_coils (E : prims) (objs : list (string * gobj)) (n : net) (name : string) (o : gobj) (g : list txfmr) : Prop :=
  forall core c a b sh v1 raw1 v2 raw2 r xs p, phase_core o core -> configured objs o c -> wiring c a b true -> opt_complex E c "shunt_impedance" sh ->
    winding_volts E c "primary_voltage" v1 raw1 -> winding_volts E c "secondary_voltage" v2 raw2 -> ohms E c true r xs -> rated_power E c p ->
    exists ph rest from pri s1 t1 s2 t2 d gm bm V1 V2 u rr s x0 x1 x2 more,
      phase_letters core = ph :: rest /\ g = [TCT ph from pri s1 t1 s2 t2 d gm bm] /\
      at_end n o "from" ph from /\ at_end n o "to" "1" t1 /\ at_end n o "to" "2" t2 /\
      interior_bus n pri (name ++ "_primary") ph /\ interior_bus n s1 (name ++ "_sending_1") ph /\ interior_bus n s2 (name ++ "_sending_2") ph /\
      v1 = Some V1 /\ v2 = Some V2 /\ raw2 = Some u /\ r = Some rr /\ p = Some s /\ xs = x0 :: x1 :: x2 :: more /\
      s <> 0 /\ V2 <> 0 /\ ct_ratio d * V2 = V1 /\
      coil_made (ct_g0 d) (ct_b0 d) (rr / 2) x0 V1 s /\ coil_made (ct_g1 d) (ct_b1 d) rr x1 V2 s /\ coil_made (ct_g2 d) (ct_b2 d) rr x2 u s /\ tap_magnetising sh s V1 gm bm.
Definition xfmr_group (E : prims) (objs : list (string * gobj)) (n : net) (name : string) (o : gobj) (g : list txfmr) : Prop :=
  two_coils E objs n o g /\ three_coils E objs n name o g /\
  forall core, phase_core o core -> phase_letters core <> [] -> exists c, configured objs o c.

(** *** lines *)
Definition ctimes (k : R) (z : C) : C := (k * fst z, k * snd z).
Definition filled (m : nat) (a : matrix) (f : nat -> nat -> C) : Prop := forall i j, (i < m)%nat -> (j < m)%nat -> entry a i j = Some (f i j).
Definition line_ends (o : gobj) (t : tline) : Prop := told o "from" (tn_from t) /\ told o "to" (tn_to t).
Definition overhead_group (E : prims) (objs pre : list (string * gobj)) (o : gobj) (g : list tline) : Prop :=
  forall core ps r gm D z neutral len, phase_core o core -> overhead_data E objs pre o ps r gm D -> phase_z ps r gm D z ->
    (neutral = true <-> In "N"%char (chars core)) -> (neutral = true -> inverts_neutral E (z "N" "N")%string) -> metres E o len ->
    exists t, g = [t] /\ line_ends o t /\ tn_phases t = filter (fun p => negb (String.eqb p "N")) ps /\ Forall2 (amps E objs o) ps (tn_amps t) /\
      List.length (tn_phases t) = List.length (abc_of (phase_letters core)) /\
      filled (List.length (tn_phases t)) (tn_z t)
        (fun i j => ctimes len (to_metre (reduced neutral z (nth i (abc_of (phase_letters core)) "") (nth j (abc_of (phase_letters core)) ""))))%string /\
      nearly_inverse (List.length (tn_phases t)) (tn_z t) (tn_y t).
Definition triplex_group (E : prims) (objs : list (string * gobj)) (o : gobj) (g : list tline) : Prop :=
  forall ps r gm d12 d1n z len, triplex_data E objs o ps r gm d12 d1n ->
    phase_z ps r gm (fun p q => if (String.eqb p "N" || String.eqb q "N")%bool then d1n else d12) z -> inverts_neutral E (z "N" "N")%string -> metres E o len ->
    exists t, g = [t] /\ line_ends o t /\ tn_phases t = filter (fun p => negb (String.eqb p "N")) ps /\ Forall2 (amps E objs o) ps (tn_amps t) /\
      List.length (tn_phases t) = 2%nat /\
      filled 2 (tn_z t) (fun i j => ctimes len (to_metre (reduced true z (nth i ["1"; "2"] "") (nth j ["1"; "2"] ""))))%string /\
      nearly_inverse 2 (tn_z t) (tn_y t).
Definition line_group (E : prims) (objs : list (string * gobj)) (i : nat) (o : gobj) (g : list tline) : Prop :=
  (exists t, g = [t]) /\
  (go_class o = "overhead_line"%string -> overhead_group E objs (firstn i objs) o g) /\ (go_class o = "triplex_line"%string -> triplex_group E objs o g).

(** *** buses *)
(** the nominal voltage of a node object: of the last later child, otherwise its own *)
Definition base_volts (E : prims) (objs : list (string * gobj)) (i : nat) (name : string) (o : gobj) (v : option R) : Prop :=
  (exists j nj oj, (i < j)%nat /\ nth_error objs j = Some (nj, oj) /\ child_of name oj /\ ~ says o "bustype" "SWING" /\
     (forall k nk ok, (j < k)%nat -> nth_error objs k = Some (nk, ok) -> ~ child_of name ok) /\ opt_number E oj "nominal_voltage" v) \/
  ((says o "bustype" "SWING" \/ forall j nj oj, (i < j)%nat -> nth_error objs j = Some (nj, oj) -> ~ child_of name oj) /\ opt_number E o "nominal_voltage" v).
(** magnitude and angle of phase p of a node object *)
Definition phase_volts (E : prims) (objs : list (string * gobj)) (i : nat) (name : string) (o : gobj) (p : string) (m a : R) : Prop :=
  (In p ["A"; "B"; "C"]%string -> forall v, complex E o ("voltage_" ++ p) v -> (m, a) = p_polar E v) /\
  (~ In p ["A"; "B"; "C"]%string \/ silent o ("voltage_" ++ p) -> base_volts E objs i name o (Some m) /\ a = standard_angle p).
(** where a bus starts: 1 and 2 at fixed phasors of about 120 V, the others at their node's voltage *)
Definition starts_at (p : string) (m a vr vi : R) : Prop :=
  if String.eqb p "1" then vr = -60 /\ vi = 103.92
  else if String.eqb p "2" then vr = 60 /\ vi = -103.92
  else vr = m * cos a /\ vi = m * sin a.
(** the sources of a swing node, phase by phase *)
Definition source_group (E : prims) (objs : list (string * gobj)) (n : net) (i : nat) (name : string) (o : gobj) (g : list tslack) : Prop :=
  forall core, phase_core o core ->
    Forall2 (fun p sk => leads_to n name p (sk_bus sk) /\ (silent o "parent" -> phase_volts E objs i name o p (sk_v sk) (sk_ang sk))) (phase_letters core) g.
(** a center tap whose secondary voltage is given in kV: the third coil is a million times more conductive than the second *)
Definition kv_group (E : prims) (objs : list (string * gobj)) (o : gobj) (g : list txfmr) : Prop :=
  forall core c a b sh v1 raw1 t u r x0 x more p, phase_core o core -> configured objs o c -> wiring c a b true -> opt_complex E c "shunt_impedance" sh ->
    winding_volts E c "primary_voltage" v1 raw1 -> says c "secondary_voltage" t -> among E t u -> part_of "kV" t -> ohms E c true (Some r) (x0 :: x :: x :: more) -> rated_power E c p ->
    ~ (r = 0 /\ x = 0) ->
    exists ph from pri s1 t1 s2 t2 d gm bm, g = [TCT ph from pri s1 t1 s2 t2 d gm bm] /\ ct_g2 d = 10 ^ 6 * ct_g1 d /\ ct_b2 d = 10 ^ 6 * ct_b1 d.
