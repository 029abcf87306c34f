(** What each kind of element should look like, given the objects of the store. *)
From Coq Require Import Reals ZArith String Ascii Bool Relations Permutation List.
From Verif Require Import PyExc Components Devices SpecComponents UnbalancedLine SpecUnbalanced ThreePhase SpecThreePhase.
Import ListNotations.
Local Open Scope R_scope.

(** [b] is the bus the network has for this element name and phase.  The condition excludes element
    names that look like the names the parser gives to interior buses. *)
Definition leads_to (n : net) (name phase : string) (b : nat) : Prop := ~ interior_name name -> found n name phase b.
Definition leads_to_o (n : net) (name : option string) (phase : string) (b : nat) : Prop :=
  exists s, name = Some s /\ leads_to n s phase b.
(** an interior bus: made by the parser for one element *)
Definition interior_bus (n : net) (b : nat) (name phase : string) : Prop :=
  exists bus, nth_error (nt_buses n) b = Some bus /\ tb_virtual bus = true /\ tb_name bus = name /\ tb_phase bus = phase.

(** *** loads *)
Fixpoint has_underscore (s : string) : bool :=
  match s with EmptyString => false | String c s => (Ascii.eqb c "_" || has_underscore s)%bool end.
Definition last_part (name t : string) : Prop :=
  has_underscore t = false /\ (name = t \/ exists pre, name = (pre ++ "_" ++ t)%string).
Definition load_made (n : net) (l : dload) (pl : dphload) (t : tload) : Prop :=
  tl_p t = dp_p pl /\ tl_q t = dp_q pl /\ tl_z t = dp_z pl /\ (tl_ip t, tl_iq t) = dp_i pl /\
  tl_triplex t = do_triplex l /\ dp_phase pl = Some (tl_phase t) /\
  (exists name, do_name l = Some name /\ last_part name (tl_name t)) /\
  match tl_phase t with
  | EmptyString => False
  | String a rest =>
      (exists f, tl_from t = Some f /\ leads_to_o n (do_conn l) (String a "") f) /\
      match rest with
      | EmptyString => tl_to t = None
      | String b _ => exists g, tl_to t = Some g /\ leads_to_o n (do_conn l) (String b "") g
      end
  end.

(** *** capacitors *)
Definition cap_made (n : net) (c : dcap) (pc : string * R) (t : tcap) : Prop :=
  exists par v ctl, dc_parent c = Some par /\ dc_vnom c = Some v /\ dc_control c = Some ctl /\
    leads_to n par (fst pc) (tc_bus t) /\ v <> 0 /\ tc_B t * (v * v) = snd pc /\
    tc_high t = dc_high c /\ tc_low t = dc_low c /\
    (tc_mode t = C_VOLT <-> ctl = "VOLT"%string /\ dc_high c <> None /\ dc_low c <> None) /\
    (tc_mode t = C_MANUAL <-> ctl = "MANUAL"%string \/ ctl = "VOLT"%string /\ (dc_high c = None \/ dc_low c = None)) /\
    (tc_mode t <> C_MANUAL -> tc_switch t = CLOSED) /\
    (tc_mode t = C_MANUAL -> In (fst pc) ["A"; "B"; "C"]%string ->
       tc_switch t = CLOSED <-> dc_switch c (fst pc) = Some "CLOSED"%string).
Definition cap_items (c : dcap) : list (string * R) := filter (fun pc => mem (fst pc) (dc_connected c)) (dc_phases c).

(** *** regulators *)
Definition clamp (lo hi t : Z) : Z := Z.min hi (Z.max lo t).
Definition reg_made (n : net) (r : dreg) (p : string) (t : treg) : Prop :=
  leads_to_o n (dr_from r) p (tr_from t) /\ leads_to_o n (dr_to r) p (tr_to t) /\
  (exists name, interior_bus n (tr_cur t) (name ++ "-Reg") p) /\
  tr_vlow t + tr_vhigh t = 2 * dr_center r /\ tr_vhigh t - tr_vlow t = dr_width r /\
  (exists tap, dr_tap r p = Some tap /\
     ((0 <= dr_raise r)%Z -> (0 <= dr_lower r)%Z -> r_tap (tr_dev t) = clamp (- dr_lower r) (dr_raise r) tap)) /\
  r_step (tr_dev t) * IZR (dr_high r + dr_low r) = 2 * dr_regulation r /\
  match r_type (tr_dev t) with
  | REG_A => dr_type r = "A"%string /\ r_ratio (tr_dev t) * (1 + r_step (tr_dev t) * IZR (r_tap (tr_dev t))) = 1
  | REG_B => dr_type r = "B"%string /\ r_ratio (tr_dev t) + r_step (tr_dev t) * IZR (r_tap (tr_dev t)) = 1
  end.

(** *** fuses and switches *)
Definition fuse_made (n : net) (l : dline) (w : dwire) (t : tfuse) : Prop :=
  tf_phase t = wi_phase w /\ leads_to_o n (dl_from l) (wi_phase w) (tf_from t) /\ leads_to_o n (dl_to l) (wi_phase w) (tf_to t) /\
  (exists name, interior_bus n (tf_mid t) (name ++ "-Fuse") (wi_phase w)) /\
  dl_limit l = Some (tf_limit t) /\
  (tf_status t = BLOWN <-> dl_status l (wi_phase w) = Some "BLOWN"%string).
Definition switch_made (n : net) (l : dline) (w : dwire) (t : tswitch) : Prop :=
  ts_phase t = wi_phase w /\ leads_to_o n (dl_from l) (wi_phase w) (ts_from t) /\ leads_to_o n (dl_to l) (wi_phase w) (ts_to t) /\
  ts_open t = wi_open w.
Definition switch_wires (l : dline) : list dwire :=
  match dl_phases l with Some ps => filter (fun w => mem (wi_phase w) ps) (dl_wires l) | None => [] end.

(** *** phase lists *)
(** [linked l a b]: following the pairs of [l] from first to second component leads from [a] to [b] *)
Definition linked (l : list (string * string)) : string -> string -> Prop := clos_refl_trans string (fun a b => In (a, b) l).
(** the coils of one winding, as (positive phase, negative phase): a wye winding goes from every phase to
    neutral; the coils of a delta form one ring through all its phases *)
Definition wired (delta : bool) (ps : list string) (l : list (string * string)) : Prop :=
  map fst l = ps /\
  if delta then Permutation (map snd l) ps /\
                (NoDup ps -> (2 <= List.length ps)%nat -> Forall (fun c => fst c <> snd c) l) /\
                (forall a b, In a ps -> In b ps -> linked l a b)
  else Forall (fun c => snd c = "N"%string) l.

(** *** two-winding transformers *)
Definition is_delta (w : dwinding) : Prop := dw_conn w = Some "D"%string.
(** voltage across a coil: the winding's nominal voltage, times sqrt 3 for a delta *)
Definition coil_voltage (w : dwinding) (v : R) : Prop :=
  exists u, dw_nom w = Some u /\ (is_delta w -> v = u * sqrt 3) /\ (~ is_delta w -> v = u).
(** the second terminal of the [i]-th coil: the next phase's bus in a delta, ground otherwise *)
Definition second_terminal (n : net) (w : dwinding) (name : option string) (ps : list string) (i : nat) (t : tref) : Prop :=
  (is_delta w -> exists q b, succ_phase ps i = Some q /\ t = Some b /\ leads_to_o n name q b) /\
  (~ is_delta w -> t = None).
(** the magnetising admittance of one unit: the reciprocal of its stated per-unit impedance would be taken on
    the base vp^2/s; the one used is [vp^2/s] squared times larger *)
Definition shunt_unit (x : dxfmr) (s vp g b : R) : Prop :=
  match dx_shunt x with
  | None => g = 0 /\ b = 0
  | Some (r, xx) =>
      (r = 0 /\ xx = 0 -> g = 0 /\ b = 0) /\
      (~ (r = 0 /\ xx = 0) -> vp <> 0 /\
         let k := s / (vp * vp) * (s / (vp * vp)) in inverse_of (g * k) (b * k) (r * (vp * vp / s)) (xx * (vp * vp / s)))
  end.
(** that of a center tap, on the primary voltage and the rating of the third winding *)
Definition shunt_tap (x : dxfmr) (w2 : dwinding) (v0 g b : R) : Prop :=
  match dx_shunt x with
  | None => g = 0 /\ b = 0
  | Some (r, xx) =>
      (r = 0 /\ xx = 0 -> g = 0 /\ b = 0) /\
      (~ (r = 0 /\ xx = 0) -> exists s2, dw_rated w2 = Some s2 /\ s2 <> 0 /\ inverse_of g b (r * (v0 * v0 / s2)) (xx * (v0 * v0 / s2)))
  end.
Definition unit_made (n : net) (x : dxfmr) (w1 w2 : dwinding) (i : nat) (p : string) (u : txfmr) : Prop :=
  exists fp fn tp tn d g b, u = TX (Some fp) fn (Some tp) tn d g b (dw_rated w1) /\
    leads_to_o n (dx_from x) p fp /\ second_terminal n w1 (dx_from x) (dw_phases w1) i fn /\
    leads_to_o n (dx_to x) p tp /\ second_terminal n w2 (dx_to x) (dw_phases w1) i tn /\
    exists vp vs s r2, coil_voltage w1 vp /\ coil_voltage w2 vs /\ dw_rated w2 = Some s /\ dw_res w2 = Some r2 /\
      s <> 0 /\ vs <> 0 /\ xf_tr d = vp / vs /\
      xf_ang d = match dx_shift x with Some a => a | None => 0 end * PI / 180 /\
      inverse_of (xf_G d) (xf_B d) (2 * r2 * (vs * vs / s)) (fold_right Rplus 0 (dx_reactances x) * (vs * vs / s)) /\
      shunt_unit x s vp g b.

(** *** center-tap transformers *)
(** the coil's admittance is the inverse of its per-unit impedance on its own voltage and the transformer's
    rating; a coil without impedance gets admittance 0, i.e. it is open *)
Definition coil_made (g b res rea v s : R) : Prop :=
  (res = 0 /\ rea = 0 \/ v = 0 -> g = 0 /\ b = 0) /\
  (~ (res = 0 /\ rea = 0) -> v <> 0 -> inverse_of g b (res * (v * v) / s) (rea * (v * v) / s)).
Definition ct_made (n : net) (x : dxfmr) (u : txfmr) : Prop :=
  exists ph from pri s1 t1 s2 t2 c g b, u = TCT ph from pri s1 t1 s2 t2 c g b /\
    hd_error (dx_phases x) = Some ph /\
    leads_to_o n (dx_from x) ph from /\ leads_to_o n (dx_to x) "1" t1 /\ leads_to_o n (dx_to x) "2" t2 /\
    interior_bus n pri (dx_name x ++ "_primary") ph /\ interior_bus n s1 (dx_name x ++ "_sending_1") ph /\
    interior_bus n s2 (dx_name x ++ "_sending_2") ph /\ (pri < s1 < s2)%nat /\
    exists w0 w1 w2 ws x0 x1 x2 xs v0 v1 v2 r0 r1 r2 s,
      dx_windings x = w0 :: w1 :: w2 :: ws /\ dx_reactances x = x0 :: x1 :: x2 :: xs /\
      dw_nom w0 = Some v0 /\ dw_nom w1 = Some v1 /\ dw_nom w2 = Some v2 /\
      dw_res w0 = Some r0 /\ dw_res w1 = Some r1 /\ dw_res w2 = Some r2 /\ dw_rated w0 = Some s /\
      s <> 0 /\ v1 <> 0 /\ ct_ratio c * v1 = v0 /\
      coil_made (ct_g0 c) (ct_b0 c) r0 x0 v0 s /\ coil_made (ct_g1 c) (ct_b1 c) r1 x1 v1 s /\ coil_made (ct_g2 c) (ct_b2 c) r2 x2 v2 s /\
      shunt_tap x w2 v0 g b.
Definition xfmr_made (n : net) (x : dxfmr) (us : list txfmr) : Prop :=
  if dx_tap x then exists u, us = [u] /\ ct_made n x u
  else exists w1 w2, dx_windings x = [w1; w2] /\ List.length us = List.length (dw_phases w1) /\
    forall i p, nth_error (dw_phases w1) i = Some p -> exists u, nth_error us i = Some u /\ unit_made n x w1 w2 i p u.

(** *** lines *)
(** every entry of [b] is [k] times that of [a] *)
Definition scaled (k : R) (a b : matrix) : Prop :=
  forall i j re im, entry b i j = Some (re, im) <-> exists re0 im0, entry a i j = Some (re0, im0) /\ re = k * re0 /\ im = k * im0.
(** the n x n product of [a] and [b] is the identity up to about 1e-5 in each entry *)
Definition nearly_inverse (n : nat) (a b : matrix) : Prop :=
  exists Zc Yc : nat -> nat -> C,
    (forall i j, (i < n)%nat -> (j < n)%nat -> entry a i j = Some (Zc i j) /\ entry b i j = Some (Yc i j)) /\
    forall i j, (i < n)%nat -> (j < n)%nat ->
      Cnorm2 (Csub (Csum (fun k => Cmul (Zc i k) (Yc k j)) n) (if Nat.eqb i j then C1 else C0)) <= (1 / 90000) * (1 / 90000).
Definition line_made (cap_enabled : bool) (l : dline) (t : tline) : Prop :=
  tn_from t = dl_from l /\ tn_to t = dl_to l /\
  tn_phases t = filter (fun p => negb (String.eqb p "N")) (map wi_phase (dl_wires l)) /\
  (1 <= List.length (tn_phases t) <= 3)%nat /\ List.length (dl_z l) = List.length (tn_phases t) /\
  tn_amps t = map wi_amp (dl_wires l) /\
  scaled (dl_len l) (dl_z l) (tn_z t) /\ nearly_inverse (List.length (tn_phases t)) (tn_z t) (tn_y t) /\
  match (if cap_enabled then dl_shunt l else None), tn_shunt t with
  | Some y0, Some y => scaled (dl_len l) y0 y
  | None, None => True
  | _, _ => False
  end.
Definition plain_line (l : dline) : bool := negb (dl_fuse l) && negb (dl_switch l).

(** *** the objects of each kind, in store order *)
Definition load_items (m : dmodel) : list (dload * dphload) := match m with MLoad l => map (pair l) (do_loads l) | _ => [] end.
Definition caps_of (m : dmodel) : list (dcap * (string * R)) := match m with MCap c => map (pair c) (cap_items c) | _ => [] end.
Definition regs_of (m : dmodel) : list (dreg * string) := match m with MReg r => map (pair r) (dr_phases1 r) | _ => [] end.
Definition fuses_of (m : dmodel) : list (dline * dwire) :=
  match m with MLine l => if dl_fuse l then map (pair l) (dl_wires l) else [] | _ => [] end.
Definition switches_of (m : dmodel) : list (dline * dwire) :=
  match m with MLine l => if dl_fuse l then [] else if dl_switch l then map (pair l) (switch_wires l) else [] | _ => [] end.
Definition lines_of (m : dmodel) : list dline := match m with MLine l => if plain_line l then [l] else [] | _ => [] end.
Definition xfmrs_of (m : dmodel) : list dxfmr := match m with MXfmr x => [x] | _ => [] end.
(** the initial voltage a capacitor gives its bus: the capacitor's nominal voltage at the standard angle of one
    of the phases the capacitor is connected on *)
Definition cap_voltage (ms : list dmodel) (b : tbus) : Prop :=
  exists c p v, In (MCap c) ms /\ In p (map fst (cap_items c)) /\ dc_vnom c = Some v /\
    tb_vr b = Rabs v * cos (standard_angle p) /\ tb_vi b = Rabs v * sin (standard_angle p).
(** the same store with the open flags of the fuses' wires replaced *)
Definition reopen_wire (f : dwire -> bool) (w : dwire) : dwire := {| wi_phase := wi_phase w; wi_open := f w; wi_amp := wi_amp w |}.
Definition reopen (f : dwire -> bool) (m : dmodel) : dmodel :=
  match m with
  | MLine l => if dl_fuse l
               then MLine {| dl_fuse := dl_fuse l; dl_switch := dl_switch l; dl_from := dl_from l; dl_to := dl_to l; dl_phases := dl_phases l;
                             dl_wires := map (reopen_wire f) (dl_wires l); dl_limit := dl_limit l; dl_status := dl_status l;
                             dl_z := dl_z l; dl_shunt := dl_shunt l; dl_len := dl_len l |}
               else m
  | _ => m
  end.
(** all phases the elements are declared on are ones the parser knows *)
Definition known_elements (ms : list dmodel) : Prop := Forall (fun m => Forall known (element_phases m)) ms.
