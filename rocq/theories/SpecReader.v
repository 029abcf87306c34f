(** What a GridLAB-D object says, and what it should become; written without the reader. *)
From Coq Require Import Reals ZArith String Ascii List Bool.
From Verif Require Import PyExc Components UnbalancedLine GlmText SpecGlm LineImpedance ThreePhase.
Import ListNotations.
Local Open Scope R_scope.
Set Implicit Arguments.

(** *** attributes *)
(** the attribute k of the object has the text t; it has no attribute k *)
Definition says (o : gobj) (k t : string) : Prop :=
  exists l r, go_attrs o = (l ++ (k, t) :: r)%list /\ ~ In k (map fst l).
Definition silent (o : gobj) (k : string) : Prop := ~ In k (map fst (go_attrs o)).
(** its number, its complex number *)
Definition number (E : prims) (o : gobj) (k : string) (v : R) : Prop := exists t, says o k t /\ p_float E t = Some v.
Definition complex (E : prims) (o : gobj) (k : string) (v : cnum) : Prop := exists t, says o k t /\ p_complex E t = Some v.
(** the same, 0 if there is no such attribute *)
Definition complex0 (E : prims) (o : gobj) (k : string) (v : cnum) : Prop := silent o k /\ v = (0, 0) \/ complex E o k v.

(** *** phases *)
Fixpoint rep (c : ascii) (n : nat) : string := match n with O => EmptyString | S n => String c (rep c n) end.
(** core between quotes and bars; core itself has neither at its ends *)
Definition wrapped (core s : string) : Prop :=
  exists q1 b1 b2 q2, s = (rep """" q1 ++ rep "|" b1 ++ core ++ rep "|" b2 ++ rep """" q2)%string
    /\ (forall r, core <> String "|" r /\ core <> String """" r)
    /\ (forall r, core <> r ++ "|" /\ core <> r ++ """")%string.
Definition marker (c : ascii) : bool := (Ascii.eqb c "N" || Ascii.eqb c "S" || Ascii.eqb c "D" || Ascii.eqb c "G")%bool.
(** the phase letters, in order *)
Definition phase_letters (core : string) : list string :=
  map (fun c => String c EmptyString) (filter (fun c => negb (marker c)) (chars core)).

(** *** loads *)
Definition sumR (l : list R) : R := fold_right Rplus 0 l.
Definition at_phase (p : string) (l : list dphload) : list dphload :=
  filter (fun x => match dp_phase x with Some q => String.eqb q p | None => false end) l.
Definition all_connections : list string := ["A"; "B"; "C"; "AB"; "BC"; "CA"; "1"; "2"; "12"]%string.
(** where the attributes of connection c put their load: between phases if the object is delta connected *)
Definition lands (delta : bool) (c p : string) : Prop :=
  if delta then In (c, p) [("A", "AB"); ("B", "BC"); ("C", "CA")]%string else In c all_connections /\ p = c.
(** the parts of a base power text: a number, or two factors one of which names a schedule *)
Definition sched_value (E : prims) (sch : list (string * string)) (a : string) (x : R) : Prop :=
  exists l r t, sch = (l ++ (a, t) :: r)%list /\ ~ In a (map fst l) /\ p_float E t = Some x.
Definition no_sched (sch : list (string * string)) (a : string) : Prop := ~ In a (map fst sch).
Inductive base_value (E : prims) (sch : list (string * string)) (s : string) : R -> Prop :=
  | base_number : forall v, p_float E s = Some v -> base_value E sch s v
  | base_left : forall a b x y, p_float E s = None -> s = (a ++ "*" ++ b)%string -> free "*" a -> free "*" b ->
      sched_value E sch a x -> p_float E b = Some y -> no_sched sch b -> base_value E sch s (x * y)
  | base_right : forall a b x y, p_float E s = None -> s = (a ++ "*" ++ b)%string -> free "*" a -> free "*" b ->
      no_sched sch a -> p_float E a = Some y -> sched_value E sch b x -> base_value E sch s (x * y)
  | base_unknown : forall a b, p_float E s = None -> s = (a ++ "*" ++ b)%string -> free "*" a -> free "*" b ->
      no_sched sch a -> no_sched sch b -> base_value E sch s 0.
Definition six_fractions : list string :=
  ["current_fraction_"; "current_pf_"; "power_fraction_"; "power_pf_"; "impedance_fraction_"; "impedance_pf_"]%string.
(** the power a ZIP specification contributes: nothing unless it is complete *)
Definition zip_power (E : prims) (sch : list (string * string)) (o : gobj) (c : string) (v : R) : Prop :=
  (silent o ("base_power_" ++ c) \/ exists k, In k six_fractions /\ silent o (k ++ c)) /\ v = 0
  \/ (forall k, In k six_fractions -> ~ silent o (k ++ c)) /\ exists s, says o ("base_power_" ++ c) s /\ base_value E sch s v.
Definition nonzero (z : cnum) : bool := negb (both0 (fst z) (snd z)).
(** the phases say delta *)
Definition delta_phases (core : string) (b : bool) : Prop :=
  b = true <-> In "D"%char (chars core) /\ ~ In "S"%char (chars core).
Definition numeric (E : prims) (o : gobj) (k : string) : Prop := exists v, number E o k v.
(** two objects that differ in the values of ZIP fractions only *)
Definition same_but_fractions (E : prims) (o o' : gobj) : Prop :=
  go_class o = go_class o' /\
  forall k, (forall t, says o k t <-> says o' k t)
            \/ (exists f c, In f six_fractions /\ In c all_connections /\ k = f ++ c)%string /\ numeric E o k /\ numeric E o' k.

(** *** objects *)
(** the object the file calls name *)
Definition named (objs : list (string * gobj)) (name : string) (o : gobj) : Prop :=
  exists l r, objs = (l ++ (name, o) :: r)%list /\ ~ In name (map fst l).
(** the objects that become loads *)
Definition load_object (o : gobj) : Prop :=
  go_class o = "load"%string \/ go_class o = "triplex_load"%string \/ go_class o = "triplex_node"%string
  \/ go_class o = "triplex_meter"%string /\ exists k, In k ["power_12"; "power_1"; "power_2"]%string /\ ~ silent o k.
(** a load object's attributes that give a load at connection c directly *)
Definition direct_loads : list string :=
  ["power_"; "constant_power_"; "impedance_"; "constant_impedance_"; "constant_current_"]%string.
(** *** what reading does to the objects *)
(** the attributes reading may overwrite with the number in their text *)
Definition rewritten : list string :=
  ["length"; "power_rating"; "powerA_rating"; "powerB_rating"; "powerC_rating"; "geometric_mean_radius"; "resistance";
   "conductor_resistance"; "distance_AB"; "distance_AC"; "distance_AN"; "distance_AE"; "distance_BC"; "distance_BN";
   "distance_BE"; "distance_CN"; "distance_CE"; "distance_NE"]%string.
(** a digit or a full stop *)
Definition number_char (c : ascii) : bool := existsb (Ascii.eqb c) (chars "0123456789.").
(** the text without everything that is neither *)
Definition only_number (t t' : string) : Prop := chars t' = filter number_char (chars t).
Definition kept (o o' : gobj) : Prop :=
  go_class o = go_class o' /\
  (forall k t, ~ In k rewritten -> (says o k t <-> says o' k t)) /\
  (forall k, silent o k <-> silent o' k) /\
  (forall k t, says o k t -> says o' k t \/ exists t', says o' k t' /\ only_number t t').
Definition all_kept (objs objs' : list (string * gobj)) : Prop :=
  Forall2 (fun a b => fst a = fst b /\ kept (snd a) (snd b)) objs objs'.

(** *** the store *)
(** the text of an attribute, None if there is none *)
Definition told (o : gobj) (k : string) (x : option string) : Prop := silent o k /\ x = None \/ exists t, says o k t /\ x = Some t.
(** the letters of the phases attribute between quotes and bars *)
Definition phase_core (o : gobj) (core : string) : Prop := exists t, says o "phases" t /\ wrapped core t.
(** the load of a load object *)
Definition load_matches (E : prims) (sch : list (string * string)) (name : string) (o : gobj) (d : dload) : Prop :=
  (forall par, says o "parent" par -> do_conn d = Some par /\ do_name d = Some name) /\
  (silent o "parent" -> do_conn d = Some name /\ do_name d = Some ("load_" ++ name)%string) /\
  forall core b, phase_core o core -> delta_phases core b ->
    (~ In "S"%char (chars core) -> do_triplex d = None) /\
    (In "S"%char (chars core) -> exists c r, core = String c r /\ do_triplex d = Some (String c EmptyString)) /\
    (forall c p, lands b c p ->
      (forall s1 s2 v, complex0 E o ("power_" ++ c) s1 -> complex0 E o ("constant_power_" ++ c) s2 -> zip_power E sch o c v ->
         sumR (map dp_p (at_phase p (do_loads d))) = fst s1 + fst s2 + v /\
         sumR (map dp_q (at_phase p (do_loads d))) = snd s1 + snd s2) /\
      (forall z1 z2, complex0 E o ("impedance_" ++ c) z1 -> complex0 E o ("constant_impedance_" ++ c) z2 ->
         filter nonzero (map dp_z (at_phase p (do_loads d))) = filter nonzero [z1; z2]) /\
      (forall i, complex0 E o ("constant_current_" ++ c) i ->
         filter nonzero (map dp_i (at_phase p (do_loads d))) = filter nonzero [i])) /\
    (** nothing else *)
    (forall x, In x (do_loads d) -> (exists c p, lands b c p /\ dp_phase x = Some p) \/ b = true /\ dp_phase x = None) /\
    (** a delta load at any other connection has no phase *)
    (b = true -> forall c k v, In c ["AB"; "BC"; "CA"; "1"; "2"; "12"]%string -> In k direct_loads ->
       complex E o (k ++ c) v -> v <> (0, 0) -> exists x, In x (do_loads d) /\ dp_phase x = None).
(** the phases of the node of a load object *)
Definition load_node_phases (o : gobj) (ps : list string) : Prop :=
  forall core, phase_core o core ->
    (In "S"%char (chars core) -> ps = ["1"; "2"]%string) /\
    (~ In "S"%char (chars core) ->
       ps = map (fun c => String c EmptyString) (filter (fun c => existsb (Ascii.eqb c) (chars "ABC12")) (chars core))).
Definition node_like (name : string) (ps : list string) (source : bool) (par : option string) (n : dnode) : Prop :=
  dn_name n = name /\ dn_phases n = ps /\ dn_source n = source /\ dn_parent n = par /\ dn_conn n = None.
Definition ends (o : gobj) (f t : option string) : Prop := told o "from" f /\ told o "to" t.
(** the number of an attribute, None if there is none *)
Definition opt_number (E : prims) (o : gobj) (k : string) (v : option R) : Prop :=
  silent o k /\ v = None \/ exists x, number E o k x /\ v = Some x.
(** the voltages a node gives, in polar form *)
Definition volts_like (E : prims) (o : gobj) (n : dnode) : Prop :=
  forall p, (In p ["A"; "B"; "C"]%string -> forall v, complex E o ("voltage_" ++ p) v -> dn_volt n p = Some (p_polar E v)) /\
            (~ In p ["A"; "B"; "C"]%string \/ silent o ("voltage_" ++ p) -> dn_volt n p = None).
(** the wires of a fuse or a switch; opens are the states that mean open *)
Definition phase_told (o : gobj) (suffix p : string) : Prop := exists t, says o ("phase_" ++ p ++ suffix) t.
Definition wires_as_told (o : gobj) (suffix : string) (opens ps : list string) (ws : list dwire) : Prop :=
  Forall (fun w => wi_amp w = None) ws /\
  ((exists p, In p ["A"; "B"; "C"]%string /\ phase_told o suffix p) ->
     (exists f, (forall p, f p = true <-> phase_told o suffix p) /\ map wi_phase ws = filter f ["A"; "B"; "C"]%string) /\
     forall w, In w ws -> (wi_open w = true <-> exists t, says o ("phase_" ++ wi_phase w ++ suffix) t /\ In t opens)) /\
  ((forall p, In p ["A"; "B"; "C"]%string -> ~ phase_told o suffix p) ->
     (forall st, says o "status" st -> map wi_phase ws = ps /\ forall w, In w ws -> (wi_open w = true <-> st = "OPEN"%string)) /\
     (silent o "status" -> map wi_phase ws = firstn 1 ps /\ forall w, In w ws -> wi_open w = false)).
Definition fuse_limit (E : prims) (o : gobj) (v : option R) : Prop :=
  silent o "current_limit" /\ v = None \/ exists t t' x, says o "current_limit" t /\ only_number t t' /\ p_float E t' = Some x /\ v = Some x.
(** the limits of a capacitor: a low limit counts only together with its high limit, voltages before reactive powers *)
Definition cap_limits (E : prims) (o : gobj) (h l : option R) : Prop :=
  exists qh ql vh vl, opt_number E o "VAr_set_high" qh /\ opt_number E o "voltage_set_high" vh /\
    (qh = None /\ ql = None \/ qh <> None /\ opt_number E o "VAr_set_low" ql) /\
    (vh = None /\ vl = None \/ vh <> None /\ opt_number E o "voltage_set_low" vl) /\
    h = (match vh with Some _ => vh | None => qh end) /\ l = (match vl with Some _ => vl | None => ql end).
Definition cap_matches (E : prims) (o : gobj) (c : dcap) : Prop :=
  told o "parent" (dc_parent c) /\ told o "control" (dc_control c) /\ opt_number E o "cap_nominal_voltage" (dc_vnom c) /\
  (forall p, told o ("switch" ++ p) (dc_switch c p)) /\ cap_limits E o (dc_high c) (dc_low c) /\
  (exists f, (forall p, f p = true <-> ~ silent o ("capacitor_" ++ p)) /\ map fst (dc_phases c) = filter f ["A"; "B"; "C"]%string) /\
  (forall p v, In (p, v) (dc_phases c) -> number E o ("capacitor_" ++ p) v) /\
  (forall t core, says o "phases_connected" t -> wrapped core t -> dc_connected c = phase_letters core) /\
  (forall core, silent o "phases_connected" -> phase_core o core -> dc_connected c = phase_letters core).
(** what one object adds to the store *)
Inductive contributes (E : prims) (sch : list (string * string)) (name : string) (o : gobj) : list dmodel -> Prop :=
  | c_shared : In (go_class o) ["regulator_configuration"; "line_configuration"; "line_spacing"; "transformer_configuration";
                 "triplex_line_conductor"; "triplex_line_configuration"; "underground_line_conductor"; "overhead_line_conductor"]%string ->
      contributes E sch name o []
  | c_load : forall d par, load_object o -> says o "parent" par -> load_matches E sch name o d -> contributes E sch name o [MLoad d]
  | c_load_node : forall d n ps, load_object o -> silent o "parent" -> load_matches E sch name o d -> load_node_phases o ps ->
      node_like name ps false None n -> contributes E sch name o [MLoad d; MNode n]
  | c_meter : forall n par, go_class o = "triplex_meter"%string -> ~ load_object o -> told o "parent" par ->
      (forall core, phase_core o core -> In "S"%char (chars core)) ->
      node_like name ["1"; "2"]%string false par n -> contributes E sch name o [MNode n]
  | c_node : forall n ps b par, go_class o = "node"%string \/ go_class o = "meter"%string -> told o "parent" par ->
      (forall core, phase_core o core -> ~ In "S"%char (chars core) /\ ps = phase_letters core) ->
      (b = true <-> says o "bustype" "SWING") -> node_like name ps b par n -> volts_like E o n -> contributes E sch name o [MNode n]
  | c_xfmr : forall x, go_class o = "transformer"%string -> dx_name x = name -> ends o (dx_from x) (dx_to x) ->
      (forall core, phase_core o core -> dx_phases x = phase_letters core) -> contributes E sch name o [MXfmr x]
  | c_fuse : forall l, go_class o = "fuse"%string -> dl_fuse l = true -> ends o (dl_from l) (dl_to l) ->
      (forall core, phase_core o core -> dl_phases l = Some (phase_letters core) /\
         wires_as_told o "_status" ["BLOWN"; "OPEN"]%string (phase_letters core) (dl_wires l)) ->
      fuse_limit E o (dl_limit l) -> (forall p, dl_status l p = None) -> contributes E sch name o [MLine l]
  | c_switch : forall l, go_class o = "switch"%string \/ go_class o = "recloser"%string -> dl_fuse l = false -> dl_switch l = true ->
      ends o (dl_from l) (dl_to l) -> (forall core, phase_core o core -> dl_phases l = Some (phase_letters core) /\
         wires_as_told o "_state" ["OPEN"]%string (phase_letters core) (dl_wires l)) -> contributes E sch name o [MLine l]
  | c_line : forall l, In (go_class o) ["overhead_line"; "triplex_line"; "underground_line"]%string ->
      dl_fuse l = false -> dl_switch l = false -> ends o (dl_from l) (dl_to l) -> contributes E sch name o [MLine l]
  | c_cap : forall c, go_class o = "capacitor"%string -> cap_matches E o c -> contributes E sch name o [MCap c]
  | c_reg : forall r, go_class o = "regulator"%string -> ends o (dr_from r) (dr_to r) -> contributes E sch name o [MReg r].
(** equal but for the nominal voltage of a Node *)
Definition same_model (m m' : dmodel) : Prop :=
  m = m' \/ exists n n', m = MNode n /\ m' = MNode n' /\ dn_source n = false /\ dn_source n' = false /\ dn_name n = dn_name n' /\
    dn_phases n = dn_phases n' /\ dn_parent n = dn_parent n' /\ dn_conn n = dn_conn n' /\ dn_volt n = dn_volt n'.
