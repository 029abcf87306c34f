(** Model of src/logic/network/parsers/threephase/threephaseparser.py and transformerparser.py: how the
    objects the GridLAB-D reader left in the store become buses and elements.

    Simplifications.  Floats are reals.  The store is a list of [dmodel]s, one constructor per class the
    parser distinguishes; of each object only the attributes the parser reads are kept, an attribute that
    may be None is an [option], and using None in arithmetic or in a string concatenation is a TypeError.
    The name map is a list of pairs in which the first pair with a key counts.  Bus objects are shared in
    Python; here the map and the elements hold bus numbers, and the buses live in one list.
    [None] stands for the GROUND bus at an element's terminal. *)
From Coq Require Import Reals ZArith String Ascii List Bool.
From Verif Require Import PyExc Components Devices UnbalancedLine.
Import ListNotations.
Local Open Scope R_scope.
Set Implicit Arguments.

(** *** data *)
Definition key (name phase : string) : string := (name ++ "_" ++ phase)%string.

(** Bus, bus.py:7-39 *)
Record tbus := { tb_id : nat; tb_name : string; tb_phase : string; tb_virtual : bool;
                 tb_vnom : R; tb_vr : R; tb_vi : R }.
Definition tref := option nat.
(** Slack(bus, Vset, ang, 0, 0), slack.py:24-36: set voltage in polar form, angle in radians *)
Record tslack := { sk_bus : nat; sk_v : R; sk_ang : R }.
Record tload := { tl_from : tref; tl_to : tref; tl_p : R; tl_q : R; tl_z : R * R; tl_ip : R; tl_iq : R;
                  tl_name : string; tl_phase : string; tl_triplex : option string }.
Inductive txfmr :=
  (* Transformer: four terminals, electrical data, magnetising admittance, rating *)
  | TX (fp fn tp tn : tref) (d : transformer) (g b : R) (rating : option R)
  (* CenterTapTransformer: primary terminal, three interior buses, two secondary terminals *)
  | TCT (phase : string) (from pri s1 t1 s2 t2 : nat) (c : center_tap) (g b : R).
Record tcap := { tc_bus : nat; tc_B : R; tc_mode : cap_mode; tc_high : option R; tc_low : option R; tc_switch : cap_switch }.
Inductive reg_control := RC_MANUAL | RC_REMOTE_NODE | RC_OUTPUT_VOLTAGE | RC_LINE_DROP_COMP.
Record treg := { tr_from : nat; tr_to : nat; tr_cur : nat; tr_dev : regulator; tr_ctrl : reg_control; tr_vlow : R; tr_vhigh : R }.
Record tfuse := { tf_from : nat; tf_to : nat; tf_mid : nat; tf_limit : R; tf_status : fuse_status; tf_phase : string }.
Record tswitch := { ts_from : nat; ts_to : nat; ts_open : bool; ts_phase : string }.
(** UnbalancedLine keeps the names; the buses are looked up in assign_nodes, unbalanced_line.py:43-53 *)
Record tline := { tn_from : option string; tn_to : option string; tn_phases : list string;
                  tn_z : matrix; tn_y : matrix; tn_shunt : option matrix; tn_amps : list (option R) }.
(** DxNetworkModel; [nt_next] is the counter of 44 and 134 *)
Record net := { nt_next : nat; nt_buses : list tbus; nt_map : list (string * nat); nt_slack : list tslack;
                nt_loads : list tload; nt_xfmrs : list txfmr; nt_caps : list tcap; nt_regs : list treg;
                nt_fuses : list tfuse; nt_switches : list tswitch; nt_lines : list tline }.
Definition empty_net : net :=
  {| nt_next := 0; nt_buses := []; nt_map := []; nt_slack := []; nt_loads := []; nt_xfmrs := []; nt_caps := [];
     nt_regs := []; nt_fuses := []; nt_switches := []; nt_lines := [] |}.

(** bus_name_map[k] *)
Fixpoint assoc (k : string) (m : list (string * nat)) : option nat :=
  match m with [] => None | (k', v) :: m => if String.eqb k k' then Some v else assoc k m end.
Definition lookup (n : net) (name phase : string) : pres nat :=
  match assoc (key name phase) (nt_map n) with Some b => Ok b | None => Err KeyError end.
(** the same with an element name that may be None *)
Definition lookup_o (n : net) (name : option string) (phase : string) : pres nat :=
  match name with Some s => lookup n s phase | None => Err TypeError end.
Definition num (x : option R) : pres R := match x with Some r => Ok r | None => Err TypeError end.
Definition set_map (n : net) (k : string) (b : nat) : net :=
  {| nt_next := nt_next n; nt_buses := nt_buses n; nt_map := (k, b) :: nt_map n; nt_slack := nt_slack n;
     nt_loads := nt_loads n; nt_xfmrs := nt_xfmrs n; nt_caps := nt_caps n; nt_regs := nt_regs n;
     nt_fuses := nt_fuses n; nt_switches := nt_switches n; nt_lines := nt_lines n |}.
Definition add_slack (n : net) (s : tslack) : net :=
  {| nt_next := nt_next n; nt_buses := nt_buses n; nt_map := nt_map n; nt_slack := nt_slack n ++ [s];
     nt_loads := nt_loads n; nt_xfmrs := nt_xfmrs n; nt_caps := nt_caps n; nt_regs := nt_regs n;
     nt_fuses := nt_fuses n; nt_switches := nt_switches n; nt_lines := nt_lines n |}.
Definition set_buses (n : net) (bs : list tbus) : net :=
  {| nt_next := nt_next n; nt_buses := bs; nt_map := nt_map n; nt_slack := nt_slack n;
     nt_loads := nt_loads n; nt_xfmrs := nt_xfmrs n; nt_caps := nt_caps n; nt_regs := nt_regs n;
     nt_fuses := nt_fuses n; nt_switches := nt_switches n; nt_lines := nt_lines n |}.
(** appending to the element lists of the network model *)
Record elems := { e_loads : list tload; e_xfmrs : list txfmr; e_caps : list tcap; e_regs : list treg;
                  e_fuses : list tfuse; e_switches : list tswitch; e_lines : list tline }.
Definition no_elems : elems :=
  {| e_loads := []; e_xfmrs := []; e_caps := []; e_regs := []; e_fuses := []; e_switches := []; e_lines := [] |}.
Definition add_elems (n : net) (e : elems) : net :=
  {| nt_next := nt_next n; nt_buses := nt_buses n; nt_map := nt_map n; nt_slack := nt_slack n;
     nt_loads := nt_loads n ++ e_loads e; nt_xfmrs := nt_xfmrs n ++ e_xfmrs e; nt_caps := nt_caps n ++ e_caps e;
     nt_regs := nt_regs n ++ e_regs e; nt_fuses := nt_fuses n ++ e_fuses e;
     nt_switches := nt_switches n ++ e_switches e; nt_lines := nt_lines n ++ e_lines e |}.
Definition one_load x := {| e_loads := [x]; e_xfmrs := []; e_caps := []; e_regs := []; e_fuses := []; e_switches := []; e_lines := [] |}.
Definition one_xfmr x := {| e_loads := []; e_xfmrs := [x]; e_caps := []; e_regs := []; e_fuses := []; e_switches := []; e_lines := [] |}.
Definition one_cap x := {| e_loads := []; e_xfmrs := []; e_caps := [x]; e_regs := []; e_fuses := []; e_switches := []; e_lines := [] |}.
Definition one_reg x := {| e_loads := []; e_xfmrs := []; e_caps := []; e_regs := [x]; e_fuses := []; e_switches := []; e_lines := [] |}.
Definition one_fuse x := {| e_loads := []; e_xfmrs := []; e_caps := []; e_regs := []; e_fuses := [x]; e_switches := []; e_lines := [] |}.
Definition one_switch x := {| e_loads := []; e_xfmrs := []; e_caps := []; e_regs := []; e_fuses := []; e_switches := [x]; e_lines := [] |}.
Definition one_line x := {| e_loads := []; e_xfmrs := []; e_caps := []; e_regs := []; e_fuses := []; e_switches := []; e_lines := [x] |}.

(** *** the store *)
(** Node and PowerSource, ditto/models/node.py, power_source.py; [dn_volt p] is the attribute voltage_p in
    polar form.  A Node has no bustype attribute, so the second test of 95 never succeeds *)
Record dnode := { dn_name : string; dn_phases : list string; dn_source : bool; dn_parent : option string;
                  dn_conn : option string; dn_vnom : option R; dn_volt : string -> option (R * R) }.
Record dwinding := { dw_nom : option R; dw_rated : option R; dw_conn : option string; dw_res : option R; dw_phases : list string }.
Record dxfmr := { dx_name : string; dx_from : option string; dx_to : option string; dx_phases : list string;
                  dx_tap : bool; dx_windings : list dwinding; dx_reactances : list R; dx_shift : option R;
                  dx_shunt : option (R * R) }.
(** Load and PhaseLoad *)
Record dphload := { dp_phase : option string; dp_p : R; dp_q : R; dp_z : R * R; dp_i : R * R }.
Record dload := { do_name : option string; do_conn : option string; do_triplex : option string; do_loads : list dphload }.
(** Capacitor, and what is read from the GridLAB-D object of the same name (None: attribute missing) *)
Record dcap := { dc_phases : list (string * R); dc_connected : list string; dc_high : option R; dc_low : option R;
                 dc_control : option string; dc_parent : option string; dc_vnom : option R; dc_switch : string -> option string }.
(** Regulator, and its configuration object *)
Record dreg := { dr_nwindings : nat; dr_phases1 : list string; dr_phases2 : list string; dr_conn1 : option string; dr_conn2 : option string;
                 dr_from : option string; dr_to : option string; dr_regulation : R; dr_high : Z; dr_low : Z; dr_type : string;
                 dr_ctrl : string; dr_center : R; dr_width : R; dr_raise : Z; dr_lower : Z; dr_creg : R; dr_tap : string -> option Z }.
Record dwire := { wi_phase : string; wi_open : bool; wi_amp : option R }.
(** Line: [dl_status p] is the attribute phase_p_status *)
Record dline := { dl_fuse : bool; dl_switch : bool; dl_from : option string; dl_to : option string; dl_phases : option (list string);
                  dl_wires : list dwire; dl_limit : option R; dl_status : string -> option string;
                  dl_z : matrix; dl_shunt : option matrix; dl_len : R }.
Inductive dmodel :=
  | MNode (n : dnode) | MXfmr (x : dxfmr) | MCap (c : dcap) | MReg (r : dreg) | MLine (l : dline) | MLoad (l : dload)
  | MIgnored (* the remaining classes of ignoremodel, 71-80 *)
  | MUnknown.

(** *** buses *)
(** _phase_to_angle, 31 *)
Definition phase_angle (p : string) : option R :=
  if String.eqb p "A" then Some 0
  else if String.eqb p "B" then Some (240 * PI / 180)
  else if String.eqb p "C" then Some (120 * PI / 180)
  else if String.eqb p "1" then Some 0
  else if String.eqb p "2" then Some (180 * PI / 180)
  else None.
Definition triplex (p : string) : bool := (String.eqb p "1" || String.eqb p "2")%bool.

(** create_bus, 133-138 *)
Definition create_bus (n : net) (vm va : R) (name phase : string) (virt : bool) : net * nat :=
  let b := {| tb_id := nt_next n; tb_name := name; tb_phase := phase; tb_virtual := virt;
              tb_vnom := vm; tb_vr := vm * cos va; tb_vi := vm * sin va |} in
  ({| nt_next := S (nt_next n); nt_buses := nt_buses n ++ [b]; nt_map := (key name phase, nt_next n) :: nt_map n; nt_slack := nt_slack n;
      nt_loads := nt_loads n; nt_xfmrs := nt_xfmrs n; nt_caps := nt_caps n; nt_regs := nt_regs n;
      nt_fuses := nt_fuses n; nt_switches := nt_switches n; nt_lines := nt_lines n |}, nt_next n).

(** assignment to Vr_init and Vi_init of one bus *)
Definition set_init (n : net) (id : nat) (vr vi : R) : net :=
  set_buses n (map (fun b => if Nat.eqb (tb_id b) id
                             then {| tb_id := tb_id b; tb_name := tb_name b; tb_phase := tb_phase b; tb_virtual := tb_virtual b;
                                     tb_vnom := tb_vnom b; tb_vr := vr; tb_vi := vi |}
                             else b) (nt_buses n)).

(** the locals v_mag and v_ang of create_buses survive from one node to the next; None: not yet bound *)
Definition stale := option (R * R).
(** one phase of one node, 98-131 *)
Definition node_phase (nd : dnode) (s : net * stale) (p : string) : pres (net * stale) :=
  let (n, st) := s in
  match phase_angle p with
  | None => Ok s
  | Some ang =>
      do r <- (match dn_parent nd with
               | Some par => do b <- lookup n par p;
                             Ok (set_map n (key (dn_name nd) p) b, b, st)
               | None =>
                   match dn_conn nd with
                   | Some c => do b <- lookup n c p; Ok (n, b, st)
                   | None =>
                       let given := if triplex p then None else dn_volt nd p in
                       do v <- (match given with
                                | Some (m, a) => Ok (m, a)
                                | None => do m <- num (dn_vnom nd); Ok (m, ang)
                                end);
                       let (n', b) := create_bus n (fst v) (snd v) (dn_name nd) p false in
                       let n'' := if String.eqb p "1" then set_init n' b (-60) (10392 / 100)
                                  else if String.eqb p "2" then set_init n' b 60 (- (10392 / 100))
                                  else n' in
                       Ok (n'', b, Some v)
                   end
               end);
      let '(n1, b, st1) := r in
      if dn_source nd
      then match st1 with
           | None => Err UnboundLocalError
           | Some (m, a) => Ok (add_slack n1 {| sk_bus := b; sk_v := m; sk_ang := a |}, st1)
           end
      else Ok (n1, st1)
  end.
Definition node_buses (s : net * stale) (m : dmodel) : pres (net * stale) :=
  match m with MNode nd => mfold (node_phase nd) (dn_phases nd) s | _ => Ok s end.
(** create_buses, 90-131 *)
Definition create_buses (ms : list dmodel) : pres net :=
  do s <- mfold node_buses ms (empty_net, None); Ok (fst s).

(** *** loads *)
(** s.split("_")[-1] *)
Fixpoint last_token_from (acc s : string) : string :=
  match s with
  | EmptyString => acc
  | String c s' => if Ascii.eqb c "_" then last_token_from EmptyString s' else last_token_from (acc ++ String c EmptyString) s'
  end.
Definition last_token := last_token_from EmptyString.
Definition chr (c : ascii) : string := String c EmptyString.
(** create_load, 140-155; get_load_connection 157-186 always takes its first branch, since every Load
    object has the attribute connecting_element *)
Definition create_phload (l : dload) (name : string) (n : net) (pl : dphload) : pres net :=
  do ph <- (match dp_phase pl with Some p => Ok p | None => Err TypeError end);
  do ends <- (match ph with
              | EmptyString => Err IndexError
              | String a rest =>
                  do f <- lookup_o n (do_conn l) (chr a);
                  do t <- (match rest with
                           | EmptyString => Ok None
                           | String b _ => do t <- lookup_o n (do_conn l) (chr b); Ok (Some t)
                           end);
                  Ok (f, t)
              end);
  Ok (add_elems n (one_load {| tl_from := Some (fst ends); tl_to := snd ends; tl_p := dp_p pl; tl_q := dp_q pl; tl_z := dp_z pl;
                               tl_ip := fst (dp_i pl); tl_iq := snd (dp_i pl); tl_name := last_token name; tl_phase := ph;
                               tl_triplex := do_triplex l |})).
Definition create_load (n : net) (l : dload) : pres net :=
  match do_name l with
  | None => Err AttributeError
  | Some name => mfold (create_phload l name) (do_loads l) n
  end.

(** *** capacitors, 188-223 *)
Definition cap_mode_of (s : string) : pres cap_mode :=
  if String.eqb s "MANUAL" then Ok C_MANUAL else if String.eqb s "VOLT" then Ok C_VOLT
  else if String.eqb s "VAR" then Ok C_VAR else if String.eqb s "VARVOLT" then Ok C_VARVOLT else Err KeyError.
Definition cap_switch_of (s : string) : pres cap_switch :=
  if String.eqb s "OPEN" then Ok OPEN else if String.eqb s "CLOSED" then Ok CLOSED else Err KeyError.
Definition attr A (x : option A) : pres A := match x with Some a => Ok a | None => Err AttributeError end.
Definition mem (s : string) (l : list string) : bool := existsb (String.eqb s) l.
Definition create_phcap (c : dcap) (n : net) (pc : string * R) : pres net :=
  let (p, var) := pc in
  if negb (mem p (dc_connected c)) then Ok n
  else
    do s <- attr (dc_control c);
    do m0 <- cap_mode_of s;
    let m := match m0, dc_high c, dc_low c with
             | C_VOLT, Some _, Some _ => C_VOLT
             | C_VOLT, _, _ => C_MANUAL
             | m, _, _ => m
             end in
    do par <- attr (dc_parent c);
    do b <- lookup n par p;
    do v <- attr (dc_vnom c);
    do ang <- (match phase_angle p with Some a => Ok a | None => Err KeyError end);
    let n1 := set_init n b (Rabs v * cos ang) (Rabs v * sin ang) in
    do B <- pdiv var (v * v);
    do sw <- (match m with
              | C_MANUAL => if (String.eqb p "A" || String.eqb p "B" || String.eqb p "C")%bool
                            then match dc_switch c p with Some t => cap_switch_of t | None => Ok OPEN end
                            else Ok OPEN
              | _ => Ok CLOSED
              end);
    Ok (add_elems n1 (one_cap {| tc_bus := b; tc_B := B; tc_mode := m; tc_high := dc_high c; tc_low := dc_low c; tc_switch := sw |})).
Definition create_cap (n : net) (c : dcap) : pres net := mfold (create_phcap c) (dc_phases c) n.

(** *** regulators, 225-279 *)
Definition reg_type_of (s : string) : pres reg_type :=
  if String.eqb s "A" then Ok REG_A else if String.eqb s "B" then Ok REG_B else Err KeyError.
Definition reg_control_of (s : string) : pres reg_control :=
  if String.eqb s "MANUAL" then Ok RC_MANUAL else if String.eqb s "REMOTE_NODE" then Ok RC_REMOTE_NODE
  else if String.eqb s "OUTPUT_VOLTAGE" then Ok RC_OUTPUT_VOLTAGE else if String.eqb s "LINE_DROP_COMP" then Ok RC_LINE_DROP_COMP
  else Err KeyError.
Definition is_y (c : option string) : bool := match c with Some s => String.eqb s "Y" | None => false end.
Definition name_of (n : net) (id : nat) : string :=
  match find (fun b => Nat.eqb (tb_id b) id) (nt_buses n) with Some b => tb_name b | None => EmptyString end.
Definition create_phreg (r : dreg) (step : R) (ty : reg_type) (ct : reg_control) (vtap : R) (n : net) (p : string) : pres net :=
  do f <- lookup_o n (dr_from r) p;
  do t <- lookup_o n (dr_to r) p;
  do tap <- attr (dr_tap r p);
  let (n1, cur) := create_bus n (1 / 10) (1 / 10) (name_of n f ++ "-Reg")%string p true in
  do dev <- (match new_regulator tap step ty (dr_raise r) (dr_lower r) with Some d => Ok d | None => Err ZeroDivisionError end);
  check negb (reqb vtap 0) else ZeroDivisionError;
  Ok (add_elems n1 (one_reg {| tr_from := f; tr_to := t; tr_cur := cur; tr_dev := dev; tr_ctrl := ct;
                               tr_vlow := dr_center r - dr_width r / 2; tr_vhigh := dr_center r + dr_width r / 2 |})).
Definition create_reg (n : net) (r : dreg) : pres net :=
  check Nat.eqb (dr_nwindings r) 2 else Raised;
  check Nat.eqb (List.length (dr_phases1 r)) 3 && Nat.eqb (List.length (dr_phases2 r)) 3 else Raised;
  check is_y (dr_conn1 r) && is_y (dr_conn2 r) else Raised;
  do step <- pdiv (dr_regulation r * 2) (IZR (dr_high r + dr_low r));
  do ty <- reg_type_of (dr_type r);
  do ct <- reg_control_of (dr_ctrl r);
  do per <- pdiv (dr_creg r) (IZR (dr_raise r));
  mfold (create_phreg r step ty ct (dr_center r * per)) (dr_phases1 r) n.

(** *** lines, 281-325 *)
Definition fuse_status_of (s : string) : pres fuse_status :=
  if String.eqb s "GOOD" then Ok GOOD else if String.eqb s "BLOWN" then Ok BLOWN else Err KeyError.
Definition create_fuse (l : dline) (n : net) (w : dwire) : pres net :=
  let p := wi_phase w in
  do f <- lookup_o n (dl_from l) p;
  do t <- lookup_o n (dl_to l) p;
  do lim <- num (dl_limit l);
  do st <- (match dl_status l p with Some s => fuse_status_of s | None => Ok GOOD end);
  let (n1, mid) := create_bus n (1 / 10) (1 / 10) (name_of n f ++ "-Fuse")%string p true in
  Ok (add_elems n1 (one_fuse {| tf_from := f; tf_to := t; tf_mid := mid; tf_limit := lim; tf_status := st; tf_phase := p |})).
Definition create_switch (l : dline) (n : net) (w : dwire) : pres net :=
  let p := wi_phase w in
  do phs <- (match dl_phases l with Some ps => Ok ps | None => Err TypeError end);
  if negb (mem p phs) then Ok n
  else
    do f <- lookup_o n (dl_from l) p;
    do t <- lookup_o n (dl_to l) p;
    Ok (add_elems n (one_switch {| ts_from := f; ts_to := t; ts_open := wi_open w; ts_phase := p |})).
Section Parse.
Variable inv : matrix -> option matrix.   (* np.linalg.inv, as in UnbalancedLine.v *)
Variable cap_enabled : bool.              (* settings.enable_line_capacitance *)
Definition create_line (n : net) (l : dline) : pres net :=
  if dl_fuse l then mfold (create_fuse l) (dl_wires l) n
  else if dl_switch l then mfold (create_switch l) (dl_wires l) n
  else
    let phases := filter (fun p => negb (String.eqb p "N")) (map wi_phase (dl_wires l)) in
    match new_unbalanced inv (dl_z l) (dl_len l) (List.length phases) with
    | None => Err Raised
    | Some (z, y) =>
        Ok (add_elems n (one_line {| tn_from := dl_from l; tn_to := dl_to l; tn_phases := phases; tn_z := z; tn_y := y;
                                     tn_shunt := if cap_enabled then option_map (scale (dl_len l)) (dl_shunt l) else None;
                                     tn_amps := map wi_amp (dl_wires l) |}))
    end.

(** *** transformers, transformerparser.py *)
Definition delta (c : option string) : bool := match c with Some s => String.eqb s "D" | None => false end.
(** get_phase_list, 157-177 *)
Definition rotate (ps : list string) : list string := skipn 1 ps ++ firstn 1 ps.
Fixpoint append_each (l m : list string) : list string :=
  match l, m with a :: l, b :: m => (a ++ b)%string :: append_each l m | _, _ => l end.
Definition get_phase_list (d1 d2 : bool) (ps : list string) : list string :=
  let neutral := map (fun _ => "N"%string) ps in
  let l1 := append_each ps (if d1 then rotate ps else neutral) in
  let l2 := append_each l1 ps in
  append_each l2 (if d2 then rotate ps else neutral).
(** the unpacking of 122 *)
Definition unpack4 (s : string) : pres (string * string * string * string) :=
  match s with
  | String a (String b (String c (String d EmptyString))) => Ok (chr a, chr b, chr c, chr d)
  | _ => Err ValueError
  end.
(** g and b of a shunt impedance, 44-45 and 114-115 *)
Definition series_admittance (r x : R) : pres (R * R) :=
  do g <- pdiv r (r * r + x * x); do b <- pdiv (- x) (r * r + x * x); Ok (g, b).
Definition nominal (w : dwinding) : pres R :=
  if delta (dw_conn w) then do v <- num (dw_nom w); Ok (v * sqrt 3) else num (dw_nom w).
(** shunt of a two-winding transformer, 110-118 *)
Definition shunt3 (x : dxfmr) (s2 : option R) (vp : R) : pres (R * R) :=
  match dx_shunt x with
  | None => Ok (0, 0)
  | Some (r, xx) =>
      if both0 r xx then Ok (0, 0)
      else do s <- num s2;
           do r' <- pdiv (r * s) (vp * vp);
           do x' <- pdiv (xx * s) (vp * vp);
           series_admittance r' x'
  end.
(** phase_connections: a dictionary filled at 100-107 *)
Definition connections (n : net) (name : option string) (ps : list string) : pres (list (string * nat)) :=
  mfold (fun acc p => do b <- lookup_o n name p; Ok ((p, b) :: acc)) ps [].
Definition connect (m : list (string * nat)) (p : string) : pres nat :=
  match assoc p m with Some b => Ok b | None => Err KeyError end.
Definition terminal (m : list (string * nat)) (p : string) : pres tref :=
  if String.eqb p "N" then Ok None else do b <- connect m p; Ok (Some b).
Definition create_unit (x : dxfmr) (w1 w2 : dwinding) (res2 rea : R) (vs ratio g b : R)
    (m1 m2 : list (string * nat)) (n : net) (entry : string) : pres net :=
  do q <- unpack4 entry;
  let '(p1, n1, p2, n2) := q in
  do fp <- connect m1 p1;
  do fn <- terminal m1 n1;
  do tp <- connect m2 p2;
  do tn <- terminal m2 n2;
  do s2 <- num (dw_rated w2);
  do r <- pdiv (res2 * (vs * vs)) s2;
  do xx <- pdiv (rea * (vs * vs)) s2;
  do d <- (match new_transformer r xx ratio (match dx_shift x with Some a => a | None => 0 end) with
           | Some d => Ok d | None => Err ZeroDivisionError end);
  Ok (add_elems n (one_xfmr (TX (Some fp) fn (Some tp) tn d g b (dw_rated w1)))).
(** create_three_phase_transformer, 81-155 *)
Definition create_three (n : net) (x : dxfmr) (w1 w2 : dwinding) : pres net :=
  do r2 <- num (dw_res w2);
  let rea := fold_left Rplus (dx_reactances x) 0 in
  do vp <- nominal w1;
  do vs <- nominal w2;
  do ratio <- pdiv vp vs;
  let ps := dw_phases w1 in
  do m1 <- connections n (dx_from x) ps;
  do m2 <- connections n (dx_to x) ps;
  do gb <- shunt3 x (dw_rated w2) vp;
  mfold (create_unit x w1 w2 (r2 * 2) rea vs ratio (fst gb) (snd gb) m1 m2)
        (get_phase_list (delta (dw_conn w1)) (delta (dw_conn w2)) ps) n.
(** shunt of a center-tap transformer, 39-48 *)
Definition shunt_ct (x : dxfmr) (v0 : R) (s2 : option R) : pres (R * R) :=
  match dx_shunt x with
  | None => Ok (0, 0)
  | Some (r, xx) =>
      if both0 r xx then Ok (0, 0)
      else do s <- num s2;
           do r' <- pdiv (r * (v0 * v0)) s;
           do x' <- pdiv (xx * (v0 * v0)) s;
           series_admittance r' x'
  end.
(** create_center_tap_transformer, 27-79 *)
Definition create_ct (n : net) (x : dxfmr) : pres net :=
  match dx_phases x with
  | [] => Err IndexError
  | ph :: _ =>
    match dx_windings x, dx_reactances x with
    | w0 :: w1 :: w2 :: _, x0 :: x1 :: x2 :: _ =>
        do v0 <- num (dw_nom w0);
        do v1 <- num (dw_nom w1);
        do ratio <- pdiv v0 v1;
        do gb <- shunt_ct x v0 (dw_rated w2);
        do from <- lookup_o n (dx_from x) ph;
        let (n1, pri) := create_bus n (1 / 10) (1 / 10) (dx_name x ++ "_primary")%string ph true in
        let (n2, s1) := create_bus n1 (1 / 10) (1 / 10) (dx_name x ++ "_sending_1")%string ph true in
        do t1 <- lookup_o n2 (dx_to x) "1";
        let (n3, s2) := create_bus n2 (1 / 10) (1 / 10) (dx_name x ++ "_sending_2")%string ph true in
        do t2 <- lookup_o n3 (dx_to x) "2";
        do rating <- num (dw_rated w0);
        do r0 <- num (dw_res w0); do r1 <- num (dw_res w1); do r2 <- num (dw_res w2);
        do v2 <- num (dw_nom w2);
        do c <- (match new_center_tap ratio rating (fun i => nth i [r0; r1; r2] 0) (fun i => nth i [x0; x1; x2] 0) (fun i => nth i [v0; v1; v2] 0) with
                 | Some c => Ok c | None => Err ZeroDivisionError end);
        Ok (add_elems n3 (one_xfmr (TCT ph from pri s1 t1 s2 t2 c (fst gb) (snd gb))))
    | _, _ => Err IndexError
    end
  end.
(** create_transformer, 19-25 *)
Definition create_xfmr (n : net) (x : dxfmr) : pres net :=
  if dx_tap x then create_ct n x
  else match dx_windings x with
       | [w1; w2] => create_three n x w1 w2
       | _ => Err Raised
       end.

(** *** parse, 36-88 *)
Definition create_element (n : net) (m : dmodel) : pres net :=
  match m with
  | MXfmr x => create_xfmr n x
  | MCap c => create_cap n c
  | MReg r => create_reg n r
  | MLine l => create_line n l
  | MLoad l => create_load n l
  | MNode _ | MIgnored => Ok n
  | MUnknown => Err Raised
  end.
Definition parse_three (ms : list dmodel) : pres net :=
  do n <- create_buses ms; mfold create_element ms n.
End Parse.
