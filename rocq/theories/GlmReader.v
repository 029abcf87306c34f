(** Model of Reader.parse, src/ditto/readers/gridlabd/read.py:234-1590, with helpers.py and load_parser.py:
    how the objects of a GridLAB-D file become the objects of the store, which ThreePhase.v turns into the
    network.

    Simplifications.  The store holds only the classes the network parser uses ([dmodel]); windings, wires
    and phase objects are part of their element.  The parts of a capacitor, a fuse and a regulator which the
    network parser takes from the GridLAB-D object, or converts to a number, are converted here, so such an
    error is raised by this function instead of a later one.  Every object has a name (GlmText.v stores no
    other).  Attributes nothing reads (install_type, modes, the delay of a capacitor, the wires' X and Y, ...)
    are left out where reading them cannot raise.  A triplex configuration without conductors stores its
    insulation thickness in a wire of an earlier line; this is left out. *)
From Coq Require Import Reals ZArith String Ascii List Bool Arith.
From Verif Require Import PyExc Components UnbalancedLine GlmText LineImpedance ThreePhase.
Import ListNotations.
Local Open Scope R_scope.
Set Implicit Arguments.

Definition objects := list (string * gobj).
(** try: x = obj[k] except AttributeError: pass *)
Definition gattr (o : gobj) (k : string) : option string := dget k (go_attrs o).
Definition obj_at (objs : objects) (k : string) : pres gobj :=
  match dget k objs with Some o => Ok o | None => Err KeyError end.

(** *** phases, helpers.py *)
Fixpoint letters (s : string) : list string :=
  match s with EmptyString => [] | String c r => chr c :: letters r end.
(** phase_str without double quotes, then without vertical bars, at its ends *)
Definition clean_phases (s : string) : string := strip_by (Ascii.eqb "|") (strip_by (Ascii.eqb """") s).
Definition is_mark (p : string) : bool := GlmText.mem p ["N"; "S"; "D"; "G"]%string.
(** phases, is_delta, is_triplex, has_neutral, helpers.py:5-37 *)
Record phase_info := { pi_phases : list string; pi_delta : bool; pi_triplex : bool; pi_neutral : bool }.
Definition parse_phases (s : string) : pres phase_info :=
  let cs := letters (clean_phases s) in
  let neutral := GlmText.mem "N" cs in
  let triplex := GlmText.mem "S" cs in
  let phases := filter (fun p => negb (is_mark p)) cs in
  let delta := (negb neutral && negb triplex)%bool in
  if Nat.eqb (List.length phases) 0 then Err Raised
  else if (triplex && (Nat.ltb 1 (List.length phases) || delta))%bool then Err Raised
  else Ok {| pi_phases := phases; pi_delta := delta; pi_triplex := triplex; pi_neutral := neutral |}.

Section Reader.
Variable E : prims.
Variable schedules : list (string * string).
Notation fl := (fl E).
Notation cx := (cx E).
Notation it := (it E).

(** float(obj[k]), complex(obj[k]), int(obj[k]); None if there is no such attribute *)
Definition fattr (o : gobj) (k : string) : pres (option R) :=
  match gattr o k with None => Ok None | Some s => do r <- fl s; Ok (Some r) end.
Definition cattr (o : gobj) (k : string) : pres (option cnum) :=
  match gattr o k with None => Ok None | Some s => do c <- cx s; Ok (Some c) end.
Definition iattr (o : gobj) (k : string) : pres (option Z) :=
  match gattr o k with None => Ok None | Some s => do z <- it s; Ok (Some z) end.

(** *** loads, load_parser.py *)
(** __create_phaseload, 190-205 *)
Definition load_phase (delta : bool) (c : string) : option string :=
  if delta
  then if String.eqb c "A" then Some "AB"%string else if String.eqb c "B" then Some "BC"%string
       else if String.eqb c "C" then Some "CA"%string else None
  else Some c.
Definition phload (delta : bool) (c : string) (p q : R) (z i : cnum) : dphload :=
  {| dp_phase := load_phase delta c; dp_p := p; dp_q := q; dp_z := z; dp_i := i |}.
Definition power_load (o : gobj) (delta : bool) (pre c : string) : pres (list dphload) :=
  do s <- cattr o (pre ++ c);
  Ok (match s with
      | Some s => if both0 (fst s) (snd s) then [] else [phload delta c (fst s) (snd s) (0, 0) (0, 0)]
      | None => []
      end).
Definition impedance_load (o : gobj) (delta : bool) (pre c : string) : pres (list dphload) :=
  do z <- cattr o (pre ++ c);
  Ok (match z with
      | Some z => if both0 (fst z) (snd z) then [] else [phload delta c 0 0 z (0, 0)]
      | None => []
      end).
Definition current_load (o : gobj) (delta : bool) (c : string) : pres (list dphload) :=
  do i <- cattr o ("constant_current_" ++ c);
  Ok (match i with
      | Some i => if both0 (fst i) (snd i) then [] else [phload delta c 0 0 (0, 0) i]
      | None => []
      end).
(** s.split("*"): the first two pieces *)
Fixpoint star2 (s : string) : string * option string :=
  match s with
  | EmptyString => (EmptyString, None)
  | String c r => if Ascii.eqb c "*" then (EmptyString, Some (cut_at "*" r))
                  else (String c (fst (star2 r)), snd (star2 r))
  end.
(** 149-163: the base power, a number or a schedule times a number *)
Definition base_power (s : string) : pres R :=
  match p_float E s with
  | Some p => Ok p
  | None =>
      let (a, b) := star2 s in
      do p <- match dget a schedules with
              | Some v => do x <- fl v; match b with Some b => do y <- fl b; Ok (x * y) | None => Err IndexError end
              | None => Ok 0
              end;
      match b with
      | None => Err IndexError
      | Some b => match dget b schedules with
                  | Some v => do x <- fl v; do y <- fl a; Ok (x * y)
                  | None => Ok p
                  end
      end
  end.
Definition zip_attrs : list string :=
  ["current_fraction_"; "current_pf_"; "power_fraction_"; "power_pf_"; "impedance_fraction_"; "impedance_pf_"]%string.
(** 165-171: all six must be there, in this order; the percentages computed from them are not used later *)
Fixpoint zip_given (o : gobj) (c : string) (ks : list string) : pres bool :=
  match ks with
  | [] => Ok true
  | k :: ks => match gattr o (k ++ c) with
               | None => Ok false
               | Some s => do _ <- fl s; zip_given o c ks
               end
  end.
Definition zip_load (o : gobj) (delta : bool) (c : string) : pres (list dphload) :=
  match gattr o ("base_power_" ++ c) with
  | None => Ok []
  | Some s => do p <- base_power s;
              do all <- zip_given o c zip_attrs;
              Ok (if all then [phload delta c p 0 (0, 0) (0, 0)] else [])
  end.
(** __parse_phase_load, 88-188 *)
Definition phase_loads (o : gobj) (delta : bool) (c : string) : pres (list dphload) :=
  do l1 <- power_load o delta "power_" c;
  do l2 <- power_load o delta "constant_power_" c;
  do l3 <- impedance_load o delta "impedance_" c;
  do l4 <- impedance_load o delta "constant_impedance_" c;
  do l5 <- current_load o delta c;
  do l6 <- zip_load o delta c;
  Ok (l1 ++ l2 ++ l3 ++ l4 ++ l5 ++ l6)%list.
(** __parse_phase_loads, 73-86 *)
Definition load_connections : list string := ["A"; "B"; "C"; "AB"; "BC"; "CA"; "1"; "2"; "12"]%string.
Definition all_phase_loads (o : gobj) (delta : bool) : pres (list dphload) :=
  mfold (fun acc c => do l <- phase_loads o delta c; Ok (acc ++ l)%list) load_connections [].
Definition no_volt : string -> option (R * R) := fun _ => None.
Definition first_letter (s : string) : option string := match s with String c _ => Some (chr c) | EmptyString => None end.
(** parse, 6-71: the load and, if it has no parent, a node of the same name *)
Definition read_load (name : string) (o : gobj) : pres (list dmodel) :=
  do vn <- fattr o "nominal_voltage";
  do _ <- cattr o "voltage_1";
  do _ <- cattr o "voltage_2";
  let ps := match gattr o "phases" with Some s => clean_phases s | None => EmptyString end in
  let triplex := contains "S" ps in
  let ps' := if triplex then "12"%string else ps in
  let phases := filter (fun p => GlmText.mem p ["A"; "B"; "C"; "1"; "2"]%string) (letters ps') in
  do ls <- all_phase_loads o (negb triplex && contains "D" ps)%bool;
  let trip := if triplex then first_letter ps else None in
  Ok (match gattr o "parent" with
      | Some par => [MLoad {| do_name := Some name; do_conn := Some par; do_triplex := trip; do_loads := ls |}]
      | None => [MLoad {| do_name := Some ("load_" ++ name)%string; do_conn := Some name; do_triplex := trip; do_loads := ls |};
                 MNode {| dn_name := name; dn_phases := phases; dn_source := false; dn_parent := None; dn_conn := None;
                          dn_vnom := vn; dn_volt := no_volt |}]
      end).

(** *** nodes and meters, 251-329 *)
(** the voltage of the child goes to the first Node of the store with the parent's name, 291-296 *)
Fixpoint set_vnom (name : string) (v : option R) (ms : list dmodel) : list dmodel :=
  match ms with
  | [] => []
  | MNode n :: ms =>
      if (negb (dn_source n) && String.eqb (dn_name n) name)%bool
      then MNode {| dn_name := dn_name n; dn_phases := dn_phases n; dn_source := dn_source n; dn_parent := dn_parent n;
                    dn_conn := dn_conn n; dn_vnom := v; dn_volt := dn_volt n |} :: ms
      else MNode n :: set_vnom name v ms
  | m :: ms => m :: set_vnom name v ms
  end.
Definition polar_of (c : option cnum) : option (R * R) := option_map (p_polar E) c.
Definition read_node (name : string) (o : gobj) (pi : phase_info) (ms : list dmodel) : pres (list dmodel) :=
  check negb (pi_triplex pi) else Raised;
  do vn <- fattr o "nominal_voltage";
  do va <- cattr o "voltage_A";
  do vb <- cattr o "voltage_B";
  do vc <- cattr o "voltage_C";
  let volt p := if String.eqb p "A" then polar_of va else if String.eqb p "B" then polar_of vb
                else if String.eqb p "C" then polar_of vc else None in
  let swing := match gattr o "bustype" with Some b => String.eqb b "SWING" | None => false end in
  let ms' := (ms ++ [MNode {| dn_name := name; dn_phases := pi_phases pi; dn_source := swing; dn_parent := gattr o "parent";
                              dn_conn := None; dn_vnom := vn; dn_volt := volt |}])%list in
  Ok (match gattr o "parent" with Some par => set_vnom par vn ms' | None => ms' end).
Definition read_triplex_meter (name : string) (o : gobj) (pi : phase_info) : pres dmodel :=
  check pi_triplex pi else Raised;
  do vn <- fattr o "nominal_voltage";
  do v1 <- cattr o "voltage_1";
  do _ <- (match v1 with Some _ => cattr o "voltage_2" | None => Ok None end);
  Ok (MNode {| dn_name := name; dn_phases := ["1"; "2"]%string; dn_source := false; dn_parent := gattr o "parent";
               dn_conn := None; dn_vnom := vn; dn_volt := no_volt |}).

(** *** transformers, 331-675 *)
Inductive xconn := WyeWye | DeltaDelta | DeltaWye | CenterTap | OtherConn.
(** 377-407 *)
Definition conn_of (c : gobj) : xconn :=
  match gattr c "connect_type" with
  | None => OtherConn
  | Some s => if (String.eqb s "1" || String.eqb s "WYE_WYE")%bool then WyeWye
              else if (String.eqb s "2" || String.eqb s "DELTA_DELTA")%bool then DeltaDelta
              else if (String.eqb s "3" || String.eqb s "DELTA_GWYE")%bool then DeltaWye
              else if (String.eqb s "5" || String.eqb s "SINGLE_PHASE_CENTER_TAPPED")%bool then CenterTap
              else OtherConn
  end.
Definition conn1 (c : xconn) : option string :=
  match c with WyeWye => Some "Y"%string | DeltaDelta | DeltaWye => Some "D"%string | _ => None end.
Definition conn2 (c : xconn) : option string :=
  match c with WyeWye | DeltaWye => Some "Y"%string | DeltaDelta => Some "D"%string | _ => None end.
Definition is_tap (c : xconn) : bool := match c with CenterTap => true | _ => false end.
(** 430-442 and 446-455: the voltage, and the number before the conversion to volts *)
Definition volts (c : gobj) (k : string) : pres (option (R * R)) :=
  match gattr c k with
  | None => Ok None
  | Some s => do v <- fl (digits s); Ok (Some (if contains "kV" s then v * 1000 else v, v))
  end.
(** resistances of the windings, 463-474 and 511-527 *)
Definition split_res (tap : bool) (r : R) : option R * option R * option R :=
  if tap then (Some (r / 2), Some r, Some r) else (Some (r / 2), Some (r / 2), None).
(** 480-507: from "reactance" (and impedance1, impedance2) *)
Definition reactances_of (tap : bool) (c : gobj) (x : R) : pres (list R) :=
  if tap
  then do i1 <- cattr c "impedance1";
       match i1 with
       | None => Ok [8 / 10 * x; 4 / 10 * x; 4 / 10 * x]
       | Some i1 => do i2 <- cattr c "impedance2";
                    Ok (match i2 with
                        | None => [8 / 10 * x; snd i1; 4 / 10 * x; 4 / 10 * x]
                        | Some i2 => [x; snd i1; snd i2]
                        end)
       end
  else Ok [x].
(** 463-540: resistances and reactances *)
Definition impedances_of (tap : bool) (c : gobj) : pres ((option R * option R * option R) * list R) :=
  do r <- fattr c "resistance";
  let rs := match r with Some r => split_res tap r | None => (None, None, None) end in
  do x <- fattr c "reactance";
  match x with
  | Some x => do xs <- reactances_of tap c x; Ok (rs, xs)
  | None => do z <- cattr c "impedance";
            Ok (match z with
                | None => (rs, [])
                | Some z => (split_res tap (fst z),
                             if tap then [8 / 10 * snd z; 4 / 10 * snd z; 4 / 10 * snd z] else [snd z])
                end)
  end.
(** 548-590, 612-665: a rating in kVA; with the unit in its text the text is overwritten *)
Definition rating (c : gobj) (k : string) : pres (gobj * option R) :=
  match gattr c k with
  | None => Ok (c, None)
  | Some s => if contains "kVA" s
              then do p <- fl (digits s); Ok (gset_raw c k (digits s), Some (p * 1000))
              else do p <- fl s; Ok (c, Some (p * 1000))
  end.
(** power_rating, 593-607: the text is always overwritten *)
Definition total_rating (c : gobj) : pres (gobj * option R) :=
  match gattr c "power_rating" with
  | None => Ok (c, None)
  | Some s => do p <- fl (digits s); Ok (gset_raw c "power_rating" (digits s), Some (p * 1000))
  end.
Definition oplus (a b : option R) : option R :=
  match a, b with Some a, Some b => Some (a + b) | Some a, None => Some a | None, b => b end.
Definition three_ratings (c : gobj) : pres (gobj * option R) :=
  do a <- rating c "powerA_rating";
  do b <- rating (fst a) "powerB_rating";
  do d <- rating (fst b) "powerC_rating";
  Ok (fst d, oplus (oplus (snd a) (snd b)) (snd d)).
(** 542-665: the configuration afterwards and the rated power of the first winding *)
Definition rated (tap : bool) (c : gobj) : pres (gobj * option R) :=
  do c1 <- (if tap then do x <- three_ratings c; Ok (fst x) else Ok c);
  do t <- total_rating c1;
  match snd t with Some p => Ok t | None => three_ratings (fst t) end.
Definition half (x : option R) : option R := option_map (fun p => p / 2) x.
(** the configuration object of a transformer, 376-665 *)
Record xconf := { xc_conn : xconn; xc_shunt : option cnum; xc_v1 : option R; xc_v2 : option R; xc_v3 : option R;
                  xc_r : option R * option R * option R; xc_x : list R; xc_rated : option R }.
Definition no_xconf : xconf :=
  {| xc_conn := OtherConn; xc_shunt := None; xc_v1 := None; xc_v2 := None; xc_v3 := None; xc_r := (None, None, None);
     xc_x := []; xc_rated := None |}.
Definition read_xconf (c : gobj) : pres (gobj * xconf) :=
  let k := conn_of c in
  do _ <- fattr c "no_load_loss";
  do sh <- cattr c "shunt_impedance";
  do v1 <- volts c "primary_voltage";
  do v2 <- volts c "secondary_voltage";
  do z <- impedances_of (is_tap k) c;
  do r <- rated (is_tap k) c;
  Ok (fst r, {| xc_conn := k; xc_shunt := sh; xc_v1 := option_map fst v1; xc_v2 := option_map fst v2;
                xc_v3 := if is_tap k then option_map (fun v => - snd v) v2 else None;
                xc_r := fst z; xc_x := snd z; xc_rated := snd r |}).
Definition windings_of (x : xconf) (phases : list string) : list dwinding :=
  let '(r1, r2, r3) := xc_r x in
  let tap := is_tap (xc_conn x) in
  let w1 := {| dw_nom := xc_v1 x; dw_rated := xc_rated x; dw_conn := conn1 (xc_conn x); dw_res := r1; dw_phases := phases |} in
  let w2 := {| dw_nom := xc_v2 x; dw_rated := if tap then half (xc_rated x) else xc_rated x; dw_conn := conn2 (xc_conn x);
               dw_res := r2; dw_phases := if tap then "1"%string :: tl phases else phases |} in
  let w3 := {| dw_nom := xc_v3 x; dw_rated := half (xc_rated x); dw_conn := None; dw_res := r3; dw_phases := ["2"%string] |} in
  if tap then [w1; w2; w3] else [w1; w2].

(** *** the state of the loop: objects, whose texts some branches overwrite, the store, and the local variables
    config (the name of the object), conductors and distances, which survive from one object to the next *)
Record rstate := { r_objs : objects; r_store : list dmodel; r_config : option string;
                   r_conds : option (list wire); r_dist : option dmat }.
Definition with_store (s : rstate) (ms : list dmodel) : rstate :=
  {| r_objs := r_objs s; r_store := ms; r_config := r_config s; r_conds := r_conds s; r_dist := r_dist s |}.
Definition append (s : rstate) (ms : list dmodel) : rstate := with_store s (r_store s ++ ms)%list.
Definition set_objs (s : rstate) (objs : objects) : rstate :=
  {| r_objs := objs; r_store := r_store s; r_config := r_config s; r_conds := r_conds s; r_dist := r_dist s |}.
Definition last_name (objs : objects) : option string := last (map (fun kv => Some (fst kv)) objs) None.
(** for config_name, config in self.all_gld_objects.items(): afterwards config is the last object of the file *)
Definition scanned (s : rstate) : rstate :=
  {| r_objs := r_objs s; r_store := r_store s; r_config := last_name (r_objs s); r_conds := r_conds s; r_dist := r_dist s |}.
Definition read_xfmr (name : string) (o : gobj) (pi : phase_info) (s : rstate) : pres rstate :=
  do r <- (match gattr o "configuration" with
           | None => Ok (s, no_xconf)
           | Some cn => match dget cn (r_objs s) with
                        | None => Ok (scanned s, no_xconf)
                        | Some c => do x <- read_xconf c;
                                    Ok (scanned (set_objs s (dset cn (fst x) (r_objs s))), snd x)
                        end
           end);
  let x := snd r in
  Ok (append (fst r)
        [MXfmr {| dx_name := name; dx_from := gattr o "from"; dx_to := gattr o "to"; dx_phases := pi_phases pi;
                  dx_tap := is_tap (xc_conn x); dx_windings := windings_of x (pi_phases pi); dx_reactances := xc_x x;
                  dx_shift := None; dx_shunt := xc_shunt x |}]).

(** *** fuses 682-753 and switches 755-823 *)
Definition gone (opens : list string) (s : string) : bool := GlmText.mem s opens.
(** the wires of the phases whose state is given, 704-737 and 775-807 *)
Definition given_wires (o : gobj) (suffix : string) (opens : list string) : list dwire :=
  flat_map (fun p => match gattr o ("phase_" ++ p ++ suffix) with
                     | Some st => [{| wi_phase := p; wi_open := gone opens st; wi_amp := None |}]
                     | None => []
                     end) ["A"; "B"; "C"]%string.
(** otherwise one wire for each phase; without a status the loop ends after the first wire, 739-750 and 809-821 *)
Definition default_wires (o : gobj) (phases : list string) : list dwire :=
  match gattr o "status" with
  | Some st => map (fun p => {| wi_phase := p; wi_open := String.eqb st "OPEN"; wi_amp := None |}) phases
  | None => map (fun p => {| wi_phase := p; wi_open := false; wi_amp := None |}) (firstn 1 phases)
  end.
Definition switch_wires (o : gobj) (suffix : string) (opens phases : list string) : list dwire :=
  match given_wires o suffix opens with [] => default_wires o phases | ws => ws end.
Definition read_fuse (o : gobj) (pi : phase_info) : pres dmodel :=
  do lim <- (match gattr o "current_limit" with None => Ok None | Some s => do r <- fl (digits s); Ok (Some r) end);
  Ok (MLine {| dl_fuse := true; dl_switch := false; dl_from := gattr o "from"; dl_to := gattr o "to";
               dl_phases := Some (pi_phases pi); dl_wires := switch_wires o "_status" ["BLOWN"; "OPEN"]%string (pi_phases pi);
               dl_limit := lim; dl_status := fun _ => None; dl_z := []; dl_shunt := None; dl_len := 0 |}).
Definition read_switch (o : gobj) (pi : phase_info) : dmodel :=
  MLine {| dl_fuse := false; dl_switch := true; dl_from := gattr o "from"; dl_to := gattr o "to";
           dl_phases := Some (pi_phases pi); dl_wires := switch_wires o "_state" ["OPEN"]%string (pi_phases pi);
           dl_limit := None; dl_status := fun _ => None; dl_z := []; dl_shunt := None; dl_len := 1 |}.

(** *** lines *)
(** parse_line_length, 199-211: metres; with the unit in its text the text is overwritten *)
Definition line_length (o : gobj) : pres (gobj * R) :=
  match gattr o "length" with
  | None => Err Raised
  | Some s => if contains "km" s
              then do l <- fl (digits s); Ok (gset_raw o "length" (digits s), l * 1000)
              else do l <- fl s; Ok (o, l * (3048 / 10000))
  end.
(** a number that may carry a unit; with the unit in its text the text is overwritten *)
Definition unit_attr (c : gobj) (k unit : string) (f : R -> R) : pres (gobj * option R) :=
  match gattr c k with
  | None => Ok (c, None)
  | Some s => if contains unit s
              then do r <- fl (digits s); Ok (gset_raw c k (digits s), Some (f r))
              else do r <- fl s; Ok (c, Some r)
  end.
Definition or_else A (x y : option A) : option A := match x with Some _ => x | None => y end.
(** the conductor of one wire of an overhead line, 871-911 *)
Definition oh_wire (w : wire) (c : gobj) : pres (gobj * wire) :=
  do d <- fattr c "diameter";
  do g <- unit_attr c "geometric_mean_radius" "cm" (fun r => r / (3048 / 100));
  do r <- unit_attr (fst g) "resistance" "Ohm/km" (fun r => r * (1609344 / 1000000));
  do _ <- fattr c "rating.summer.continuous";
  do e <- fattr c "rating.summer.emergency";
  Ok (fst r, {| w_phase := w_phase w; w_diam := or_else d (Some (1 / 2)); w_gmr := or_else (snd g) (w_gmr w);
                w_res := or_else (snd r) (w_res w); w_ins := w_ins w; w_emerg := or_else e (w_emerg w); w_outer := w_outer w;
                w_cnd := w_cnd w; w_k := w_k w; w_cdiam := w_cdiam w; w_cgmr := w_cgmr w; w_cres := w_cres w |}).
(** of a triplex line, 1040-1073 *)
Definition tp_wire (w : wire) (c : gobj) : pres (gobj * wire) :=
  do g <- fattr c "geometric_mean_radius";
  do r <- fattr c "resistance";
  do _ <- fattr c "rating.summer.continuous";
  do e <- fattr c "rating.summer.emergency";
  Ok (c, {| w_phase := w_phase w; w_diam := w_diam w; w_gmr := or_else g (w_gmr w);
            w_res := or_else r (w_res w); w_ins := w_ins w; w_emerg := or_else e (w_emerg w); w_outer := w_outer w;
            w_cnd := w_cnd w; w_k := w_k w; w_cdiam := w_cdiam w; w_cgmr := w_cgmr w; w_cres := w_cres w |}).
(** of an underground line, 1146-1212; neutral_strands is int(float(...)), i.e. truncated towards zero *)
Definition trunc (x : R) : Z := if rltb x 0 then (- Int_part (- x))%Z else Int_part x.
Definition ug_wire (w : wire) (c : gobj) : pres (gobj * wire) :=
  do od <- fattr c "outer_diameter";
  do nd <- fattr c "neutral_diameter";
  do ns <- fattr c "neutral_strands";
  do cd <- fattr c "conductor_diameter";
  do g <- fattr c "conductor_gmr";
  do r <- unit_attr c "conductor_resistance" "Ohm/km" (fun r => r * (1609344 / 1000000));
  do ng <- fattr c "neutral_gmr";
  do nr <- fattr c "neutral_resistance";
  do _ <- fattr c "rating.summer.continuous";
  do e <- fattr c "rating.summer.emergency";
  Ok (fst r, {| w_phase := w_phase w; w_diam := w_diam w; w_gmr := or_else g (w_gmr w);
                w_res := or_else (snd r) (w_res w); w_ins := w_ins w; w_emerg := or_else e (w_emerg w);
                w_outer := or_else od (w_outer w); w_cnd := or_else nd (w_cnd w); w_k := or_else (option_map trunc ns) (w_k w);
                w_cdiam := or_else cd (w_cdiam w); w_cgmr := or_else ng (w_cgmr w); w_cres := or_else nr (w_cres w) |}).
(** the wires a configuration has conductors for: conductor name and new wire, in this order *)
Definition wires_for (config : gobj) (phases : list string) : list (string * wire) :=
  flat_map (fun p => match gattr config ("conductor_" ++ p) with Some cn => [(cn, new_wire p)] | None => [] end) phases.
(** for api_wire in conductors: the objects are threaded through, as their texts change *)
Definition fill (f : wire -> gobj -> pres (gobj * wire)) (s : objects * list wire) (cw : string * wire)
  : pres (objects * list wire) :=
  let (objs, ws) := s in
  do c <- obj_at objs (fst cw);
  do x <- f (snd cw) c;
  Ok (dset (fst cw) (fst x) objs, (ws ++ [snd x])%list).
Definition fill_all (f : wire -> gobj -> pres (gobj * wire)) (objs : objects) (cws : list (string * wire))
  : pres (objects * list wire) := mfold (fill f) cws (objs, []).
(** 1024-1038: the last wire created gets the data of the configuration *)
Definition set_last (f : wire -> wire) (l : list (string * wire)) : list (string * wire) :=
  match rev l with [] => [] | (k, w) :: r => rev ((k, f w) :: r) end.
Definition insulate (ins diam : option R) (w : wire) : wire :=
  {| w_phase := w_phase w; w_diam := or_else diam (w_diam w); w_gmr := w_gmr w; w_res := w_res w;
     w_ins := or_else ins (w_ins w); w_emerg := w_emerg w; w_outer := w_outer w; w_cnd := w_cnd w; w_k := w_k w;
     w_cdiam := w_cdiam w; w_cgmr := w_cgmr w; w_cres := w_cres w |}.
Definition set_vars (s : rstate) (objs : objects) (c : option string) (ws : option (list wire)) (d : option dmat) : rstate :=
  {| r_objs := objs; r_store := r_store s; r_config := c; r_conds := ws; r_dist := d |}.
Definition bound A (x : option A) : pres A := match x with Some a => Ok a | None => Err UnboundLocalError end.
(** the configuration of an overhead line, 845-932 *)
Definition oh_config (o : gobj) (s : rstate) : pres rstate :=
  match gattr o "configuration" with
  | None => Ok s
  | Some cn =>
      do c <- obj_at (r_objs s) cn;
      do f <- fill_all oh_wire (r_objs s) (wires_for c ["A"; "B"; "C"; "N"]%string);
      let (objs, ws) := f in
      match gattr c "spacing" with
      | None => Ok (set_vars s objs (Some cn) (Some ws) (r_dist s))
      | Some sn => do so <- obj_at objs sn;
                   do d <- overhead_spacing E so (map w_phase ws);
                   Ok (set_vars s (dset sn (fst d) objs) (Some cn) (Some ws) (Some (snd d)))
      end
  end.
(** 1001-1075 *)
Definition tp_config (o : gobj) (s : rstate) : pres rstate :=
  match gattr o "configuration" with
  | None => Ok s
  | Some cn =>
      do c <- obj_at (r_objs s) cn;
      do ins <- fattr c "insulation_thickness";
      do diam <- fattr c "diameter";
      do f <- fill_all tp_wire (r_objs s) (set_last (insulate ins diam) (wires_for c ["1"; "2"; "N"]%string));
      Ok (set_vars s (fst f) (Some cn) (Some (snd f)) (r_dist s))
  end.
(** 1110-1232; without an outer diameter the list for the spacing raises AttributeError, which is caught *)
Fixpoint all_some A (l : list (option A)) : option (list A) :=
  match l with
  | [] => Some []
  | None :: _ => None
  | Some a :: l => match all_some l with Some r => Some (a :: r) | None => None end
  end.
Definition ug_config (o : gobj) (s : rstate) : pres rstate :=
  match gattr o "configuration" with
  | None => Ok s
  | Some cn =>
      do c <- obj_at (r_objs s) cn;
      do f <- fill_all ug_wire (r_objs s) (wires_for c ["A"; "B"; "C"; "N"]%string);
      let (objs, ws) := f in
      match gattr c "spacing" with
      | None => Ok (set_vars s objs (Some cn) (Some ws) (r_dist s))
      | Some sn => do so <- obj_at objs sn;
                   match all_some (map w_outer ws) with
                   | None => Ok (set_vars s objs (Some cn) (Some ws) (r_dist s))
                   | Some outer => do d <- underground_spacing E outer so;
                                   Ok (set_vars s (dset sn (fst d) objs) (Some cn) (Some ws) (Some (snd d)))
                   end
      end
  end.
(** 960-977: afterwards diameter, gmr and resistance are in metres and ohms per metre *)
Definition to_metric (w : wire) : wire :=
  {| w_phase := w_phase w; w_diam := option_map (fun d => d * (254 / 10000)) (w_diam w);
     w_gmr := option_map (fun g => g * (3048 / 10000)) (w_gmr w);
     w_res := option_map (fun r => r / (1609344 / 1000)) (w_res w); w_ins := w_ins w; w_emerg := w_emerg w;
     w_outer := w_outer w; w_cnd := w_cnd w; w_k := w_k w; w_cdiam := w_cdiam w; w_cgmr := w_cgmr w; w_cres := w_cres w |}.
Definition line_wires (ws : list wire) : list dwire :=
  map (fun w => {| wi_phase := w_phase w; wi_open := false; wi_amp := w_emerg w |}) ws.
Definition line_model (o : gobj) (phases : option (list string)) (ws : list wire) (z : matrix) (sh : option matrix) (len : R) : dmodel :=
  MLine {| dl_fuse := false; dl_switch := false; dl_from := gattr o "from"; dl_to := gattr o "to"; dl_phases := phases;
           dl_wires := line_wires ws; dl_limit := None; dl_status := fun _ => None; dl_z := per_meter z;
           dl_shunt := option_map per_meter sh; dl_len := len |}.
(** config after the configuration has been read *)
Definition the_config (s : rstate) : pres gobj := do cn <- bound (r_config s); obj_at (r_objs s) cn.
Definition set_length (name : string) (o : gobj) (s : rstate) : rstate := set_objs s (dset name o (r_objs s)).
(** overhead_line, 825-977 *)
Definition read_overhead (name : string) (o : gobj) (pi : phase_info) (s0 : rstate) : pres rstate :=
  do len <- line_length o;
  do s <- oh_config o (set_length name (fst len) s0);
  do ws <- bound (r_conds s);
  do c <- the_config s;
  do z0 <- load_direct E "z" c;
  do z <- (match z0 with
           | Some z => Err ValueError (* array == None, 939 *)
           | None => do d <- bound (r_dist s); overhead_z E ws (strip_dist d) (pi_phases pi) (pi_neutral pi)
           end);
  do c0 <- load_direct E "c" c;
  do sh <- (match c0 with Some m => Ok (Some m) | None => do d <- bound (r_dist s); p_ocap E ws d end);
  Ok (append (set_vars s (r_objs s) (r_config s) (Some (map to_metric ws)) (r_dist s))
             [line_model o None (map to_metric ws) z sh (snd len)]).
(** triplex_line, 979-1088 *)
Definition read_triplex_line (name : string) (o : gobj) (s0 : rstate) : pres rstate :=
  do len <- line_length o;
  do s <- tp_config o (set_length name (fst len) s0);
  do ws <- bound (r_conds s);
  do c <- the_config s;
  do z0 <- load_direct E "z" c;
  do z <- (match z0 with Some z => Ok z | None => triplex_z E ws end);
  Ok (append s [line_model o None ws z None (snd len)]).
(** underground_line, 1090-1252 *)
Definition read_underground (name : string) (o : gobj) (pi : phase_info) (s0 : rstate) : pres rstate :=
  do len <- line_length o;
  do s <- ug_config o (set_length name (fst len) s0);
  do ws <- bound (r_conds s);
  do c <- the_config s;
  do z0 <- load_direct E "z" c;
  do z <- (match z0 with Some z => Ok z | None => do d <- bound (r_dist s); p_ugz E ws (strip_dist d) end);
  do c0 <- load_direct E "c" c;
  do sh <- (match c0 with Some m => Ok m | None => p_ucap E ws end);
  Ok (append s [line_model o (Some (pi_phases pi)) ws z (Some sh) (snd len)]).

(** *** capacitors, 1254-1345 *)
(** one pair of limits: the low one is only read if the high one is there *)
Definition limits (o : gobj) (pre : string) (hl : option R * option R) : pres (option R * option R) :=
  do h <- fattr o (pre ++ "_high");
  match h with
  | None => Ok hl
  | Some h => do l <- fattr o (pre ++ "_low"); Ok (Some h, or_else l (snd hl))
  end.
Definition read_cap (o : gobj) (pi : phase_info) : pres dmodel :=
  do conn <- (match gattr o "phases_connected" with
              | Some s => do q <- parse_phases s; Ok (pi_phases q)
              | None => Ok (pi_phases pi)
              end);
  do _ <- fattr o "nominal_voltage";
  do _ <- fattr o "time_delay";
  do hl0 <- limits o "VAr_set" (None, None);
  do hl <- limits o "voltage_set" hl0;
  do pcs <- mfold (fun acc p => do v <- fattr o ("capacitor_" ++ p);
                                Ok (match v with Some v => acc ++ [(p, v)] | None => acc end)%list)
                  ["A"; "B"; "C"]%string [];
  do vn <- fattr o "cap_nominal_voltage";
  Ok (MCap {| dc_phases := pcs; dc_connected := conn; dc_high := fst hl; dc_low := snd hl; dc_control := gattr o "control";
              dc_parent := gattr o "parent"; dc_vnom := vn; dc_switch := fun p => gattr o ("switch" ++ p) |}).

(** *** regulators, 1347-1584 *)
Definition must A (x : pres (option A)) : pres A :=
  do y <- x; match y with Some a => Ok a | None => Err AttributeError end.
(** a winding for each phase, and one for each further phase a setting names, 1400-1494 *)
Definition setting_phases (c : gobj) (pre : string) (ps : list string) : list string :=
  fold_left (fun ps p => match gattr c (pre ++ p) with
                         | Some _ => if GlmText.mem p ps then ps else (ps ++ [p])%list
                         | None => ps
                         end) ["A"; "B"; "C"]%string ps.
Definition reg_phases (c : gobj) (ps : list string) : list string :=
  setting_phases c "compensator_x_setting_" (setting_phases c "compensator_r_setting_" (setting_phases c "tap_pos_" ps)).
Definition reg_texts (c : gobj) : pres unit :=
  do _ <- mfold (fun _ p => do _ <- iattr c ("tap_pos_" ++ p); Ok tt) ["A"; "B"; "C"]%string tt;
  do _ <- mfold (fun _ p => do _ <- fattr c ("compensator_r_setting_" ++ p); Ok tt) ["A"; "B"; "C"]%string tt;
  mfold (fun _ p => do _ <- fattr c ("compensator_x_setting_" ++ p); Ok tt) ["A"; "B"; "C"]%string tt.
Definition read_reg (o : gobj) (pi : phase_info) (s : rstate) : pres rstate :=
  do _ <- (match gattr o "from" with
           | None => Ok None
           | Some f => do e <- obj_at (r_objs s) f; fattr e "nominal_voltage"
           end);
  do cn <- attr (gattr o "configuration");
  do c <- obj_at (r_objs s) cn;
  do _ <- reg_texts c;
  do y <- (match gattr c "connect_type" with
           | None => Ok None
           | Some t => check (String.eqb t "1" || String.eqb t "WYE_WYE")%bool else Raised; Ok (Some "Y"%string)
           end);
  do _ <- fattr c "time_delay";
  do width <- must (fattr c "band_width");
  do center <- must (fattr c "band_center");
  do up <- must (iattr c "raise_taps");
  do down <- must (iattr c "lower_taps");
  do _ <- fattr c "power_transducer_ratio";
  do _ <- fattr c "current_transducer_ratio";
  do _ <- (match gattr c "PT_phase" with
           | Some t => match strip_by (Ascii.eqb """") t with EmptyString => Err IndexError | _ => Ok tt end
           | None => Ok tt
           end);
  do reg <- must (fattr c "regulation");
  do ctrl <- attr (gattr c "Control");
  let ps := reg_phases c (pi_phases pi) in
  Ok (append (scanned s)
        [MReg {| dr_nwindings := 2; dr_phases1 := ps; dr_phases2 := ps; dr_conn1 := y; dr_conn2 := y;
                 dr_from := gattr o "from"; dr_to := gattr o "to"; dr_regulation := reg; dr_high := up; dr_low := down;
                 dr_type := match gattr c "Type" with Some t => t | None => "B"%string end;
                 dr_ctrl := ctrl; dr_center := center; dr_width := width; dr_raise := up; dr_lower := down; dr_creg := reg;
                 dr_tap := fun p => match gattr c ("tap_pos_" ++ p) with Some t => p_int E t | None => None end |}]).

(** *** the loop, 236-1590 *)
Definition shared_config_objects : list string :=
  ["regulator_configuration"; "line_configuration"; "line_spacing"; "transformer_configuration"; "triplex_line_conductor";
   "triplex_line_configuration"; "underground_line_conductor"; "overhead_line_conductor"]%string.
Definition has (o : gobj) (k : string) : bool := match gattr o k with Some _ => true | None => false end.
(** 242-244: and binds more tightly than or *)
Definition class_of (o : gobj) : string :=
  if (String.eqb (go_class o) "triplex_node"
      || String.eqb (go_class o) "triplex_meter" && (has o "power_12" || has o "power_1" || has o "power_2"))%bool
  then "triplex_load"%string else go_class o.
Definition read_object (s : rstate) (name : string) : pres rstate :=
  do o <- obj_at (r_objs s) name;
  if GlmText.mem (go_class o) shared_config_objects then Ok s
  else
    let cls := class_of o in
    do ps <- attr (gattr o "phases");
    do pi <- parse_phases ps;
    if (String.eqb cls "node" || String.eqb cls "meter")%bool then do ms <- read_node name o pi (r_store s); Ok (with_store s ms)
    else if (String.eqb cls "triplex_node" || String.eqb cls "triplex_meter")%bool
         then do m <- read_triplex_meter name o pi; Ok (append s [m])
    else if String.eqb cls "transformer" then read_xfmr name o pi s
    else if (String.eqb cls "load" || String.eqb cls "triplex_load")%bool then do ms <- read_load name o; Ok (append s ms)
    else if String.eqb cls "fuse" then do m <- read_fuse o pi; Ok (append s [m])
    else if (String.eqb cls "switch" || String.eqb cls "recloser")%bool then Ok (append s [read_switch o pi])
    else if String.eqb cls "overhead_line" then read_overhead name o pi s
    else if String.eqb cls "triplex_line" then read_triplex_line name o s
    else if String.eqb cls "underground_line" then read_underground name o pi s
    else if String.eqb cls "capacitor" then do m <- read_cap o pi; Ok (append s [m])
    else if String.eqb cls "regulator" then read_reg o pi s
    else Err Raised.
Definition start (objs : objects) : rstate :=
  {| r_objs := objs; r_store := []; r_config := None; r_conds := None; r_dist := None |}.
(** the loop goes over the keys of the dictionary, which do not change *)
Definition read_store (objs : objects) : pres (list dmodel) :=
  do s <- mfold read_object (map fst objs) (start objs); Ok (r_store s).
End Reader.
