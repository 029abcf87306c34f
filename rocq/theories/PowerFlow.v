(** Model of PowerFlow.execute, src/logic/powerflow.py:14-56: the checks of the graph, the choice of voltage limiting, the device
    controller over the homotopy, the Newton solver and the matrix stamper, all on one network.

    Simplifications: of the PowerFlowResults only the arguments that come out of the run are kept (its constructor is Results.v); the
    time is left out.  Regulators never act (regulator.py:93-95), so they are not among the devices.  The indexes are assigned once,
    here again for every position of the switches: a capacitor takes no index of its own ([rewired_assign] in PowerFlowProofs.v).
    The colours of graphanalyzer.py:35 need bus.Type in 0..3, which is supposed. *)
From Coq Require Import String List Bool Arith ZArith Reals.
From Verif Require Import Expr Stamper Residual Collect SpecSystem Components Network SpecNetwork Solver Homotopy VLimit Devices Graph NetStamper.
Import ListNotations.
Local Open Scope R_scope.

(** PowerFlowSettings, powerflowsettings.py:1-26, as far as used here *)
Record pf_settings := { pf_nr : settings; pf_limiting : bool; pf_flat : bool; pf_tx_stepping : bool; pf_device_control : bool }.
(** what Network.v leaves out of buses, fuses and capacitors: place of a bus (bus.py:14-40; every bus is one of the network, not
    GROUND), limit and status of the k-th fuse (fuse.py:13-23), mode and band of the k-th capacitor (capacitor.py:21-31) *)
Record details_of := { of_bus : nat -> gbus; of_fuse : nat -> R * fuse_status; of_cap : nat -> cap_mode * R * R }.

Section Execute.
Variable x : details_of.

(** *** get_connections of the elements *)
Definition place_of (b : bref) : gbus :=
  match b with Some k => of_bus x k | None => {| gb_ground := true; gb_name := 0; gb_phase := 0; gb_virtual := false; gb_vnom := 0 |} end.
Definition connections (blown : bool) (e : elem) : list (bref * bref) :=
  match e with
  | ELine _ f t => [(f, t)]                                          (* line.py:135-136 *)
  | EUnb ph _ _ _ => ph                                              (* unbalanced_line.py:179-182 *)
  | EXf _ fp fn tp tn => [(fp, tp); (fp, fn); (tp, tn)]              (* transformer.py:161-162 *)
  | ECt _ from _ _ t1 _ t2 => [(from, t1); (from, t2)]               (* center_tap_transformer.py:155-159 *)
  | ESlack s => [(sl_bus s, None)]                                   (* slack.py:65-66 *)
  | ESwitch closed f t => if closed then [(f, t)] else []            (* switch.py:36-40 *)
  | EGen _ => []                                                     (* generator.py:73-74 *)
  | ELoad _ f t => [(f, t)]                                          (* load.py:132-133 *)
  | EVs _ _ f t => [(f, t)]                                          (* voltagesource.py:32-33 *)
  | EShunt _ _ _ => []                                               (* shunt.py:59-60 *)
  | EReg _ f t _ => [(f, t)]                                         (* regulator.py:122-123 *)
  | EFuse f t _ => if blown then [] else [(f, t)]                    (* fuse.py:38-42 *)
  | ECap _ _ f t => [(f, t)]                                         (* capacitor.py:42-43, whatever the switch *)
  end.
Definition kind_of (e : elem) : gkind :=
  match e with ELoad _ _ _ => KLoad | EXf _ _ _ _ _ | ECt _ _ _ _ _ _ _ | EReg _ _ _ _ => KTransformer | _ => KOther end.
Definition gelem_of (blown : bool) (e : elem) : gelem :=
  {| ge_kind := kind_of e; ge_conns := map (fun c => (place_of (fst c), place_of (snd c))) (connections blown e) |}.
Definition is_blown (s : fuse_status) : bool := match s with BLOWN => true | GOOD => false end.
Fixpoint number {A} (k : nat) (l : list A) : list (nat * A) := match l with [] => [] | y :: l => (k, y) :: number (S k) l end.
(** get_all_elements, networkmodel.py:48-56, 122-123, 181-182; buses have no connections (bus.py:87-88) *)
Definition graph_elements (nw : network) : list gelem :=
  map (gelem_of false) (nw_lines nw ++ nw_transformers nw ++ map ESlack (nw_slack nw) ++ nw_switches nw ++ map EGen (nw_generators nw) ++ nw_loads nw ++ nw_misc nw) ++
  (if nw_three_phase nw
   then map (gelem_of false) (nw_regulators nw) ++ map (fun y => gelem_of (is_blown (snd (of_fuse x (fst y)))) (snd y)) (number 0 (nw_fuses nw)) ++
        map (gelem_of false) (nw_capacitors nw)
   else map (gelem_of false) (nw_sources nw ++ nw_shunts nw)).
Definition graph_of (nw : network) : gnetwork := {| gn_buses := map (fun b => of_bus x (bus_id b)) (nw_buses nw); gn_elements := graph_elements nw |}.

(** *** the devices *)
Definition before_fuses (nw : network) : nat :=
  length (nw_lines nw ++ nw_transformers nw ++ map ESlack (nw_slack nw) ++ nw_switches nw ++ map EGen (nw_generators nw) ++ nw_loads nw ++ nw_misc nw ++ nw_regulators nw).
Definition or0 (o : option nat) : nat := match o with Some i => i | None => 0%nat end.
(** Fuse.current_sensor is the second stamper; VoltageSource.get_current, voltagesource.py:38-39 *)
Definition sensor (s : list stamper) (y : sym) : nat := or0 (index_in (tl s) y).
Definition fuse_of (nw : network) (a : assigned) (k : nat) : device :=
  let s := nth (before_fuses nw + k) (as_stampers a) [] in
  DFuse {| f_limit := fst (of_fuse x k); f_status := snd (of_fuse x k); f_Ir := sensor s "Ir"%string; f_Ii := sensor s "Ii"%string |}.
(** the voltage of a capacitor is looked up at its from bus (capacitor.py:50-52); with GROUND there v[None] is a matrix, of which
    complex() raises, as the modes without implementation do *)
Definition cap_of (a : assigned) (k : nat) (e : elem) : device :=
  match e with
  | ECap _ closed f _ =>
      let '(mode, high, low) := of_cap x k in
      DCap {| c_mode := match f, mode with None, C_VOLT => C_VAR | _, _ => mode end; c_high := high; c_low := low;
              c_switch := if closed then CLOSED else OPEN; c_Vr := or0 (n_Vr (at_ref (as_table a) f)); c_Vi := or0 (n_Vi (at_ref (as_table a) f)) |}
  | _ => DOther
  end.
Definition devices_of (nw : network) (a : assigned) : list device :=
  if nw_three_phase nw then map (fun y => fuse_of nw a (fst y)) (number 0 (nw_fuses nw)) ++ map (fun y => cap_of a (fst y) (snd y)) (number 0 (nw_capacitors nw)) else [].
(** the network with the switches of the capacitors where the devices have them *)
Definition switched (d : device) (e : elem) : elem :=
  match d, e with
  | DCap c, ECap B _ f t => ECap B (match c_switch c with CLOSED => true | OPEN => false end) f t
  | _, _ => e
  end.
Fixpoint switch_all (ds : list device) (es : list elem) : list elem :=
  match ds, es with
  | d :: ds, e :: es => switched d e :: switch_all ds es
  | _, _ => es
  end.
Definition with_capacitors (nw : network) (cs : list elem) : network :=
  {| nw_three_phase := nw_three_phase nw; nw_buses := nw_buses nw; nw_lines := nw_lines nw; nw_transformers := nw_transformers nw;
     nw_slack := nw_slack nw; nw_switches := nw_switches nw; nw_generators := nw_generators nw; nw_loads := nw_loads nw; nw_misc := nw_misc nw;
     nw_sources := nw_sources nw; nw_shunts := nw_shunts nw; nw_regulators := nw_regulators nw; nw_fuses := nw_fuses nw; nw_capacitors := cs;
     nw_optimization := nw_optimization nw |}.
Definition with_devices (nw : network) (ds : list device) : network :=
  with_capacitors nw (switch_all (skipn (length (nw_fuses nw)) ds) (nw_capacitors nw)).

(** *** the run *)
Context {So : Type}.
Variable spsolve : So -> list (nat * nat * R) -> list R -> So * option (list R).
Variable nan : R.
Variable cfg : pf_settings.
Variable old : table.

(** powerflow.py:29-31 and v_limiting.py *)
Definition limiter (nw : network) (a : assigned) : option (list R -> list R -> option (list R)) :=
  if (negb (nw_three_phase nw) && pf_limiting cfg)%bool
  then Some (apply_limiting (as_size a) (map (fun b => let k := as_table a (bus_id b) in (or0 (n_Vr k), or0 (n_Vi k))) (nw_buses nw)))
  else None.
(** HomotopyController.run_powerflow, homotopycontroller.py:18-44; [None]: an exception outside the Newton solver *)
Definition run_homotopy (nw : network) (so : So) (ds : list device) (v_init : list R)
  : So * ((bool * list R * (nat * R * residual_details)) + option nerror) :=
  let nw := with_devices nw ds in
  let a := assign_matrix old nw in
  match matrix_stamper nan nw a with
  | None => (so, inr None)
  | Some ms => match net_homotopy spsolve (limiter nw a) (pf_nr cfg) (pf_tx_stepping cfg) ms so v_init with
               | HOk r s => (snd s, inl (h_ok r, h_v r, (h_iterations r, h_tx r, h_res r)))
               | HRaise e s => (snd s, inr e)
               end
  end.
(** generate_v_init, networkmodel.py:125-152, 184-191 *)
Definition v_init (nw : network) (a : assigned) : list R :=
  map (if nw_three_phase nw then dx_init nw a else tx_init (pf_flat cfg) nw a) (seq 0 (as_size a)).
Inductive pf_result :=
| PFIslands (count : nat)                 (* lines 19-21 *)
| PFVoltages                              (* line 23 *)
| PFRaise (e : @derror (option nerror)) (ds : list device) (so : So)
| PFDone (ok : bool) (v : list R) (iterations : nat) (tx : R) (res : residual_details) (ds : list device) (so : So).
Variable visit : list nat -> list nat.
Definition execute (nw : network) (so : So) : pf_result :=
  let g := build (graph_of nw) in
  let count := length (islands g) in
  if negb (Nat.eqb count 1) then PFIslands count
  else if negb (validate visit g) then PFVoltages
  else let a := assign_matrix old nw in
       match device_run (run_homotopy nw) vec (pf_device_control cfg) (nw_three_phase nw) so (devices_of nw a) (v_init nw a) with
       | DOk ok v (iterations, tx, res) ds so' => PFDone ok v iterations tx res ds so'
       | DErr e ds so' => PFRaise e ds so'
       end.
End Execute.
