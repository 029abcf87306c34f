(** What the parsers hand to the solver: the network objects of ThreePhase.v (DxNetworkModel) and RawParser.v (TxNetworkModel,
    networkloader.py:62-81) in the form of Network.v and PowerFlow.v, and the way from a file to a result (NetworkLoader.from_file,
    then PowerFlow.execute, as in run_solver.py:50-99).

    In Python there is one object for each bus and element; ThreePhase.v, RawParser.v, Network.v and PowerFlow.v each keep what their
    part of the code reads.  This file only puts the same object's parts together.  Network.v keeps the initial voltage of a bus in polar
    form, here some polar form of Vr_init and Vi_init (bus.py:39-40, set directly in threephaseparser.py); GROUND is [None]; RAW buses
    are counted by their place in the list.  Names of RAW buses, left out in RawParser.v, are a parameter. *)
From Coq Require Import String List Bool Arith ZArith Reals.
From Verif Require Import PyExc Components Devices UnbalancedLine Network Solver Graph PowerFlow ThreePhase RawTransformers RawParser Loader.
Import ListNotations.
Local Open Scope R_scope.
Set Implicit Arguments.

(** a polar form of x + jy *)
Definition polar (x y : R) : R * R :=
  let m := sqrt (x * x + y * y) in (m, if Rle_dec 0 y then acos (x / m) else - acos (x / m)).

(** place of the first element of a list that satisfies a test *)
Fixpoint place A (f : A -> bool) (l : list A) : option nat :=
  match l with [] => None | a :: l => if f a then Some 0%nat else option_map S (place f l) end.
Fixpoint pmap A B (f : A -> pres B) (l : list A) : pres (list B) :=
  match l with [] => Ok [] | a :: l => do b <- f a; do r <- pmap f l; Ok (b :: r) end.

(** *** three phases *)
Definition dx_bus (b : tbus) : bus :=
  {| bus_id := tb_id b; bus_Vm := fst (polar (tb_vr b) (tb_vi b)); bus_Va := snd (polar (tb_vr b) (tb_vi b)) |}.
Definition dx_slack (s : tslack) : slack := {| Network.sl_bus := Some (sk_bus s); sl_V := sk_v s; Network.sl_ang := sk_ang s; sl_Pinit := 0; sl_Qinit := 0 |}.
Definition dx_load (l : tload) : elem :=
  ELoad {| ld_P := tl_p l; ld_Q := tl_q l; ld_Zr := fst (tl_z l); ld_Zi := snd (tl_z l); ld_IP := tl_ip l; ld_IQ := tl_iq l |} (tl_from l) (tl_to l).
Definition dx_xfmr (x : txfmr) : elem :=
  match x with
  | TX fp fn tp tn d _ _ _ => EXf d fp fn tp tn
  | TCT _ from pri s1 t1 s2 t2 c _ _ => ECt c (Some from) (Some pri) (Some s1) (Some t1) (Some s2) (Some t2)
  end.
Definition is_closed (s : cap_switch) : bool := match s with CLOSED => true | OPEN => false end.
Definition dx_cap (c : tcap) : elem := ECap (tc_B c) (is_closed (tc_switch c)) (Some (tc_bus c)) None.
Definition dx_reg (r : treg) : elem := EReg (r_ratio (tr_dev r)) (Some (tr_from r)) (Some (tr_to r)) (Some (tr_cur r)).
Definition dx_fuse (f : tfuse) : elem := EFuse (Some (tf_from f)) (Some (tf_to f)) (Some (tf_mid f)).
Definition dx_switch (s : tswitch) : elem := ESwitch (negb (ts_open s)) (Some (ts_from s)) (Some (ts_to s)).
(** get_nodes, unbalanced_line.py:48-51: the buses of one phase of a line, by name *)
Definition dx_phase (n : net) (l : tline) (p : string) : pres (bref * bref) :=
  do f <- ThreePhase.lookup_o n (tn_from l) p; do t <- ThreePhase.lookup_o n (tn_to l) p; Ok (Some f, Some t).
(** admittances[i][j], 203-204, and the imaginary part of shunt_admittances[i][j], 206-211, 0 outside of the matrix *)
Definition cell (m : matrix) (i j : nat) : R * R := match entry m i j with Some c => c | None => (0, 0) end.
Definition dx_line (n : net) (l : tline) : pres elem :=
  do ph <- pmap (dx_phase n l) (tn_phases l);
  Ok (EUnb ph (fun i j => fst (cell (tn_y l) i j)) (fun i j => snd (cell (tn_y l) i j))
           (fun i j => match tn_shunt l with Some m => snd (cell m i j) | None => 0 end)).
(** DxNetworkModel, networkmodel.py:155-182; the first to ask for the phases of the lines is the graph (graphanalyzer.py:37-38) *)
Definition dx_network (opt : option bool) (n : net) : pres Network.network :=
  do lines <- pmap (dx_line n) (nt_lines n);
  Ok {| nw_three_phase := true; nw_buses := map dx_bus (nt_buses n); nw_lines := lines; nw_transformers := map dx_xfmr (nt_xfmrs n);
        nw_slack := map dx_slack (nt_slack n); nw_switches := map dx_switch (nt_switches n); nw_generators := []; nw_loads := map dx_load (nt_loads n);
        nw_misc := []; nw_sources := []; nw_shunts := []; nw_regulators := map dx_reg (nt_regs n); nw_fuses := map dx_fuse (nt_fuses n);
        nw_capacitors := map dx_cap (nt_caps n); nw_optimization := opt |}.
(** names are numbered by their first bus; a bus number nothing has stands for nothing *)
Definition no_place : gbus := {| gb_ground := false; gb_name := 0; gb_phase := 0; gb_virtual := false; gb_vnom := 0 |}.
Definition number_of (f : tbus -> bool) (n : net) : nat := match place f (nt_buses n) with Some k => k | None => 0%nat end.
Definition dx_place (n : net) (k : nat) : gbus :=
  match nth_error (nt_buses n) k with
  | None => no_place
  | Some b => {| gb_ground := false; gb_name := number_of (fun c => String.eqb (tb_name c) (tb_name b)) n;
                 gb_phase := number_of (fun c => String.eqb (tb_phase c) (tb_phase b)) n; gb_virtual := tb_virtual b; gb_vnom := tb_vnom b |}
  end.
Definition or0 (o : option R) : R := match o with Some r => r | None => 0 end.
Definition dx_details (n : net) : details_of :=
  {| of_bus := dx_place n;
     of_fuse := fun k => match nth_error (nt_fuses n) k with Some f => (tf_limit f, tf_status f) | None => (0, GOOD) end;
     of_cap := fun k => match nth_error (nt_caps n) k with Some c => (tc_mode c, or0 (tc_high c), or0 (tc_low c)) | None => (C_MANUAL, 0, 0) end |}.

(** *** positive sequence *)
Definition sx_ref (o : onet) (z : Z) : bref := place (fun b => Z.eqb (ob_num b) z) (n_buses o).
Fixpoint sx_buses (k : nat) (bs : list obus) : list bus :=
  match bs with [] => [] | b :: bs => {| bus_id := k; bus_Vm := ob_vm b; bus_Va := ob_va b |} :: sx_buses (S k) bs end.
(** generators keep everything but the set point negated (generator.py:55-59), shunts are kept per 100 MVA (shunt.py:45-46); Network.v
    has the arguments of the constructors *)
Definition sx_gen (o : onet) (g : ogen) : generator :=
  {| gen_bus := sx_ref o (og_bus g); gen_P := - og_P g; gen_Vset := og_vset g; gen_Qmin := - og_qmin g; gen_Qmax := - og_qmax g; gen_Qinit := - og_qinit g |}.
(** Slack, slack.py:24-50: the initial powers are kept per 100 MVA *)
Definition sx_slack (o : onet) (s : oslack) : slack :=
  {| Network.sl_bus := sx_ref o (RawParser.sl_bus s); sl_V := sl_vset s; Network.sl_ang := RawParser.sl_ang s; sl_Pinit := 100 * sl_pinit s; sl_Qinit := 100 * sl_qinit s |}.
Definition sx_network (opt : option bool) (o : onet) : Network.network :=
  {| nw_three_phase := false; nw_buses := sx_buses 0 (n_buses o);
     nw_lines := map (fun x => ELine (snd x) (sx_ref o (fst (fst x))) (sx_ref o (snd (fst x)))) (n_lines o);
     nw_transformers := map (fun x => EXf (x_dev x) (sx_ref o (x_from x)) None (sx_ref o (x_to x)) None) (n_xfmrs o);
     nw_slack := map (sx_slack o) (n_slack o); nw_switches := []; nw_generators := map (sx_gen o) (n_gens o);
     nw_loads := map (fun x => ELoad (snd x) (sx_ref o (fst x)) None) (n_loads o); nw_misc := []; nw_sources := [];
     nw_shunts := map (fun s => EShunt (100 * os_G s) (100 * os_B s) (sx_ref o (os_bus s))) (n_shunts o);
     nw_regulators := []; nw_fuses := []; nw_capacitors := []; nw_optimization := opt |}.
(** names of the buses, data_classes.py:69 and (for the star buses) bus.py:27: [nm] numbers them *)
Definition sx_details (nm : Z -> nat) (o : onet) : details_of :=
  {| of_bus := fun k => match nth_error (n_buses o) k with
                        | None => no_place
                        | Some b => {| gb_ground := false; gb_name := nm (ob_num b); gb_phase := 0; gb_virtual := false; gb_vnom := ob_vm b |}
                        end;
     of_fuse := fun _ => (0, GOOD); of_cap := fun _ => (C_MANUAL, 0, 0) |}.

(** *** from a file to the result *)
Definition solver_network (opt : option bool) (r : Loader.network) : pres Network.network :=
  match r with Three n => dx_network opt n | Single o => Ok (sx_network opt o) end.
Definition solver_details (nm : Z -> nat) (r : Loader.network) : details_of :=
  match r with Three n => dx_details n | Single o => sx_details nm o end.
Definition run_file So (T : tools) (W : world) (nm : Z -> nat) (spsolve : So -> list (nat * nat * R) -> list R -> So * option (list R)) (nan : R)
    (cfg : pf_settings) (old : table) (visit : list nat -> list nat) (opt : option bool) (uri : string) (so : So) : pres pf_result :=
  do r <- from_file T W uri;
  do nw <- solver_network opt r;
  Ok (execute (solver_details nm r) spsolve nan cfg old visit nw so).
