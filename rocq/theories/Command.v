(** Model of main, src/run_solver.py:16-97: the file of the command line, the load factor, infeasibility analysis, the attempt at a time
    series and the power flow, put together from Loader.v, SolverNet.v, PowerFlow.v and TimeSeries.v.

    Simplifications: --select_island is not given (Islands are C48); printing and the result files are left out, so --verbose and
    --outputfile are (see section 6 of DESIGN.md for what --verbose does).  A line without a bus raises in the graph, that is in every
    power flow; here it raises before the first.  Power flows after the first one are an oracle of their number and the loads: what
    they find in indexes, fuses and capacitors is left over from the first.  The generator outputs read off a result are an oracle,
    they are C50. *)
From Coq Require Import Reals ZArith String List Bool Arith.
From Verif Require Import PyExc Collect Components Network Solver Devices PowerFlow ThreePhase RawParser Loader SolverNet.
From Verif Require TimeSeries.
Import ListNotations.
Local Open Scope R_scope.

(** the options, lines 20-47 *)
Record options := { op_case : string; op_series : TimeSeries.ts_args; op_swing : option string; op_negatives : option (list string);
                    op_debug : bool; op_infeasibility : bool; op_factor : option R; op_tx_stepping : bool }.
(** lines 30, 46 *)
Definition factor (o : options) : R := match op_factor o with Some f => f | None => -1 end.
(** lines 51-59 and the defaults of powerflowsettings.py:2-14 *)
Definition settings_of (o : options) : pf_settings :=
  {| pf_nr := {| set_tolerance := 1 / 100000; set_max_iters := 50; set_debug := op_debug o |}; pf_limiting := false; pf_flat := false;
     pf_tx_stepping := op_tx_stepping o; pf_device_control := true |}.
(** lines 63-64; L2infeasibility.py:8-9 *)
Definition analysis (o : options) : option bool := if op_infeasibility o then Some false else None.

(** network.loads: what the file gives them to draw, and their names as far as anything reads them *)
Definition loads_of (r : Loader.network) : list TimeSeries.tload :=
  match r with
  | Three n => map (fun l => {| TimeSeries.tl_num := tl_name l; TimeSeries.tl_phase := tl_phase l; TimeSeries.tl_triplex := tl_triplex l;
                                TimeSeries.tl_P := tl_p l; TimeSeries.tl_Q := tl_q l |}) (nt_loads n)
  | Single o => map (fun l => {| TimeSeries.tl_num := ""; TimeSeries.tl_phase := ""; TimeSeries.tl_triplex := None;
                                 TimeSeries.tl_P := ld_P (snd l); TimeSeries.tl_Q := ld_Q (snd l) |}) (n_loads o)
  end.
(** modify_load_factor, loadfactor.py:3-6, called in line 66 *)
Definition scale_by (f : R) (l : TimeSeries.tload) : TimeSeries.tload := TimeSeries.set_power l (TimeSeries.tl_P l * f, TimeSeries.tl_Q l * f).
(** the network whose loads are these *)
Definition set_load (p : R * R) (e : elem) : elem :=
  match e with
  | ELoad l f t => ELoad {| ld_P := fst p; ld_Q := snd p; ld_Zr := ld_Zr l; ld_Zi := ld_Zi l; ld_IP := ld_IP l; ld_IQ := ld_IQ l |} f t
  | _ => e
  end.
Fixpoint set_loads (ps : list (R * R)) (es : list elem) : list elem :=
  match ps, es with
  | p :: ps, e :: es => set_load p e :: set_loads ps es
  | _, _ => es
  end.
Definition with_loads (nw : Network.network) (es : list elem) : Network.network :=
  {| nw_three_phase := nw_three_phase nw; nw_buses := nw_buses nw; nw_lines := nw_lines nw; nw_transformers := nw_transformers nw;
     nw_slack := nw_slack nw; nw_switches := nw_switches nw; nw_generators := nw_generators nw; nw_loads := es; nw_misc := nw_misc nw;
     nw_sources := nw_sources nw; nw_shunts := nw_shunts nw; nw_regulators := nw_regulators nw; nw_fuses := nw_fuses nw;
     nw_capacitors := nw_capacitors nw; nw_optimization := nw_optimization nw |}.
Definition with_powers (ls : list TimeSeries.tload) (nw : Network.network) : Network.network :=
  with_loads nw (set_loads (map TimeSeries.power_of ls) (nw_loads nw)).

Section Command.
Variables (So : Type) (T : tools) (W : world) (nm : Z -> nat).
Variable spsolve : So -> list (nat * nat * R) -> list R -> So * option (list R).
Variables (nan : R) (old : table) (visit : list nat -> list nat).
Let result : Type := @pf_result So.
(** results of the later power flows and generator outputs of a result *)
Variable later : nat -> list TimeSeries.tload -> option result.
Variable outputs : result -> list TimeSeries.gout.

(** PowerFlow.execute as the rest of main sees it: a result or an exception *)
Definition returned (r : result) : option result := match r with PFDone _ _ _ _ _ _ _ => Some r | _ => None end.
Definition power_flows (o : options) (r : Loader.network) (nw : Network.network) (so : So) (k : nat) (ls : list TimeSeries.tload) : option result :=
  match k with
  | O => returned (execute (solver_details nm r) spsolve nan (settings_of o) old visit (with_powers ls nw) so)
  | S k => later k ls
  end.
(** lines 61-97 *)
Definition command (fuel : nat) (o : options) (so : So) : pres (TimeSeries.outcome (TimeSeries.report result)) :=
  do r <- from_file T W (op_case o);
  do nw <- solver_network (analysis o) r;
  Ok (TimeSeries.main result outputs (power_flows o r nw so) (op_swing o) (op_negatives o) fuel (nw_three_phase nw) (op_series o)
        (0%nat, map (scale_by (factor o)) (loads_of r))).
End Command.
