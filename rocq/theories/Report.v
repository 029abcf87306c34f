(** Model of the files a run of the command leaves behind: the results main hands to PowerFlowResults.output (src/run_solver.py:70-97,
    src/logic/network/timeseriesprocessor.py:209-223), with PowerFlowResults made from the network and the solution
    (src/logic/powerflowresults.py:92-187).  Continues Command.v and Output.v.

    Simplifications: names of RAW buses are a parameter, as in SolverNet.v; so is the rating check of a snapshot (C52), which is taken
    not to raise; a slack, generator or load on GROUND has number 0, Python prints None. *)
From Coq Require Import Reals ZArith String List Bool Arith.
From Verif Require Import PyExc Components Network Solver Devices PowerFlow ThreePhase RawParser Loader SolverNet Command.
From Verif Require TimeSeries Results Output.
Import ListNotations.
Local Open Scope R_scope.

Section Report.
(** NodeName and NodePhase of a RAW bus, data_classes.py:69 and bus.py:27-28 *)
Variable label : Z -> string * string.

(** node_Vr and node_Vi of a bus *)
Definition indexes (a : assigned) (k : nat) : nat * nat := let n := as_table a k in (PowerFlow.or0 (n_Vr n), PowerFlow.or0 (n_Vi n)).
(** network.buses as far as csv_string reads them, powerflowresults.py:118-136 *)
Definition buses_of (a : assigned) (r : Loader.network) : list Output.obus :=
  match r with
  | Three n => map (fun b => {| Output.ob_num := Z.of_nat (tb_id b); Output.ob_name := tb_name b; Output.ob_phase := tb_phase b;
                                Output.ob_virtual := tb_virtual b; Output.ob_V := indexes a (tb_id b) |}) (nt_buses n)
  | Single o => map (fun kb => let l := label (ob_num (snd kb)) in
                      {| Output.ob_num := ob_num (snd kb); Output.ob_name := fst l; Output.ob_phase := snd l;
                         Output.ob_virtual := false; Output.ob_V := indexes a (fst kb) |}) (number 0 (n_buses o))
  end.
(** bus.Bus and NodeName of the bus an element is connected to; GROUND is bus.py:90 *)
Definition number_at (r : Loader.network) (b : bref) : Z :=
  match b, r with
  | None, _ => 0%Z
  | Some k, Three n => Z.of_nat k
  | Some k, Single o => match nth_error (n_buses o) k with Some b => ob_num b | None => 0%Z end
  end.
Definition name_at (n : net) (b : bref) : string :=
  match b with
  | None => "Gnd"%string
  | Some k => match find (fun c => Nat.eqb (tb_id c) k) (nt_buses n) with Some c => tb_name c | None => ""%string end
  end.
(** 144-148 *)
Definition load_of (node : string) (p : R * R) : Output.oload := {| Output.ol_node := node; Output.ol_P := fst p; Output.ol_Q := snd p |}.
Definition nodes_of (r : Loader.network) : list string :=
  match r with
  | Three n => map (fun l => name_at n (tl_from l)) (nt_loads n)
  | Single o => map (fun l => fst (label (fst l))) (n_loads o)
  end.
Definition loads_shown (r : Loader.network) (ls : list TimeSeries.tload) : list Output.oload :=
  map (fun x => load_of (fst x) (TimeSeries.power_of (snd x))) (combine (nodes_of r) ls).
(** 138-142; generator.P, generator.py:54, and get_Q_index, 76-77 *)
Definition gens_of (a : assigned) (r : Loader.network) (nw : Network.network) : list (Z * Results.rgen) :=
  map (fun x => (number_at r (gen_bus (fst x)), {| Results.rg_P := - gen_P (fst x); Results.rg_Q := PowerFlow.or0 (index_in (snd x) "Q"%string) |}))
      (stampers_of (nw_generators nw) (generators_at nw) a).
(** 150-157; slack.py:59-63 *)
Definition slacks_of (a : assigned) (r : Loader.network) (nw : Network.network) : list (Z * Results.rslack) :=
  map (fun x => (number_at r (Network.sl_bus (fst x)),
                 {| Results.rs_bus := match Network.sl_bus (fst x) with Some k => indexes a k | None => (0, 0)%nat end;
                    Results.rs_I := (PowerFlow.or0 (index_in (snd x) "I_Sr"%string), PowerFlow.or0 (index_in (snd x) "I_Si"%string)) |}))
      (stampers_of (nw_slack nw) (slack_at nw) a).
(** 163-187; one current for each bus, L2infeasibility.py:8-9 *)
Definition infeasible_of (a : assigned) (r : Loader.network) (nw : Network.network) : option (list (Z * Results.rinf)) :=
  match nw_optimization nw with
  | None => None
  | Some l1 => Some (map (fun x => let i y := PowerFlow.or0 (index_in (snd x) y) in let v := indexes a (bus_id (fst x)) in
      (number_at r (Some (bus_id (fst x))),
       if l1 then Results.RL1 v (i "Iir_plus", i "Iii_plus")%string (i "Iir_minus", i "Iii_minus")%string else Results.RL2 v (i "Iir", i "Iii")%string))
      (combine (nw_buses nw) (as_infeasibility a)))
  end.

Context {So : Type}.
Variables (old : table) (r : Loader.network) (nw : Network.network).
(** PowerFlowResults of a power flow with these loads; an exception has none *)
Definition results (violates : bool) (ls : list TimeSeries.tload) (res : @pf_result So) : option Output.result :=
  match res with
  | PFDone ok v _ _ _ ds _ =>
      let nw := with_devices (with_powers ls nw) ds in let a := assign_matrix old nw in
      Some {| Output.or_success := ok; Output.or_violates := violates; Output.or_v := vec v; Output.or_buses := buses_of a r;
              Output.or_gens := gens_of a r nw; Output.or_slacks := slacks_of a r nw; Output.or_inf := infeasible_of a r nw;
              Output.or_loads := loads_shown r ls |}
  | _ => None
  end.

(** timeseriesprocessor.py:216-221: hours whose power flow has returned, with the loads it was run on, also if a later hour raises *)
Section Hours.
Variable outputs : @pf_result So -> list TimeSeries.gout.
Variable solve : nat -> list TimeSeries.tload -> option (@pf_result So).
Variables (swing : option string) (negatives : option (list string)) (fuel : nat).
Fixpoint hours_run (names : string -> option nat) (cols : list TimeSeries.column) (hours : list Z) (st : TimeSeries.state) : list (Z * (list TimeSeries.tload * @pf_result So)) :=
  match hours with
  | [] => []
  | h :: hours =>
      match TimeSeries.execute_powerflow _ outputs solve swing negatives fuel (fst st, TimeSeries.set_load_values names cols h (snd st)) with
      | TimeSeries.Done st s => (h, (snd st, s)) :: hours_run names cols hours st
      | _ => []
      end
  end.
End Hours.
End Report.

Section Files.
Variable label : Z -> string * string.
Variables (So : Type) (T : tools) (W : world) (nm : Z -> nat).
Variable spsolve : So -> list (nat * nat * R) -> list R -> So * option (list R).
Variables (nan : R) (old : table) (visit : list nat -> list nat).
Variable later : nat -> list TimeSeries.tload -> option (@pf_result So).
Variable outputs : @pf_result So -> list TimeSeries.gout.
(** violates_equipment_ratings of a snapshot *)
Variable rated : list TimeSeries.tload -> @pf_result So -> bool.

(** powerflowresults.py:251-253: no path, or an empty one, writes nothing *)
Definition put_file (path : option string) (r : option Output.result) (d : Output.disk) : Output.disk :=
  match path, r with Some p, Some r => Output.output p r d | _, _ => d end.
(** execute_powerflow sets the attribute only after a success, timeseriesprocessor.py:231-232 *)
Definition is_success (res : @pf_result So) : bool := match res with PFDone ok _ _ _ _ _ _ => ok | _ => false end.
Definition put_hours (path : option string) (r : Loader.network) (nw : Network.network) (rs : list (Z * (list TimeSeries.tload * @pf_result So))) (d : Output.disk) : Output.disk :=
  fold_left (fun d x => match path, results label old r nw (is_success (snd (snd x)) && rated (fst (snd x)) (snd (snd x))) (fst (snd x)) (snd (snd x)) with
                        | Some p, Some o => Output.output (p ++ "_" ++ Output.show_int (fst x))%string o d
                        | _, _ => d
                        end) rs d.
(** run_solver.py:61-97: the disk after a run that ends; [None] while it does not *)
Definition files (fuel : nat) (o : options) (path : option string) (so : So) (d : Output.disk) : pres (option Output.disk) :=
  do r <- from_file T W (op_case o);
  do nw <- solver_network (analysis o) r;
  let solve := power_flows So nm spsolve nan old visit later o r nw so in
  let st := (0%nat, map (scale_by (factor o)) (loads_of r)) in
  let s := op_series o in
  let d := match TimeSeries.ta_file s with
           | TimeSeries.File cols =>
               if nw_three_phase nw
               then put_hours path r nw (hours_run outputs solve (op_swing o) (op_negatives o) fuel (TimeSeries.named (snd st)) cols
                      (TimeSeries.py_range (TimeSeries.or_zero (TimeSeries.ta_start s)) (TimeSeries.or_zero (TimeSeries.ta_end s))) st) d
               else d
           | _ => d
           end in
  Ok match TimeSeries.process _ outputs solve (op_swing o) (op_negatives o) fuel (nw_three_phase nw) s st with
     | TimeSeries.Done st (Some _) => Some d
     | TimeSeries.Done st None | TimeSeries.Raised st =>
         match TimeSeries.power_flow _ solve st with
         | TimeSeries.Done st res => Some (put_file path (results label old r nw false (snd st) res) d)
         | _ => Some d
         end
     | TimeSeries.Looping => None
     end.
End Files.
