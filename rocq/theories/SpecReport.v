(** Specification side of C154: what the result files of a case say. *)
From Coq Require Import Reals ZArith String Ascii List Bool Arith.
From Verif Require Import SpecSystem Components SpecComponents Network SpecKirchhoff Solver PowerFlow ThreePhase RawParser Loader Output SpecOutput.
Import ListNotations.
Local Open Scope R_scope.
Local Open Scope string_scope.

(** lines of a bus and of a load *)
Definition voltage_line (num : Z) (name phase : string) (V : C) (row : string) : Prop :=
  exists n m a, split comma row = [n; name ++ ":" ++ phase; m; a] /\ integer n num /\ shows_voltage V m a.
Definition power_line (name : string) (S : C) (row : string) : Prop :=
  exists p q, split comma row = [name; "PQ"; p; q] /\ shows 2 (fst S) p /\ shows 2 (snd S) q.
(** the name of the bus something is connected to *)
Definition at_bus (n : net) (b : bref) (name : string) : Prop :=
  b = None /\ name = "Gnd" \/ exists c, In c (nt_buses n) /\ b = Some (tb_id c) /\ name = tb_name c.

Section Label.
Variable label : Z -> string * string.
(** no comma and no line end in the names *)
Definition names_plain (r : Loader.network) : Prop :=
  match r with
  | Three n => forall b, In b (nt_buses n) -> plain (tb_name b) /\ plain (tb_phase b)
  | Single o => (forall b, In b (n_buses o) -> plain (fst (label (RawParser.ob_num b))) /\ plain (snd (label (RawParser.ob_num b)))) /\
                forall l, In l (n_loads o) -> plain (fst (label (fst l)))
  end.
(** a line for each bus but the interior ones, in the order of the case, and nothing else *)
Definition shows_voltages (r : Loader.network) (V : bref -> C) (violates : bool) (text : string) : Prop :=
  exists rows last, split line_end text = ("bus,name,v_magnitude,v_ang_degrees" :: rows ++ [last])%list /\ last_line violates last /\
    match r with
    | Three n => Forall2 (fun row b => voltage_line (Z.of_nat (tb_id b)) (tb_name b) (tb_phase b) (V (Some (tb_id b))) row)
                   rows (filter (fun b : tbus => negb (tb_virtual b)) (nt_buses n))
    | Single o => List.length rows = List.length (n_buses o) /\ forall k row b, nth_error rows k = Some row -> nth_error (n_buses o) k = Some b ->
                    voltage_line (RawParser.ob_num b) (fst (label (RawParser.ob_num b))) (snd (label (RawParser.ob_num b))) (V (Some k)) row
    end.
(** after the lines of the generators, of which there are [gens], a line for each load with [f] times the constant power of the case *)
Definition shows_powers (r : Loader.network) (f : R) (gens : nat) (text : string) : Prop :=
  exists gs rows, split line_end text = ("bus,name,P(MW),Q(MVar)" :: gs ++ rows ++ [""])%list /\ List.length gs = gens /\
    match r with
    | Three n => Forall2 (fun row l => exists name, at_bus n (tl_from l) name /\ power_line name (Cscale f (tl_p l, tl_q l)) row) rows (nt_loads n)
    | Single o => Forall2 (fun row l => power_line (fst (label (fst l))) (Cscale f (ld_P (snd l), ld_Q (snd l))) row) rows (n_loads o)
    end.
End Label.
(** generators, slacks and, with infeasibility analysis, currents at the buses *)
Definition sources (nw : Network.network) : nat :=
  (List.length (nw_generators nw) + List.length (nw_slack nw) + match nw_optimization nw with Some _ => List.length (nw_buses nw) | None => 0 end)%nat.
(** the files of one hour of a series *)
Definition hour_says (label : Z -> string * string) (old : table) (r : Loader.network) (nw : Network.network) {So} (p : string) (d : disk) (h : Z) (res : @pf_result So) : Prop :=
  forall ok v it tx rd ds so', res = PFDone ok v it tx rd ds so' -> exists tv tp vi, d ((p ++ "_" ++ show_int h) ++ "_voltage.csv") = Some tv /\ d ((p ++ "_" ++ show_int h) ++ "_power.csv") = Some tp /\
    (ok = false -> tv = "FAILURE" /\ tp = "FAILURE") /\
    (ok = true -> names_plain label r -> shows_voltages label r (voltages (assign_matrix old nw) (vec v)) vi tv).
(** all files but those of the hours from a to b are the same *)
Definition other_files (p : string) (a b : Z) (d d' : disk) : Prop :=
  forall g, (forall h, (a <= h < b)%Z -> g <> (p ++ "_" ++ show_int h) ++ "_voltage.csv" /\ g <> (p ++ "_" ++ show_int h) ++ "_power.csv") -> d' g = d g.
