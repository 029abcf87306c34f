(** Model of src/logic/network/timeseriesprocessor.py:125-175, 209-244 (load names, load values, generator adjustment, series),
    of src/logic/network/timeseriessettings.py:14-15 and of the flow of src/run_solver.py:70-99.

    Simplifications: numbers are exact (so there is no signed zero and no NaN); characters are ASCII; a load is its number,
    phases and P, Q; one power flow is an oracle that may depend on how many were run before; printing and writing of results,
    equipment checks (Results.v) and the selection of an island (Island.v) are left out. *)
From Coq Require Import String Ascii List Bool Arith ZArith Reals.
Import ListNotations.
Local Open Scope R_scope.

Record tload := { tl_num : string; tl_phase : string; tl_triplex : option string; tl_P : R; tl_Q : R }.
Definition set_power (l : tload) (s : R * R) : tload :=
  {| tl_num := tl_num l; tl_phase := tl_phase l; tl_triplex := tl_triplex l; tl_P := fst s; tl_Q := snd s |}.
Definition power_of (l : tload) : R * R := (tl_P l, tl_Q l).

(** *** names, lines 130-137 *)
Definition is_alpha_char (c : ascii) : bool :=
  let n := nat_of_ascii c in (Nat.leb 65 n && Nat.leb n 90) || (Nat.leb 97 n && Nat.leb n 122).
Definition is_digit_char (c : ascii) : bool := let n := nat_of_ascii c in Nat.leb 48 n && Nat.leb n 57.
Fixpoint all_chars (p : ascii -> bool) (s : string) : bool := match s with EmptyString => true | String c s => p c && all_chars p s end.
(** str.isalpha and str.isnumeric are false for the empty string *)
Definition isalpha (s : string) : bool := negb (String.eqb s "") && all_chars is_alpha_char s.
Definition isnumeric (s : string) : bool := negb (String.eqb s "") && all_chars is_digit_char s.
Definition first_char (s : string) : string := match s with EmptyString => "" | String c _ => String c "" end.
Definition load_name (l : tload) : string :=
  if isalpha (tl_phase l) then "cl_" ++ tl_num l ++ tl_phase l
  else if isnumeric (tl_phase l) then "rl_" ++ tl_num l ++ "_" ++ first_char (tl_phase l)
  else tl_num l ++ "_" ++ tl_phase l.
(** the index of the last load with a property: what a dict filled in order holds *)
Fixpoint last_index {A} (p : A -> bool) (l : list A) : option nat :=
  match l with
  | [] => None
  | x :: l => match last_index p l with Some i => Some (S i) | None => if p x then Some O else None end
  end.
(** set_load_names, 125-128: the name map after all loads are entered *)
Definition named (loads : list tload) (name : string) : option nat := last_index (fun l => String.eqb (load_name l) name) loads.

(** *** load values, lines 139-156 *)
Definition atan2 (y x : R) : R :=
  if Rlt_dec 0 x then atan (y / x)
  else if Rlt_dec x 0 then (if Rle_dec 0 y then atan (y / x) + PI else atan (y / x) - PI)
  else if Rlt_dec 0 y then PI / 2 else if Rlt_dec y 0 then - (PI / 2) else 0.
(** lines 154-156 *)
Definition apply_magnitude (s : R * R) (m : R) : R * R := let a := atan2 (snd s) (fst s) in (m * cos a, m * sin a).
Fixpoint update {A} (i : nat) (f : A -> A) (l : list A) : list A :=
  match l, i with [], _ => [] | x :: l, O => f x :: l | x :: l, S i => x :: update i f l end.
(** a column of the load file: its name and its values by hour *)
Definition column : Type := string * (Z -> option R).
Definition set_column (names : string -> option nat) (hour : Z) (loads : list tload) (c : column) : list tload :=
  match names (fst c) with
  | None => loads
  | Some i => match snd c hour with None => loads | Some m => update i (fun l => set_power l (apply_magnitude (power_of l) m)) loads end
  end.
Definition set_load_values (names : string -> option nat) (cols : list column) (hour : Z) (loads : list tload) : list tload :=
  fold_left (set_column names hour) cols loads.

(** *** generator adjustment, lines 159-175 *)
(** name.split("_")[-1] *)
Fixpoint last_part (s acc : string) : string :=
  match s with EmptyString => acc | String c s => if Ascii.eqb c "_" then last_part s "" else last_part s (acc ++ String c "") end.
(** an entry of generator_results: bus name, bus phase, P, Q *)
Record gout := { go_name : string; go_phase : string; go_P : R; go_Q : R }.
Definition swing_outputs (swing : string) (gs : list gout) : list gout := filter (fun g => String.eqb (go_name g) swing) gs.
Definition modulus (p q : R) : R := sqrt (p * p + q * q).
Definition total_output (gs : list gout) : R := fold_right (fun g s => modulus (go_P g) (go_Q g) + s) 0 gs.
Definition load_key (l : tload) : string := match tl_triplex l with None => tl_phase l | Some t => t end.
(** the negative load a phase is booked to *)
Definition negative_load (nums : list string) (loads : list tload) (phase : string) : option nat :=
  last_index (fun l => existsb (String.eqb (tl_num l)) nums && String.eqb (load_key l) phase) loads.
Definition add_output (g : gout) (l : tload) : tload := set_power l (tl_P l + go_P g, tl_Q l + go_Q g).
(** the loop 171-174; false: KeyError, with what was booked before *)
Fixpoint book (pick : string -> option nat) (gs : list gout) (loads : list tload) : bool * list tload :=
  match gs with
  | [] => (true, loads)
  | g :: gs => match pick (go_phase g) with None => (false, loads) | Some i => book pick gs (update i (add_output g) loads) end
  end.
Inductive adjusted := Settled | Again (loads : list tload) | KeyError (loads : list tload).
Definition adjust (swing : option string) (negatives : option (list string)) (gs : list gout) (loads : list tload) : adjusted :=
  match swing, negatives with
  | Some s, Some ns =>
      let outs := swing_outputs s gs in
      if Rlt_dec (total_output outs) (1 / 10) then Settled
      else let nums := map (fun n => last_part n "") ns in
           match book (negative_load nums loads) outs loads with (true, r) => Again r | (false, r) => KeyError r end
  | _, _ => Settled
  end.

(** *** running, lines 209-244 *)
Section Run.
Variable snap : Type.
Variable gens : snap -> list gout.
(** PowerFlow.execute: number of earlier calls and loads to a snapshot; None when it raises *)
Variable solve : nat -> list tload -> option snap.
(** state: number of power flows run, loads *)
Definition state : Type := nat * list tload.
Inductive outcome (A : Type) := Done (st : state) (a : A) | Raised (st : state) | Looping.
Arguments Done {A}. Arguments Raised {A}. Arguments Looping {A}.
Definition power_flow (st : state) : outcome snap :=
  match solve (fst st) (snd st) with Some s => Done (S (fst st), snd st) s | None => Raised (S (fst st), snd st) end.
Variable swing : option string.
Variable negatives : option (list string).
(** the while loop of execute_powerflow, 229-230, cut off after [fuel] passes *)
Fixpoint adjust_loop (fuel : nat) (st : state) (s : snap) : outcome snap :=
  match adjust swing negatives (gens s) (snd st) with
  | Settled => Done st s
  | KeyError l => Raised (fst st, l)
  | Again l => match fuel with
               | O => Looping
               | S fuel => match power_flow (fst st, l) with Done st s => adjust_loop fuel st s | Raised st => Raised st | Looping => Looping end
               end
  end.
Definition execute_powerflow (fuel : nat) (st : state) : outcome snap :=
  match power_flow st with Done st s => adjust_loop fuel st s | Raised st => Raised st | Looping => Looping end.
(** the loop of execute_quasi_time_series, 215-221 *)
Fixpoint run_hours (fuel : nat) (names : string -> option nat) (cols : list column) (hours : list Z) (st : state) : outcome (list (Z * snap)) :=
  match hours with
  | [] => Done st []
  | h :: hours =>
      match execute_powerflow fuel (fst st, set_load_values names cols h (snd st)) with
      | Done st s => match run_hours fuel names cols hours st with Done st r => Done st ((h, s) :: r) | Raised st => Raised st | Looping => Looping end
      | Raised st => Raised st
      | Looping => Looping
      end
  end.
Definition py_range (a b : Z) : list Z := map (fun i => (a + Z.of_nat i)%Z) (seq 0 (Z.to_nat (b - a))).
(** timeseriessettings.py:14-15 *)
Definition or_zero (x : option Z) : Z := match x with Some z => z | None => 0%Z end.
Inductive loadfile := NoFile | Missing | File (cols : list column).
Record ts_args := { ta_file : loadfile; ta_start : option Z; ta_end : option Z }.
Inductive report := Single (s : snap) | Series (r : list (Z * snap)).
(** TimeSeriesProcessor(...) and execute, 20-26 and 236-244; read_csv raises for a missing file *)
Definition process (fuel : nat) (three_phase : bool) (a : ts_args) (st : state) : outcome (option report) :=
  match ta_file a with
  | Missing => Raised st
  | NoFile => if three_phase then
                match swing with
                | Some _ => match execute_powerflow fuel st with Done st s => Done st (Some (Single s)) | Raised st => Raised st | Looping => Looping end
                | None => Done st None
                end
              else Raised st
  | File cols => if three_phase then
                   match run_hours fuel (named (snd st)) cols (py_range (or_zero (ta_start a)) (or_zero (ta_end a))) st with
                   | Done st r => Done st (Some (Series r)) | Raised st => Raised st | Looping => Looping end
                 else Raised st
  end.
(** run_solver.py:70-99: what is reported; Raised when the last power flow raises *)
Definition main (fuel : nat) (three_phase : bool) (a : ts_args) (st : state) : outcome report :=
  match process fuel three_phase a st with
  | Done st (Some r) => Done st r
  | Done st None | Raised st => match power_flow st with Done st s => Done st (Single s) | Raised st => Raised st | Looping => Looping end
  | Looping => Looping
  end.
End Run.
Arguments Done {A}. Arguments Raised {A}. Arguments Looping {A}. Arguments Single {snap}. Arguments Series {snap}.
