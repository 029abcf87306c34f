(** Model of the result files: src/logic/powerflowresults.py:34-36 (rows of generators), 43-58 and 70-73 (rows of buses), 88-90 (rows of loads),
    118-147 (which results there are), 251-283 (the two files), 299-305 (files of a series) and src/logic/network/timeseriesprocessor.py:216-221.

    Simplifications: exact reals, so no negative zero, infinity or nan; creating directories and failing to open a file are left out;
    the text of a path is taken as it stands. *)
From Coq Require Import Reals ZArith String Ascii List Bool.
From Verif Require Import PyExc Results TimeSeries.
Import ListNotations.
Local Open Scope R_scope.
Local Open Scope string_scope.

Definition newline : string := String "010" "".
(** *** numbers as texts *)
Definition digit (d : Z) : string := String (ascii_of_nat (48 + Z.to_nat d)) "".
(** the last k digits of n *)
Fixpoint last_digits (k : nat) (n : Z) : string :=
  match k with O => "" | S k => last_digits k (n / 10)%Z ++ digit (n mod 10)%Z end.
Fixpoint show_fuel (fuel : nat) (n : Z) : string :=
  match fuel with
  | O => ""
  | S fuel => if (n <? 10)%Z then digit n else show_fuel fuel (n / 10)%Z ++ digit (n mod 10)%Z
  end.
(** str of an integer *)
Definition show_nonneg (n : Z) : string := show_fuel (S (Z.to_nat (Z.log2 n))) n.
Definition show_int (n : Z) : string := if (n <? 0)%Z then "-" ++ show_nonneg (- n) else show_nonneg n.
(** nearest integer of y >= 0, ties to even *)
Definition round_even (y : R) : Z :=
  let f := Int_part y in
  if rltb (y - IZR f) (1 / 2) then f else if rltb (1 / 2) (y - IZR f) then (f + 1)%Z else if Z.even f then f else (f + 1)%Z.
(** "{:.kf}".format(x) *)
Definition fixed (k : nat) (x : R) : string :=
  let n := round_even (Rabs x * 10 ^ k) in
  let p := (10 ^ Z.of_nat k)%Z in
  (if rltb x 0 then "-" else "") ++ show_nonneg (n / p)%Z ++ "." ++ last_digits k (n mod p)%Z.

(** *** rows *)
Record obus := { ob_num : Z; ob_name : string; ob_phase : string; ob_virtual : bool; ob_V : nat * nat }.
(** powerflowresults.py:43-58 and 70-73 *)
Definition degrees_of (vr vi : R) : R := if rltb (Results.modulus (vr, vi)) (1 / 100000000) then 0 else atan2 vi vr * 180 / PI.
Definition bus_row (v : nat -> R) (b : obus) : string :=
  let vr := v (fst (ob_V b)) in let vi := v (snd (ob_V b)) in
  show_int (ob_num b) ++ "," ++ (ob_name b ++ ":" ++ ob_phase b) ++ "," ++ fixed 3 (Results.modulus (vr, vi)) ++ "," ++ fixed 3 (degrees_of vr vi) ++ newline.
Definition type_name (t : gentype) : string := match t with PV => "PV" | Slack => "Slack" | Inf => "Inf" end.
(** 34-36; [n] is the number of the bus *)
Definition gen_row (n : Z) (g : gen_result) : string :=
  show_int n ++ "," ++ type_name (gr_type g) ++ "," ++ fixed 2 (gr_P g) ++ "," ++ fixed 2 (gr_Q g) ++ newline.
(** 88-90 *)
Record oload := { ol_node : string; ol_P : R; ol_Q : R }.
Definition load_row (l : oload) : string := ol_node l ++ "," ++ "PQ" ++ "," ++ fixed 2 (ol_P l) ++ "," ++ fixed 2 (ol_Q l) ++ newline.

(** *** files *)
Record result := {
  or_success : bool;
  or_violates : bool;                         (** the attribute violates_equipment_ratings exists and is true *)
  or_v : nat -> R;
  or_buses : list obus;
  or_gens : list (Z * rgen);                  (** with the numbers of their buses *)
  or_slacks : list (Z * rslack);
  or_inf : option (list (Z * rinf));
  or_loads : list oload
}.
(** 118-187 *)
Definition shown_buses (r : result) : list obus := filter (fun b => negb (ob_virtual b)) (or_buses r).
Definition shown_gens (r : result) : list (Z * gen_result) :=
  (map (fun g => (fst g, gen_res (or_v r) (snd g))) (or_gens r) ++ map (fun s => (fst s, slack_res (or_v r) (snd s))) (or_slacks r)
  ++ match or_inf r with Some l => map (fun i => (fst i, inf_res (or_v r) (snd i))) l | None => [] end)%list.
Definition trailer (r : result) : string := if or_violates r then "VIOLATED EQUIPMENT RATINGS" else "".
Definition glue (l : list string) : string := fold_right append "" l.
(** 260-268 *)
Definition voltage_file (r : result) : string :=
  if or_success r then "bus,name,v_magnitude,v_ang_degrees" ++ newline ++ glue (map (bus_row (or_v r)) (shown_buses r)) ++ trailer r else "FAILURE".
(** 272-283 *)
Definition power_file (r : result) : string :=
  if or_success r
  then "bus,name,P(MW),Q(MVar)" ++ newline ++ glue (map (fun g => gen_row (fst g) (snd g)) (shown_gens r)) ++ glue (map load_row (or_loads r)) ++ trailer r
  else "FAILURE".
(** files by path *)
Definition disk := string -> option string.
Definition write (path text : string) (d : disk) : disk := fun p => if String.eqb p path then Some text else d p.
(** output, 251-283 *)
Definition output (path : string) (r : result) (d : disk) : disk :=
  if String.eqb path "" then d else write (path ++ "_power.csv") (power_file r) (write (path ++ "_voltage.csv") (voltage_file r) d).
(** timeseriesprocessor.py:216-221, the results of the hours being given *)
Definition output_series (path : option string) (rs : list (Z * result)) (d : disk) : disk :=
  match path with
  | None => d
  | Some p => fold_left (fun d hr => output (p ++ "_" ++ show_int (fst hr)) (snd hr) d) rs d
  end.
