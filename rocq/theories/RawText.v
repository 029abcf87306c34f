(** Model of src/logic/network/parsers/raw/Data.py: from the lines of a RAW file to the tables RawParser.v works on.

    Simplifications.  Characters are 8-bit; the lines are given without their line ends.  int() and float() of a
    token are the parameters [to_int] and [to_float]; floats are reals.  When several fields of one record are
    unusable, the exception may be that of another field, as the fields nothing reads later (names, areas,
    owners, ...) are only checked.  The bus numbers of a two-winding transformer stay texts in Data.py and are
    converted by data_classes.py:355-356; here they are converted when the record is read.  Revisions other than
    30, 32, 33 and 34, on which parser.py fails later, are rejected at once.  A dictionary is an association list;
    its keys are lists of numbers and texts. *)
From Coq Require Import Reals ZArith String Ascii List Bool.
From Verif Require Import PyExc Components RawTransformers RawParser GlmText.
Import ListNotations.
Local Open Scope string_scope.
Set Implicit Arguments.

(** *** csv.reader with quotechar ' and skipinitialspace, 298-311, one character at a time (CPython's _csv.c) *)
Inductive csv_mode := StartField | InField | InQuoted | QuoteInQuoted.
Record csv_state := { cs_mode : csv_mode; cs_field : string; cs_row : list string }.
Definition new_record : csv_state := {| cs_mode := StartField; cs_field := ""; cs_row := [] |}.
Definition go_mode (s : csv_state) (m : csv_mode) : csv_state := {| cs_mode := m; cs_field := cs_field s; cs_row := cs_row s |}.
Definition add_char (s : csv_state) (m : csv_mode) (c : ascii) : csv_state :=
  {| cs_mode := m; cs_field := cs_field s ++ String c ""; cs_row := cs_row s |}.
Definition save_field (s : csv_state) : csv_state :=
  {| cs_mode := StartField; cs_field := ""; cs_row := (cs_row s ++ [cs_field s])%list |}.
Definition csv_char (delim : ascii) (s : csv_state) (c : ascii) : csv_state :=
  match cs_mode s with
  | StartField => if Ascii.eqb c "'" then go_mode s InQuoted
                  else if Ascii.eqb c " " then s
                  else if Ascii.eqb c delim then save_field s
                  else add_char s InField c
  | InField => if Ascii.eqb c delim then save_field s else add_char s InField c
  | InQuoted => if Ascii.eqb c "'" then go_mode s QuoteInQuoted else add_char s InQuoted c
  | QuoteInQuoted => if Ascii.eqb c "'" then add_char s InQuoted c
                     else if Ascii.eqb c delim then save_field s
                     else add_char s InField c
  end.
Fixpoint csv_chars (delim : ascii) (s : csv_state) (l : string) : csv_state :=
  match l with "" => s | String c l => csv_chars delim (csv_char delim s c) l end.
Definition newline : ascii := ascii_of_nat 10.
(** the rows of the file; an open quotation goes on in the next line, [s] is what has been read of it *)
Fixpoint csv_lines (delim : ascii) (s : option csv_state) (lines : list string) : list (list string) :=
  match lines with
  | [] => match s with Some s => [cs_row (save_field s)] | None => [] end
  | l :: lines =>
      match s, l with
      | None, "" => [] :: csv_lines delim None lines
      | _, _ => let t := csv_chars delim (match s with Some s => s | None => new_record end) l in
                match cs_mode t with
                | InQuoted => csv_lines delim (Some (add_char t InQuoted newline)) lines
                | _ => cs_row (save_field t) :: csv_lines delim None lines
                end
      end
  end.
Fixpoint has_char (c : ascii) (s : string) : bool :=
  match s with "" => false | String d s => Ascii.eqb c d || has_char c s end.
(** find_delim, 290-295 *)
Definition find_delim (first : string) : ascii := if has_char "," first then ","%char else " "%char.
Definition row := list string.
(** 298-312 *)
Definition rows_of (lines : list string) : pres (list row) :=
  match lines with
  | [] => Err IndexError
  | l :: _ => Ok (map (map strip) (csv_lines (find_delim l) None lines))
  end.

(** *** tests on rows *)
Definition first_token (r : row) : pres string := match r with [] => Err IndexError | t :: _ => Ok t end.
(** rows[n][0][0] == '@' *)
Definition is_at (r : row) : pres bool :=
  do t <- first_token r;
  match t with "" => Err IndexError | String c _ => Ok (Ascii.eqb c "@") end.
(** row_is_file_end, 316-323: on an empty row row[0] raises *)
Definition file_end (r : row) : pres bool :=
  do t <- first_token r;
  Ok (match t with "" => true | String c _ => Ascii.eqb c "q" || Ascii.eqb c "Q" end)%bool.
(** remove_end_of_line_comment(s, ' /'), 137-143 *)
Fixpoint cut_blank_slash (s : string) : string :=
  match s with
  | "" => ""
  | String c r => match c, r with
                  | " "%char, String "/"%char _ => ""
                  | _, _ => String c (cut_blank_slash r)
                  end
  end.
(** row_is_section_end, 326-333 *)
Definition section_end (r : row) : bool := String.eqb (cut_blank_slash (join r)) "0".

(** *** fields *)
Section Text.
Variable to_int : string -> option Z.    (* int(t), None: ValueError *)
Variable to_float : string -> option R.  (* float(t) *)

Definition tok (r : row) (n : nat) : pres string := match nth_error r n with Some t => Ok t | None => Err IndexError end.
(** parse_token, 35-52 *)
Definition parse_token A (conv : string -> option A) (d : option A) (t : string) : pres A :=
  match t with
  | "" => match d with Some v => Ok v | None => Err Raised end
  | _ => match conv t with Some v => Ok v | None => Err ValueError end
  end.
Definition int_at (r : row) (n : nat) (d : option Z) : pres Z := do t <- tok r n; parse_token to_int d t.
Definition float_at (r : row) (n : nat) (d : option R) : pres R := do t <- tok r n; parse_token to_float d t.
Definition str_at (r : row) (n : nat) (d : option string) : pres string := do t <- tok r n; parse_token Some d t.
(** re.search(r'\d+', t).group(), with isIntFloat *)
Definition is_digit (c : ascii) : bool := (Nat.leb 48 (nat_of_ascii c) && Nat.leb (nat_of_ascii c) 57)%bool.
Fixpoint digit_run (s : string) : string :=
  match s with String c r => if is_digit c then String c (digit_run r) else "" | "" => "" end.
Fixpoint first_digits (s : string) : option string :=
  match s with "" => None | String c r => if is_digit c then Some (digit_run s) else first_digits r end.
(** a field that is read but not used later: its kind, and whether it may be empty *)
Inductive fkind := KInt | KFloat | KStr | KDigits.
Definition field := (nat * fkind * bool)%type.
Definition converts (k : fkind) (t : string) : pres unit :=
  match k with
  | KInt => match to_int t with Some _ => Ok tt | None => Err ValueError end
  | KFloat => match to_float t with Some _ => Ok tt | None => Err ValueError end
  | KStr => Ok tt
  | KDigits => match first_digits t with Some _ => Ok tt | None => Err AttributeError end
  end.
Definition check_field (r : row) (f : field) : pres unit :=
  let '(n, k, opt) := f in
  do t <- tok r n;
  match t with "" => if opt then Ok tt else Err Raised | _ => converts k t end.
Definition check_fields (r : row) (fs : list field) : pres unit := mfold (fun _ f => check_field r f) fs tt.
Definition opt_fields (k : fkind) (ns : list nat) : list field := map (fun n => (n, k, true)) ns.
(** pad_row, 55-78, with remove_end_of_line_comment_from_row, 118-135: every token is cut at its first slash *)
Definition cut_row (r : row) : row := map (cut_at "/") r.
Definition pad_row (r : row) (n : nat) : pres row := if Nat.ltb (List.length r) n then Err Raised else Ok (cut_row r).
(** row += [''] * diff, and make_full_row, 81-88 *)
Definition fill_row (r : row) (n : nat) : row := (r ++ repeat "" (n - List.length r))%list.

(** *** dictionaries *)
Inductive katom := KI (n : Z) | KS (s : string) | KNone.
Definition key := list katom.
Definition atom_eqb (a b : katom) : bool :=
  match a, b with KI m, KI n => Z.eqb m n | KS s, KS t => String.eqb s t | KNone, KNone => true | _, _ => false end.
Fixpoint key_eqb (a b : key) : bool :=
  match a, b with
  | [], [] => true
  | x :: a, y :: b => (atom_eqb x y && key_eqb a b)%bool
  | _, _ => false
  end.
Definition table A := list (key * A).
Fixpoint put A (k : key) (v : A) (d : table A) : table A :=
  match d with
  | [] => [(k, v)]
  | (k', v') :: d => if key_eqb k k' then (k', v) :: d else (k', v') :: put k v d
  end.
(** sorted(d.values(), key=...), 195-253: the sort key is the key of the dictionary; no two are equal *)
Definition atom_compare (a b : katom) : comparison :=
  match a, b with
  | KI m, KI n => Z.compare m n
  | KS s, KS t => String.compare s t
  | KI _, _ => Lt
  | _, KI _ => Gt
  | KS _, KNone => Lt
  | KNone, KS _ => Gt
  | KNone, KNone => Eq
  end.
Fixpoint key_compare (a b : key) : comparison :=
  match a, b with
  | [], [] => Eq
  | [], _ => Lt
  | _, [] => Gt
  | x :: a, y :: b => match atom_compare x y with Eq => key_compare a b | c => c end
  end.
Fixpoint insert A (e : key * A) (l : table A) : table A :=
  match l with
  | [] => [e]
  | f :: l => match key_compare (fst e) (fst f) with Lt => e :: f :: l | _ => f :: insert e l end
  end.
Definition sort A (l : table A) : table A := fold_right (@insert A) [] l.

(** *** records.  What RawParser.v uses of the attributes of each class. *)
(** Bus.read_from_row, 854-891; line 879 tests id, a builtin function, so the voltage limits are never read *)
Definition bus_len (rev : Z) : nat :=
  if Z.eqb rev 30 then 11 else if (Z.eqb rev 33 || Z.eqb rev 34)%bool then 13 else 9.
Definition read_bus (rev : Z) (r0 : row) : pres (key * raw_bus) :=
  do r <- pad_row r0 (bus_len rev);
  let v30 := Z.eqb rev 30 in
  do i <- int_at r 0 None;
  do kv <- float_at r 2 (Some 0%R);
  do ide <- int_at r 3 (Some 1%Z);
  do vm <- float_at r (if v30 then 8 else 7) (Some 1%R);
  do va <- float_at r (if v30 then 9 else 8) (Some 0%R);
  do _u <- check_fields r (opt_fields KStr [1] ++ (if v30 then opt_fields KFloat [4; 5] ++ opt_fields KInt [6; 7; 10]
                                                   else opt_fields KInt [4; 5; 6]))%list;
  Ok ([KI i], {| b_num := i; b_baskv := kv; b_ide := ide; b_vm := vm; b_va := va |}).
(** Load.read_from_row, 929-955 *)
Definition read_load (rev : Z) (r : row) : pres (key * raw_load) :=
  do i <- int_at r 0 None;
  do id <- str_at r 1 (Some "1");
  do st <- int_at r 2 (Some 1%Z);
  do pl <- float_at r 5 (Some 0%R);
  do ql <- float_at r 6 (Some 0%R);
  do ip <- float_at r 7 (Some 0%R);
  do iq <- float_at r 8 (Some 0%R);
  do yp <- float_at r 9 (Some 0%R);
  do yq <- float_at r 10 (Some 0%R);
  do _u <- check_fields r (opt_fields KInt ([3; 4; 11] ++ if Z.eqb rev 30 then [] else [12])%list);
  Ok ([KI i; KS (strip id)],
      {| rl_bus := i; rl_status := st; rl_pl := pl; rl_ql := ql; rl_ip := ip; rl_iq := iq; rl_yp := yp; rl_yq := yq |}).
(** FixedShunt.read_from_row, 980-987 *)
Definition read_fs (r : row) : pres (key * raw_fs) :=
  do i <- int_at r 0 None;
  do id <- str_at r 1 (Some "1");
  do st <- int_at r 2 (Some 1%Z);
  do gl <- float_at r 3 (Some 0%R);
  do bl <- float_at r 4 (Some 0%R);
  Ok ([KI i; KS (strip id)], {| fs_bus := i; fs_status := st; fs_gl := gl; fs_bl := bl |}).
(** Generator.read_from_row, 1024-1061: None for a row of fewer than 16 fields, of which nothing is read *)
Definition read_wind (rev : Z) (r : row) : pres (Z * R) :=
  let n := List.length r in
  if (negb (Z.eqb rev 30) && Nat.ltb 26 n)%bool
  then do m <- tok r (n - 2);
       do wmod <- (match m with
                   | "" => Ok 0%Z
                   | _ => match first_digits m with
                          | None => Err AttributeError
                          | Some ds => match to_int ds with Some z => Ok z | None => Err ValueError end
                          end
                   end);
       do wpf <- float_at r (n - 1) (Some 0%R);
       Ok (wmod, wpf)
  else Ok (0%Z, 1%R).
Definition read_gen (rev : Z) (r0 : row) : pres (key * option raw_gen) :=
  if Nat.ltb (List.length r0) 16 then Ok ([KNone; KS "1"], None)
  else
    do w <- read_wind rev r0;
    let r := fill_row r0 28 in
    do i <- int_at r 0 None;
    do id <- str_at r 1 (Some "1");
    do pg <- float_at r 2 (Some 0%R);
    do qg <- float_at r 3 (Some 0%R);
    do qt <- float_at r 4 (Some 9999%R);
    do qb <- float_at r 5 (Some (-9999)%R);
    do vs <- float_at r 6 (Some 1%R);
    do st <- int_at r 14 (Some 1%Z);
    do _u <- check_fields r (opt_fields KFloat [8; 9; 10; 11; 12; 13; 15; 16; 17] ++ opt_fields KInt [7; 18; 20; 22; 24]
                             ++ opt_fields KDigits [19; 21; 23; 25])%list;
    Ok ([KI i; KS (strip id)],
        Some {| g_bus := i; g_pg := pg; g_qg := qg; g_qt := qt; g_qb := qb; g_vs := vs; g_stat := st;
                g_wmod := fst w; g_wpf := snd w |}).
(** NontransformerBranch.read_from_row, 1095-1157: in revision 34 a name and twelve ratings move the later columns *)
Definition read_branch (rev : Z) (r0 : row) : pres (key * raw_branch) :=
  let v34 := Z.eqb rev 34 in
  let r := fill_row r0 (if v34 then 34 else 24) in
  let at34 n := (if v34 then n + 10 else n)%nat in
  do i <- int_at r 0 None;
  do j <- int_at r 1 None;
  do ckt <- str_at r 2 (Some "1");
  do rr <- float_at r 3 None;
  do x <- float_at r 4 None;
  do b <- float_at r 5 (Some 0%R);
  do st <- int_at r (at34 13) None;
  do gi <- float_at r (at34 9) (Some 0%R);
  do bi <- float_at r (at34 10) (Some 0%R);
  do gj <- float_at r (at34 11) (Some 0%R);
  do bj <- float_at r (at34 12) (Some 0%R);
  do _u <- check_fields r (opt_fields KFloat (if v34 then [7; 8; 9] else [6; 7; 8]) ++ opt_fields KInt [at34 14]
                           ++ opt_fields KFloat (map at34 (seq 15 9)))%list;
  Ok ([KI i; KI j; KS (strip ckt)],
      {| br_i := i; br_j := j; br_r := rr; br_x := x; br_b := b; br_gi := gi; br_bi := bi; br_gj := gj; br_bj := bj; br_st := st |}).

(** the control code of a winding is a float; only the values 1 and 2 are told apart from the others *)
Definition cod_of (x : R) : Z := if reqb x 1 then 1%Z else if reqb x 2 then 2%Z else 0%Z.
Definition v33 (rev : Z) : bool := (Z.eqb rev 33 || Z.eqb rev 34)%bool.
(** the columns of one winding, 1253-1270, 1403-1456; [last] is the last one that is always read *)
Definition read_winding (rev : Z) (last : nat) (r : row) : pres winding :=
  do v <- float_at r 0 (Some 1%R);
  do nom <- float_at r 1 (Some 0%R);
  do ang <- float_at r 2 (Some 0%R);
  do ra <- float_at r 3 (Some 0%R);
  do rb <- float_at r 4 (Some 0%R);
  do rc <- float_at r 5 (Some 0%R);
  do cod <- float_at r 6 (Some 0%R);
  do rma <- float_at r 8 (Some (11 / 10)%R);
  do rmi <- float_at r 9 (Some (9 / 10)%R);
  do ntp <- float_at r 12 (Some 33%R);
  do _u <- check_fields r (opt_fields KFloat ([7; 10; 11] ++ seq 13 (last - 12) ++ if v33 rev then [16] else [])%list);
  Ok {| w_v := v; w_nom := nom; w_ang := ang; w_rata := ra; w_ratb := rb; w_ratc := rc; w_cod := cod_of cod;
        w_rma := rma; w_rmi := rmi; w_ntp := ntp |}.
(** the first row after column 11: owners, and the vector group, 1231-1244, 1377-1390 *)
Definition owner_fields (rev : Z) (n : nat) : list field :=
  ([(12, KInt, true); (13, KFloat, true)]%nat
   ++ (if Nat.ltb 15 n then [(14, KInt, true); (15, KFloat, true)] else [])%nat
   ++ (if Nat.ltb 17 n then [(16, KInt, true); (17, KFloat, true)] else [])%nat
   ++ (if Nat.ltb 19 n then [(18, KInt, true); (19, KFloat, true)] else [])%nat
   ++ (if v33 rev then [(20, KStr, true)] else [])%nat)%list.
(** Two_xfmr.read_from_row, 1214-1271 *)
Definition read_x2 (rev : Z) (r r2 r3 r4 : row) : pres (key * raw_x2) :=
  do si <- str_at r 0 None;
  do sj <- str_at r 1 None;
  do ckt <- str_at r 3 None;
  do i <- parse_token to_int None si;
  do j <- parse_token to_int None sj;
  do cw <- int_at r 4 (Some 1%Z);
  do cz <- int_at r 5 (Some 1%Z);
  do cm <- int_at r 6 (Some 1%Z);
  do m1 <- float_at r 7 (Some 0%R);
  do m2 <- float_at r 8 (Some 0%R);
  do st <- int_at r 11 (Some 1%Z);
  do _u <- check_fields r ([(9, KInt, true); (10, KStr, true)]%nat ++ owner_fields rev (List.length r))%list;
  do zr <- float_at r2 0 (Some 0%R);
  do zx <- float_at r2 1 None;
  do zb <- float_at r2 2 (Some 100%R);
  do w <- read_winding rev 15 r3;
  do v2 <- float_at r4 0 (Some 1%R);
  do n2 <- float_at r4 1 (Some 0%R);
  Ok ([KS si; KS sj; KS ckt],
      {| t_i := i; t_j := j; t_cw := cw; t_cz := cz; t_cm := cm; t_mag1 := m1; t_mag2 := m2; t_stat := st;
         t_z := {| z_r := zr; z_x := zx; z_base := zb |}; t_w1 := w; t_windv2 := v2; t_nomv2 := n2 |}).
Definition read_zpair (r : row) (n : nat) : pres zpair :=
  do zr <- float_at r n (Some 0%R);
  do zx <- float_at r (n + 1) (Some 0%R);
  do zb <- float_at r (n + 2) (Some 0%R);
  Ok {| z_r := zr; z_x := zx; z_base := zb |}.
(** int(''), the default of 1363-1364, is a ValueError *)
Definition int_no_default (r : row) (n : nat) : pres Z :=
  do t <- tok r n; match t with "" => Err ValueError | _ => parse_token to_int None t end.
(** Three_xfmr.read_from_row, 1361-1461; 1457-1460 read columns 14 and 15 of the first row, not of the last *)
Definition read_x3 (rev : Z) (r r2 r3 r4 r5 : row) : pres (key * raw_x3) :=
  do i <- int_no_default r 0;
  do j <- int_no_default r 1;
  do k <- int_at r 2 (Some 0%Z);
  do ckt <- str_at r 3 (Some "1");
  do cw <- int_at r 4 (Some 1%Z);
  do cz <- int_at r 5 (Some 1%Z);
  do cm <- int_at r 6 (Some 1%Z);
  do m1 <- float_at r 7 (Some 0%R);
  do m2 <- float_at r 8 (Some 0%R);
  do st <- int_at r 11 (Some 1%Z);
  do _u <- check_fields r ([(9, KInt, true); (10, KStr, true)]%nat ++ owner_fields rev (List.length r)
                           ++ (if Nat.ltb 14 (List.length r) then [(14, KFloat, true)] else [])%nat)%list;
  do z12 <- read_zpair r2 0;
  do z23 <- read_zpair r2 3;
  do z31 <- read_zpair r2 6;
  do vms <- float_at r2 9 (Some 1%R);
  do ans <- float_at r2 10 (Some 0%R);
  do w1 <- read_winding rev 15 r3;
  do w2 <- read_winding rev 15 r4;
  do w3 <- read_winding rev 13 r5;
  Ok ([KI i; KI j; KI k; KS ckt],
      {| h_i := i; h_j := j; h_k := k; h_cw := cw; h_cz := cz; h_cm := cm; h_mag1 := m1; h_mag2 := m2; h_stat := st;
         h_z12 := z12; h_z23 := z23; h_z31 := z31; h_w1 := w1; h_w2 := w2; h_w3 := w3; h_vmstar := vms; h_anstar := ans |}).
(** SwitchedShunt.read_from_row, 1545-1602; revision 30 has no status *)
Definition read_step (r : row) (n : nat) : pres (Z * R) :=
  do k <- int_at r n (Some 0%Z); do b <- float_at r (n + 1) (Some 0%R); Ok (k, b).
Definition read_steps (r : row) (ns : list nat) : pres (list (Z * R)) :=
  mfold (fun acc n => do s <- read_step r n; Ok (acc ++ [s])%list) ns [].
Definition read_ss (rev : Z) (r0 : row) : pres (key * raw_ss) :=
  let v30 := Z.eqb rev 30 in
  let r := fill_row r0 (if v30 then 24 else 26) in
  let col n := (if v30 then n - 2 else n)%nat in
  do i <- int_at r 0 None;
  do mode <- int_at r 1 (Some 1%Z);
  do st <- (if v30 then Ok 1%Z else int_at r 3 (Some 1%Z));
  do hi <- float_at r (col 4) (Some 1%R);
  do lo <- float_at r (col 5) (Some 1%R);
  do bi <- float_at r (col 9) (Some 0%R);
  do steps <- read_steps r (map col [10; 12; 14; 16; 18; 20; 22; 24]%nat);
  do _u <- check_fields r ((if v30 then [] else [(2, KInt, true)])%nat
                           ++ [(col 6, KInt, true); (col 7, KFloat, true); (col 8, KStr, true)])%list;
  Ok ([KI i], {| ss_bus := i; ss_modsw := mode; ss_stat := st; ss_vhi := hi; ss_vlo := lo; ss_binit := bi; ss_steps := steps |}).

(** records nothing uses: Area 1485-1492, Zone 1506-1511, Owner 1861-1863, Interarea_transfer 1877-1881,
    FACTS_device 1908-1930, Multi_section_line_grouping 1944-1971, Impedance_corr 1817-1844 *)
Definition req (k : fkind) (ns : list nat) : list field := map (fun n => (n, k, false)) ns.
Definition area_fields : list field := (req KInt [0] ++ opt_fields KInt [1] ++ opt_fields KFloat [2; 3] ++ opt_fields KStr [4])%list.
Definition zone_fields : list field := (req KInt [0] ++ opt_fields KStr [1])%list.
Definition inter_fields : list field := (req KInt [0; 1] ++ opt_fields KStr [2] ++ opt_fields KFloat [3])%list.
Definition facts_fields (rev : Z) : list field :=
  (req KStr [0] ++ req KInt [1; 2; 3] ++ opt_fields KFloat (seq 4 11) ++ opt_fields KInt [15] ++ opt_fields KFloat [16; 17]
   ++ opt_fields KInt [18] ++ (if Z.eqb rev 30 then [] else opt_fields KInt [19] ++ opt_fields KStr [20]))%list.
Definition multi_fields (n : nat) : list field :=
  (req KInt [0; 1] ++ opt_fields KStr [2] ++ opt_fields KInt [3] ++ req KInt [4] ++ opt_fields KInt (seq 5 (Nat.min (n - 5) 8)))%list.
Definition imp_fields : list field := (req KInt [0] ++ opt_fields KFloat (seq 1 22))%list.
Definition check_multi (r : row) : pres unit :=
  let r := if (Nat.leb 5 (List.length r) && Nat.ltb (List.length r) 13)%bool then fill_row r 13 else r in
  check_fields r (multi_fields (List.length r)).
(** Two_terminal_dc.read_from_row, 1658-1707 *)
Definition check_dc (r1 r2 r3 : row) : pres unit :=
  do _1 <- check_fields r1 (req KStr [0] ++ opt_fields KInt [1] ++ req KFloat [2; 3; 4] ++ opt_fields KFloat [5; 6; 7]
                            ++ opt_fields KStr [8] ++ opt_fields KFloat [9] ++ opt_fields KInt [10] ++ opt_fields KFloat [11])%list;
  do _2 <- check_fields r2 (req KInt [0; 1] ++ req KFloat [2; 3; 4; 5; 6] ++ opt_fields KFloat [7; 8; 9; 10; 11]
                            ++ opt_fields KStr [12] ++ opt_fields KInt [13; 14] ++ opt_fields KStr [15] ++ opt_fields KFloat [16])%list;
  check_fields r3 (req KInt [0; 1] ++ req KFloat (seq 2 11) ++ req KInt [13; 14] ++ req KStr [15] ++ req KFloat [16])%list.
(** VSC.read_from_row, 1749-1800 *)
Definition vsc_end : list field :=
  (req KStr [0] ++ req KInt [1] ++ opt_fields KInt [2] ++ req KFloat [3] ++ opt_fields KFloat (seq 4 9)
   ++ opt_fields KStr [13] ++ opt_fields KFloat [14])%list.
Definition check_vsc (r1 r2 r3 : row) : pres unit :=
  do _1 <- check_fields (fill_row r1 11) (req KStr [0] ++ opt_fields KInt [1] ++ req KFloat [2] ++ opt_fields KFloat (seq 3 8))%list;
  do _2 <- check_fields r2 vsc_end;
  check_fields r3 vsc_end.

(** *** the file *)
(** Raw.__init__, 171-192: the tables; [rt_slack] is slack_buses *)
Record tables := { rt_buses : table raw_bus; rt_slack : list Z; rt_loads : table raw_load; rt_fs : table raw_fs;
                   rt_gens : table (option raw_gen); rt_branches : table raw_branch; rt_x2 : table raw_x2;
                   rt_x3 : table raw_x3; rt_ss : table raw_ss }.
Definition no_tables : tables :=
  {| rt_buses := []; rt_slack := []; rt_loads := []; rt_fs := []; rt_gens := []; rt_branches := []; rt_x2 := [];
     rt_x3 := []; rt_ss := [] |}.
Definition put_bus (t : tables) (e : key * raw_bus) : tables :=
  {| rt_buses := put (fst e) (snd e) (rt_buses t);
     rt_slack := (if Z.eqb (b_ide (snd e)) 3 then rt_slack t ++ [b_num (snd e)] else rt_slack t)%list;
     rt_loads := rt_loads t; rt_fs := rt_fs t; rt_gens := rt_gens t; rt_branches := rt_branches t; rt_x2 := rt_x2 t;
     rt_x3 := rt_x3 t; rt_ss := rt_ss t |}.
Definition put_load (t : tables) (e : key * raw_load) : tables :=
  {| rt_buses := rt_buses t; rt_slack := rt_slack t; rt_loads := put (fst e) (snd e) (rt_loads t); rt_fs := rt_fs t;
     rt_gens := rt_gens t; rt_branches := rt_branches t; rt_x2 := rt_x2 t; rt_x3 := rt_x3 t; rt_ss := rt_ss t |}.
Definition put_fs (t : tables) (e : key * raw_fs) : tables :=
  {| rt_buses := rt_buses t; rt_slack := rt_slack t; rt_loads := rt_loads t; rt_fs := put (fst e) (snd e) (rt_fs t);
     rt_gens := rt_gens t; rt_branches := rt_branches t; rt_x2 := rt_x2 t; rt_x3 := rt_x3 t; rt_ss := rt_ss t |}.
Definition put_gen (t : tables) (e : key * option raw_gen) : tables :=
  {| rt_buses := rt_buses t; rt_slack := rt_slack t; rt_loads := rt_loads t; rt_fs := rt_fs t;
     rt_gens := put (fst e) (snd e) (rt_gens t); rt_branches := rt_branches t; rt_x2 := rt_x2 t; rt_x3 := rt_x3 t; rt_ss := rt_ss t |}.
Definition put_branch (t : tables) (e : key * raw_branch) : tables :=
  {| rt_buses := rt_buses t; rt_slack := rt_slack t; rt_loads := rt_loads t; rt_fs := rt_fs t; rt_gens := rt_gens t;
     rt_branches := put (fst e) (snd e) (rt_branches t); rt_x2 := rt_x2 t; rt_x3 := rt_x3 t; rt_ss := rt_ss t |}.
Definition put_x2 (t : tables) (e : key * raw_x2) : tables :=
  {| rt_buses := rt_buses t; rt_slack := rt_slack t; rt_loads := rt_loads t; rt_fs := rt_fs t; rt_gens := rt_gens t;
     rt_branches := rt_branches t; rt_x2 := put (fst e) (snd e) (rt_x2 t); rt_x3 := rt_x3 t; rt_ss := rt_ss t |}.
Definition put_x3 (t : tables) (e : key * raw_x3) : tables :=
  {| rt_buses := rt_buses t; rt_slack := rt_slack t; rt_loads := rt_loads t; rt_fs := rt_fs t; rt_gens := rt_gens t;
     rt_branches := rt_branches t; rt_x2 := rt_x2 t; rt_x3 := put (fst e) (snd e) (rt_x3 t); rt_ss := rt_ss t |}.
Definition put_ss (t : tables) (e : key * raw_ss) : tables :=
  {| rt_buses := rt_buses t; rt_slack := rt_slack t; rt_loads := rt_loads t; rt_fs := rt_fs t; rt_gens := rt_gens t;
     rt_branches := rt_branches t; rt_x2 := rt_x2 t; rt_x3 := rt_x3 t; rt_ss := put (fst e) (snd e) (rt_ss t) |}.

Inductive section := SSystem | SBus | SLoad | SFixed | SGen | SBranch | SSwitching | SXfmr | SArea | SDc | SVsc | SShunt
  | SImp | SMulti | SGroup | SZone | SInter | SOwner | SFacts | SGne | SInd | SSub.
(** rows[row_num + k] of the rows that follow *)
Definition ahead (rest : list row) (k : nat) : pres row := match nth_error rest k with Some r => Ok r | None => Err IndexError end.
(** what is done with a row that is neither a comment nor an end: the tables, and how many further rows belong to it *)
Definition record (rev : Z) (s : section) (t : tables) (r : row) (rest : list row) : pres (tables * nat) :=
  match s with
  | SBus => do e <- read_bus rev r; Ok (put_bus t e, 0%nat)
  | SLoad => do e <- read_load rev r; Ok (put_load t e, 0%nat)
  | SFixed => do e <- read_fs r; Ok (put_fs t e, 0%nat)
  | SGen => do e <- read_gen rev r; Ok (put_gen t e, 0%nat)
  | SBranch => do e <- read_branch rev r; Ok (put_branch t e, 0%nat)
  | SXfmr =>
      do k <- tok r 2;
      do r2 <- ahead rest 0; do r3 <- ahead rest 1; do r4 <- ahead rest 2;
      if String.eqb k "0" then do e <- read_x2 rev r r2 r3 r4; Ok (put_x2 t e, 3%nat)
      else do r5 <- ahead rest 3; do e <- read_x3 rev r r2 r3 r4 r5; Ok (put_x3 t e, 4%nat)
  | SArea => do _u <- check_fields r area_fields; Ok (t, 0%nat)
  | SDc => do r2 <- ahead rest 0; do r3 <- ahead rest 1; do _u <- check_dc r r2 r3; Ok (t, 2%nat)
  | SVsc => do r2 <- ahead rest 0; do r3 <- ahead rest 1; do _u <- check_vsc r r2 r3; Ok (t, 2%nat)
  | SShunt => do e <- read_ss rev r; Ok (put_ss t e, 0%nat)
  | SImp => do _u <- (if Z.eqb rev 34 then Ok tt else check_fields (fill_row r 23) imp_fields); Ok (t, 0%nat)
  | SGroup => do _u <- check_multi r; Ok (t, 0%nat)
  | SZone | SOwner => do _u <- check_fields r zone_fields; Ok (t, 0%nat)
  | SInter => do _u <- check_fields r inter_fields; Ok (t, 0%nat)
  | SFacts => do _u <- check_fields r (facts_fields rev); Ok (t, 0%nat)
  | SSystem | SSwitching | SMulti | SGne | SInd | SSub => Ok (t, 0%nat)
  end.
(** the loop of one section; None for the rest if the file has ended *)
Fixpoint loop (rev : Z) (s : section) (skip : nat) (rows : list row) (t : tables) : pres (tables * option (list row)) :=
  match rows with
  | [] => Err IndexError
  | r :: rest =>
      match skip with
      | S n => loop rev s n rest t
      | O =>
          do at_row <- is_at r;
          if at_row then loop rev s 0 rest t
          else
            do fe <- file_end r;
            if fe then Ok (t, None)
            else if section_end r then Ok (t, Some rest)
            else do x <- record rev s t r rest; loop rev s (snd x) rest (fst x)
      end
  end.
(** system wide data, 362-369: comment rows are rows like others *)
Fixpoint loop_system (rows : list row) : pres (option (list row)) :=
  match rows with
  | [] => Err IndexError
  | r :: rest => do fe <- file_end r;
                 if fe then Ok None else if section_end r then Ok (Some rest) else loop_system rest
  end.
(** GNE devices, induction machines and substations, 732-770: after a comment row the tests are made on that row,
    not on the one after it, which is passed over ([eat]) *)
Fixpoint loop_stale (eat : bool) (rows : list row) : pres (option (list row)) :=
  match rows with
  | [] => Err IndexError
  | r :: rest =>
      do at_row <- is_at r;
      if at_row then loop_stale true rest
      else if eat then loop_stale false rest
      else do fe <- file_end r;
           if fe then Ok None else if section_end r then Ok (Some rest) else loop_stale false rest
  end.
Definition run_section (rev : Z) (s : section) (rows : list row) (t : tables) : pres (tables * option (list row)) :=
  match s with
  | SSystem => do o <- loop_system rows; Ok (t, o)
  | SGne | SInd | SSub => do o <- loop_stale false rows; Ok (t, o)
  | _ => loop rev s 0 rows t
  end.
Fixpoint run_sections (rev : Z) (ss : list section) (rows : list row) (t : tables) : pres tables :=
  match ss with
  | [] => Ok t
  | s :: ss => do x <- run_section rev s rows t;
               match snd x with None => Ok (fst x) | Some rest => run_sections rev ss rest (fst x) end
  end.
(** the order of the sections, 360-770 *)
Definition sections (rev : Z) : list section :=
  let on (b : bool) (s : section) := if b then [s] else [] in
  let v30 := Z.eqb rev 30 in
  let v34 := Z.eqb rev 34 in
  (on v34 SSystem ++ [SBus; SLoad] ++ on (negb v30) SFixed ++ [SGen; SBranch] ++ on v34 SSwitching
   ++ [SXfmr; SArea; SDc; SVsc] ++ on v30 SShunt ++ [SImp; SMulti; SGroup; SZone; SInter; SOwner; SFacts]
   ++ on (negb v30) SShunt ++ on (v33 rev) SGne ++ on v34 SInd ++ on v34 SSub)%list.

(** CaseIdentification, 791-824: revision and system base; [two] tells that the first row has two fields *)
Fixpoint skip_at (rows : list row) : pres row :=
  match rows with
  | [] => Err IndexError
  | r :: rest => do a <- is_at r; if a then skip_at rest else Ok r
  end.
Definition case_id (two : bool) (rows : list row) : pres (Z * R) :=
  do r0 <- skip_at rows;
  if two
  then do _u <- check_fields r0 [(0, KInt, true)]%nat;
       do sb <- float_at r0 1 None;
       Ok (30%Z, sb)
  else do r <- pad_row (firstn 6 r0) 6;
       do sb <- float_at r 1 None;
       do rev <- int_at r 2 (Some 33%Z);
       do _u <- check_fields r (opt_fields KInt [0; 3; 4] ++ opt_fields KFloat [5])%list;
       Ok (rev, sb).
Record raw_file := { rf_rev : Z; rf_sbase : R; rf_tables : tables }.
(** read_from_rows, 343-770: the titles are the two rows after the first (or the second, if that is a comment) *)
Definition read_rows (rows : list row) : pres raw_file :=
  do r0 <- ahead rows 0;
  do a <- is_at r0;
  let body := if a then skipn 1 rows else rows in
  do r1 <- ahead body 0;
  do _2 <- ahead body 1;
  do _3 <- ahead body 2;
  do id <- case_id (Nat.eqb (List.length r1) 2) rows;
  let rev := fst id in
  check known_rev rev else NameError;
  do t <- run_sections rev (sections rev) (skipn 3 body) no_tables;
  Ok {| rf_rev := rev; rf_sbase := snd id; rf_tables := t |}.

(** *** the get_ methods, 195-218, called by parser.py: a generator of which nothing was read has no bus number;
    comparing it with another raises, alone it contributes nothing *)
Definition values A (t : table A) : list A := map snd (sort t).
Definition short_gen (e : key * option raw_gen) : bool := match snd e with None => true | Some _ => false end.
Definition get_gens (t : table (option raw_gen)) : pres (list raw_gen) :=
  check negb (existsb short_gen t && Nat.ltb 1 (List.length t)) else TypeError;
  Ok (flat_map (fun o => match o with Some g => [g] | None => [] end) (values t)).
(** the case parser.py goes through; it takes the slack buses from [rt_slack], RawParser.v from the table of the
    buses: the same unless a bus number occurs twice in the file *)
Definition case_of (f : raw_file) : pres raw_case :=
  let t := rf_tables f in
  do gs <- get_gens (rt_gens t);
  Ok {| rc_rev := rf_rev f; rc_sbase := rf_sbase f; rc_buses := values (rt_buses t); rc_gens := gs;
        rc_ss := values (rt_ss t); rc_fs := values (rt_fs t); rc_loads := values (rt_loads t);
        rc_branches := values (rt_branches t); rc_x2 := values (rt_x2 t); rc_x3 := values (rt_x3 t) |}.
(** parse_raw, parser.py:62-480, from the lines of the file *)
Definition read_raw (lines : list string) : pres raw_case :=
  do rows <- rows_of lines; do f <- read_rows rows; case_of f.
Definition load_raw (lines : list string) : pres onet := do c <- read_raw lines; parse_raw c.
End Text.
