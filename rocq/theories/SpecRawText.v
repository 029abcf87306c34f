(** What a RAW file should mean: how its fields are written, which columns its records have, how the sections follow
    each other.  Nothing here uses a function of the model; the record types and the keys are shared. *)
From Coq Require Import Reals ZArith String Ascii List Bool.
From Verif Require Import RawTransformers RawParser RawText.
Import ListNotations.
Local Open Scope string_scope.
Set Implicit Arguments.

(** *** writing fields *)
Definition blanks (s : string) : Prop := exists n, s = string_of_list_ascii (repeat " "%char n).
(** the white space str.strip removes (ASCII) *)
Definition spacing (c : ascii) : Prop :=
  (9 <= nat_of_ascii c <= 13 \/ 28 <= nat_of_ascii c <= 32)%nat.
Definition trimmed (v : string) : Prop :=
  (forall c r, v = String c r -> ~ spacing c) /\ (forall c r, v = r ++ String c "" -> ~ spacing c).
Definition lacks (d : ascii) (v : string) : Prop := forall a b, v <> a ++ String d b.
(** quotation marks inside a quotation are doubled *)
Inductive doubled : string -> string -> Prop :=
| doubled_nil : doubled "" ""
| doubled_quote : forall v w, doubled v w -> doubled (String "'" v) (String "'" (String "'" w))
| doubled_char : forall c v w, c <> "'"%char -> doubled v w -> doubled (String c v) (String c w).
(** [written d t v]: between delimiters [d], the text [t] stands for the value [v]; when the delimiter is the blank,
    no blank may follow and a bare field is not empty *)
Inductive written (d : ascii) : string -> string -> Prop :=
| written_bare : forall p v q, blanks p -> blanks q -> trimmed v -> lacks d v -> (forall r, v <> String "'" r) ->
    (d = " "%char -> v <> "" /\ q = "") -> written d (p ++ v ++ q) v
| written_quoted : forall p i v j w q, blanks p -> blanks i -> blanks j -> blanks q -> trimmed v ->
    doubled (i ++ v ++ j) w -> (d = " "%char -> q = "") ->
    written d (p ++ String "'" (w ++ String "'" q)) v.
(** the fields of a line *)
Inductive written_line (d : ascii) : string -> list string -> Prop :=
| line_last : forall t v, written d t v -> written_line d t [v]
| line_more : forall t v l vs, written d t v -> written_line d l vs -> written_line d (t ++ String d l) (v :: vs).
(** a line of the file; an empty one has no fields *)
Definition written_row (d : ascii) (l : string) (r : list string) : Prop :=
  l = "" /\ r = [] \/ l <> "" /\ written_line d l r.
(** the fields of all the lines are separated by commas if the first line has a comma, otherwise by blanks *)
Definition written_file (lines : list string) (rows : list (list string)) : Prop :=
  exists first more d, lines = first :: more /\
    (d = ","%char /\ (exists a b, first = a ++ "," ++ b) \/ d = " "%char /\ lacks "," first) /\
    Forall2 (written_row d) lines rows.

(** *** columns *)
Inductive ftype := FInt | FFloat | FText | FDigits.
(** a column: its name, the kind of its entries, whether an entry is required *)
Definition column := (string * ftype * bool)%type.
Definition cols (ty : ftype) (need : bool) (names : list string) : list column := map (fun n => (n, ty, need)) names.
Fixpoint pos (l : list column) (name : string) : nat :=
  match l with [] => 0 | (n, _, _) :: l => if String.eqb n name then 0 else S (pos l name) end.

Section Reading.
Variable to_int : string -> option Z.
Variable to_float : string -> option R.

(** the entry of column n; [fill]: columns left out at the end count as empty *)
Definition cell (fill : bool) (r : row) (n : nat) (t : string) : Prop :=
  nth_error r n = Some t \/ fill = true /\ (List.length r <= n)%nat /\ t = "".
Definition digit (c : ascii) : Prop := (48 <= nat_of_ascii c <= 57)%nat.
Definition legible (ty : ftype) (t : string) : Prop :=
  match ty with
  | FInt => exists v, to_int t = Some v
  | FFloat => exists v, to_float t = Some v
  | FText => True
  | FDigits => exists a c b, t = a ++ String c b /\ digit c
  end.
(** every column is there, an empty entry only where one is allowed, the others legible *)
Definition accepts (l : list column) (fill : bool) (r : row) : Prop :=
  forall n name ty need, nth_error l n = Some (name, ty, need) ->
    exists t, cell fill r n t /\ (t = "" /\ need = false \/ t <> "" /\ legible ty t).
(** the value of a named column, or the default [d] where the entry is empty *)
Definition entry A (conv : string -> option A) (l : list column) (fill : bool) (r : row) (name : string) (d v : A) : Prop :=
  exists t, cell fill r (pos l name) t /\ (t = "" /\ v = d \/ t <> "" /\ conv t = Some v).
Definition int_in := entry to_int.
Definition float_in := entry to_float.
Definition text_in := entry (fun t => Some t).

(** *** records *)
Definition rev33 (rev : Z) : Prop := rev = 33%Z \/ rev = 34%Z.
Definition bus_layout (rev : Z) : list column :=
  if Z.eqb rev 30
  then (cols FInt true ["I"] ++ cols FText false ["NAME"] ++ cols FFloat false ["BASKV"] ++ cols FInt false ["IDE"]
        ++ cols FFloat false ["GL"; "BL"] ++ cols FInt false ["AREA"; "ZONE"] ++ cols FFloat false ["VM"; "VA"]
        ++ cols FInt false ["OWNER"])%list
  else (cols FInt true ["I"] ++ cols FText false ["NAME"] ++ cols FFloat false ["BASKV"] ++ cols FInt false ["IDE"; "AREA"; "ZONE"; "OWNER"]
        ++ cols FFloat false ["VM"; "VA"]
        ++ (if Z.eqb rev 32 then [] else cols FText false ["NVHI"; "NVLO"; "EVHI"; "EVLO"]))%list.
(** what stands before the first slash *)
Definition before_slash (t u : string) : Prop := lacks "/" u /\ (t = u \/ exists c, t = u ++ String "/" c).
Definition bus_row (rev : Z) (r0 : row) (b : raw_bus) : Prop :=
  exists r, Forall2 before_slash r0 r /\
  let l := bus_layout rev in
  accepts l false r /\ int_in l false r "I" 0%Z (b_num b) /\ float_in l false r "BASKV" 0%R (b_baskv b) /\
  int_in l false r "IDE" 1%Z (b_ide b) /\ float_in l false r "VM" 1%R (b_vm b) /\ float_in l false r "VA" 0%R (b_va b).
Definition load_layout (rev : Z) : list column :=
  (cols FInt true ["I"] ++ cols FText false ["ID"] ++ cols FInt false ["STATUS"; "AREA"; "ZONE"]
   ++ cols FFloat false ["PL"; "QL"; "IP"; "IQ"; "YP"; "YQ"] ++ cols FInt false ["OWNER"]
   ++ (if Z.eqb rev 30 then [] else cols FInt false ["SCALE"]))%list.
Definition load_row (rev : Z) (r : row) (id : string) (x : raw_load) : Prop :=
  let l := load_layout rev in
  accepts l false r /\ int_in l false r "I" 0%Z (rl_bus x) /\ text_in l false r "ID" "1" id /\ int_in l false r "STATUS" 1%Z (rl_status x) /\
  float_in l false r "PL" 0%R (rl_pl x) /\ float_in l false r "QL" 0%R (rl_ql x) /\ float_in l false r "IP" 0%R (rl_ip x) /\
  float_in l false r "IQ" 0%R (rl_iq x) /\ float_in l false r "YP" 0%R (rl_yp x) /\ float_in l false r "YQ" 0%R (rl_yq x).
Definition fs_layout : list column :=
  (cols FInt true ["I"] ++ cols FText false ["ID"] ++ cols FInt false ["STATUS"] ++ cols FFloat false ["GL"; "BL"])%list.
Definition fs_row (r : row) (id : string) (x : raw_fs) : Prop :=
  let l := fs_layout in
  accepts l false r /\ int_in l false r "I" 0%Z (fs_bus x) /\ text_in l false r "ID" "1" id /\ int_in l false r "STATUS" 1%Z (fs_status x) /\
  float_in l false r "GL" 0%R (fs_gl x) /\ float_in l false r "BL" 0%R (fs_bl x).
Definition gen_layout : list column :=
  (cols FInt true ["I"] ++ cols FText false ["ID"] ++ cols FFloat false ["PG"; "QG"; "QT"; "QB"; "VS"] ++ cols FInt false ["IREG"]
   ++ cols FFloat false ["MBASE"; "ZR"; "ZX"; "RT"; "XT"; "GTAP"] ++ cols FInt false ["STAT"] ++ cols FFloat false ["RMPCT"; "PT"; "PB"]
   ++ cols FInt false ["O1"] ++ cols FDigits false ["F1"] ++ cols FInt false ["O2"] ++ cols FDigits false ["F2"]
   ++ cols FInt false ["O3"] ++ cols FDigits false ["F3"] ++ cols FInt false ["O4"] ++ cols FDigits false ["F4"])%list.
(** the first run of digits in a text *)
Definition first_number (t ds : string) : Prop :=
  exists a b, t = a ++ ds ++ b /\ ds <> "" /\ (forall x c y, a = x ++ String c y -> ~ digit c) /\
    (forall x c y, ds = x ++ String c y -> digit c) /\ (forall c y, b = String c y -> ~ digit c).
(** the wind machine columns: the last two of a row of 27 columns or more *)
Definition wind_in (rev : Z) (r : row) (wmod : Z) (wpf : R) : Prop :=
  (rev = 30%Z \/ (List.length r <= 26)%nat) /\ wmod = 0%Z /\ wpf = 1%R \/
  rev <> 30%Z /\ (26 < List.length r)%nat /\
  exists front m p, r = (front ++ [m; p])%list /\
    (m = "" /\ wmod = 0%Z \/ exists ds, first_number m ds /\ to_int ds = Some wmod) /\
    (p = "" /\ wpf = 0%R \/ p <> "" /\ to_float p = Some wpf).
Definition gen_row (rev : Z) (r : row) (id : string) (x : raw_gen) : Prop :=
  let l := gen_layout in
  (16 <= List.length r)%nat /\ accepts l true r /\ int_in l true r "I" 0%Z (g_bus x) /\ text_in l true r "ID" "1" id /\
  float_in l true r "PG" 0%R (g_pg x) /\ float_in l true r "QG" 0%R (g_qg x) /\ float_in l true r "QT" 9999%R (g_qt x) /\
  float_in l true r "QB" (-9999)%R (g_qb x) /\ float_in l true r "VS" 1%R (g_vs x) /\ int_in l true r "STAT" 1%Z (g_stat x) /\
  wind_in rev r (g_wmod x) (g_wpf x).
Definition branch_layout (rev : Z) : list column :=
  (cols FInt true ["I"; "J"] ++ cols FText false ["CKT"] ++ cols FFloat true ["R"; "X"] ++ cols FFloat false ["B"]
   ++ (if Z.eqb rev 34
       then cols FText false ["NAME"] ++ cols FFloat false ["RATE1"; "RATE2"; "RATE3"]
            ++ cols FText false ["RATE4"; "RATE5"; "RATE6"; "RATE7"; "RATE8"; "RATE9"; "RATE10"; "RATE11"; "RATE12"]
       else cols FFloat false ["RATEA"; "RATEB"; "RATEC"])
   ++ cols FFloat false ["GI"; "BI"; "GJ"; "BJ"] ++ cols FInt true ["ST"] ++ cols FInt false ["MET"]
   ++ cols FFloat false ["LEN"; "O1"; "F1"; "O2"; "F2"; "O3"; "F3"; "O4"; "F4"])%list.
Definition branch_row (rev : Z) (r : row) (ckt : string) (x : raw_branch) : Prop :=
  let l := branch_layout rev in
  accepts l true r /\ int_in l true r "I" 0%Z (br_i x) /\ int_in l true r "J" 0%Z (br_j x) /\ text_in l true r "CKT" "1" ckt /\
  float_in l true r "R" 0%R (br_r x) /\ float_in l true r "X" 0%R (br_x x) /\ float_in l true r "B" 0%R (br_b x) /\
  float_in l true r "GI" 0%R (br_gi x) /\ float_in l true r "BI" 0%R (br_bi x) /\ float_in l true r "GJ" 0%R (br_gj x) /\
  float_in l true r "BJ" 0%R (br_bj x) /\ int_in l true r "ST" 0%Z (br_st x).
Definition ss_layout (rev : Z) : list column :=
  (cols FInt true ["I"] ++ cols FInt false ["MODSW"] ++ (if Z.eqb rev 30 then [] else cols FInt false ["ADJM"; "STAT"])
   ++ cols FFloat false ["VSWHI"; "VSWLO"] ++ cols FInt false ["SWREM"] ++ cols FFloat false ["RMPCT"] ++ cols FText false ["RMIDNT"]
   ++ cols FFloat false ["BINIT"]
   ++ cols FInt false ["N1"] ++ cols FFloat false ["B1"] ++ cols FInt false ["N2"] ++ cols FFloat false ["B2"]
   ++ cols FInt false ["N3"] ++ cols FFloat false ["B3"] ++ cols FInt false ["N4"] ++ cols FFloat false ["B4"]
   ++ cols FInt false ["N5"] ++ cols FFloat false ["B5"] ++ cols FInt false ["N6"] ++ cols FFloat false ["B6"]
   ++ cols FInt false ["N7"] ++ cols FFloat false ["B7"] ++ cols FInt false ["N8"] ++ cols FFloat false ["B8"])%list.
Definition ss_row (rev : Z) (r : row) (x : raw_ss) : Prop :=
  let l := ss_layout rev in
  accepts l true r /\ int_in l true r "I" 0%Z (ss_bus x) /\ int_in l true r "MODSW" 1%Z (ss_modsw x) /\
  (if Z.eqb rev 30 then ss_stat x = 1%Z else int_in l true r "STAT" 1%Z (ss_stat x)) /\
  float_in l true r "VSWHI" 1%R (ss_vhi x) /\ float_in l true r "VSWLO" 1%R (ss_vlo x) /\ float_in l true r "BINIT" 0%R (ss_binit x) /\
  Forall2 (fun n s => int_in l true r ("N" ++ n) 0%Z (fst s) /\ float_in l true r ("B" ++ n) 0%R (snd s))
    ["1"; "2"; "3"; "4"; "5"; "6"; "7"; "8"] (ss_steps x).

(** transformers.  The columns of the first row up to the first owner are there, as is the vector group from revision
    33 on; further owners count if both their columns are there. *)
Definition xfmr_layout (three : bool) (rev : Z) : list column :=
  ((if three then cols FInt true ["I"; "J"] ++ cols FInt false ["K"] ++ cols FText false ["CKT"]
    else cols FInt true ["I"; "J"] ++ cols FText false ["K"] ++ cols FText true ["CKT"])
   ++ cols FInt false ["CW"; "CZ"; "CM"] ++ cols FFloat false ["MAG1"; "MAG2"] ++ cols FInt false ["NMETR"] ++ cols FText false ["NAME"]
   ++ cols FInt false ["STAT"; "O1"] ++ cols FFloat false ["F1"]
   ++ (if (Z.eqb rev 33 || Z.eqb rev 34)%bool then cols FText false ["O2"; "F2"; "O3"; "F3"; "O4"; "F4"; "VECGRP"] else []))%list.
Definition owners (r : row) : Prop :=
  Forall (fun n => forall o f, nth_error r n = Some o -> nth_error r (n + 1) = Some f ->
                     (o = "" \/ legible FInt o) /\ (f = "" \/ legible FFloat f)) [14; 16; 18]%nat.
Definition winding_layout (third : bool) (rev : Z) : list column :=
  (cols FFloat false ["WINDV"; "NOMV"; "ANG"; "RATA"; "RATB"; "RATC"; "COD"; "CONT"; "RMA"; "RMI"; "VMA"; "VMI"; "NTP"; "TAB"]
   ++ (if third then [] else cols FFloat false ["CR"; "CX"])
   ++ (if (Z.eqb rev 33 || Z.eqb rev 34)%bool
       then (if third then cols FText false ["CR"; "CX"] else []) ++ cols FFloat false ["CNXA"] else []))%list.
(** of the control code only the values 1 and 2 are kept *)
Definition code (x : R) (z : Z) : Prop := x = 1%R /\ z = 1%Z \/ x = 2%R /\ z = 2%Z \/ x <> 1%R /\ x <> 2%R /\ z = 0%Z.
Definition winding_row (third : bool) (rev : Z) (r : row) (w : winding) : Prop :=
  let l := winding_layout third rev in
  accepts l false r /\ float_in l false r "WINDV" 1%R (w_v w) /\ float_in l false r "NOMV" 0%R (w_nom w) /\
  float_in l false r "ANG" 0%R (w_ang w) /\ float_in l false r "RATA" 0%R (w_rata w) /\ float_in l false r "RATB" 0%R (w_ratb w) /\
  float_in l false r "RATC" 0%R (w_ratc w) /\ (exists x, float_in l false r "COD" 0%R x /\ code x (w_cod w)) /\
  float_in l false r "RMA" (11 / 10)%R (w_rma w) /\ float_in l false r "RMI" (9 / 10)%R (w_rmi w) /\ float_in l false r "NTP" 33%R (w_ntp w).
Definition z2_layout : list column := (cols FFloat false ["R1-2"] ++ cols FFloat true ["X1-2"] ++ cols FFloat false ["SBASE1-2"])%list.
Definition z3_layout : list column :=
  cols FFloat false ["R1-2"; "X1-2"; "SBASE1-2"; "R2-3"; "X2-3"; "SBASE2-3"; "R3-1"; "X3-1"; "SBASE3-1"; "VMSTAR"; "ANSTAR"].
Definition side_layout : list column := cols FFloat false ["WINDV"; "NOMV"].
Definition z_in (l : list column) (r : row) (pair : string) (base : R) (z : zpair) : Prop :=
  float_in l false r ("R" ++ pair) 0%R (z_r z) /\ float_in l false r ("X" ++ pair) 0%R (z_x z) /\
  float_in l false r ("SBASE" ++ pair) base (z_base z).
(** two windings: K is written 0; I, J and the circuit are kept as texts for the key *)
Definition x2_rows (rev : Z) (r r2 r3 r4 : row) (si sj ckt : string) (x : raw_x2) : Prop :=
  let l := xfmr_layout false rev in
  accepts l false r /\ owners r /\ text_in l false r "K" "" "0" /\ text_in l false r "I" "" si /\ text_in l false r "J" "" sj /\
  text_in l false r "CKT" "" ckt /\ int_in l false r "I" 0%Z (t_i x) /\ int_in l false r "J" 0%Z (t_j x) /\
  int_in l false r "CW" 1%Z (t_cw x) /\ int_in l false r "CZ" 1%Z (t_cz x) /\ int_in l false r "CM" 1%Z (t_cm x) /\
  float_in l false r "MAG1" 0%R (t_mag1 x) /\ float_in l false r "MAG2" 0%R (t_mag2 x) /\ int_in l false r "STAT" 1%Z (t_stat x) /\
  accepts z2_layout false r2 /\ z_in z2_layout r2 "1-2" 100 (t_z x) /\
  winding_row false rev r3 (t_w1 x) /\
  accepts side_layout false r4 /\ float_in side_layout false r4 "WINDV" 1%R (t_windv2 x) /\
  float_in side_layout false r4 "NOMV" 0%R (t_nomv2 x).
(** three windings: K is anything else, even empty.  Columns 14 and 15 of the first row are read as floats too. *)
Definition x3_rows (rev : Z) (r r2 r3 r4 r5 : row) (ckt : string) (x : raw_x3) : Prop :=
  let l := xfmr_layout true rev in
  accepts l false r /\ owners r /\ ~ text_in l false r "K" "" "0" /\
  (forall t, nth_error r 14 = Some t -> t = "" \/ legible FFloat t) /\
  int_in l false r "I" 0%Z (h_i x) /\ int_in l false r "J" 0%Z (h_j x) /\ int_in l false r "K" 0%Z (h_k x) /\
  text_in l false r "CKT" "1" ckt /\
  int_in l false r "CW" 1%Z (h_cw x) /\ int_in l false r "CZ" 1%Z (h_cz x) /\ int_in l false r "CM" 1%Z (h_cm x) /\
  float_in l false r "MAG1" 0%R (h_mag1 x) /\ float_in l false r "MAG2" 0%R (h_mag2 x) /\ int_in l false r "STAT" 1%Z (h_stat x) /\
  accepts z3_layout false r2 /\ z_in z3_layout r2 "1-2" 0 (h_z12 x) /\ z_in z3_layout r2 "2-3" 0 (h_z23 x) /\
  z_in z3_layout r2 "3-1" 0 (h_z31 x) /\ float_in z3_layout false r2 "VMSTAR" 1%R (h_vmstar x) /\
  float_in z3_layout false r2 "ANSTAR" 0%R (h_anstar x) /\
  winding_row false rev r3 (h_w1 x) /\ winding_row false rev r4 (h_w2 x) /\ winding_row true rev r5 (h_w3 x).

(** records nothing is made of; they only have to be legible *)
Definition area_layout : list column :=
  (cols FInt true ["I"] ++ cols FInt false ["ISW"] ++ cols FFloat false ["PDES"; "PTOL"] ++ cols FText false ["ARNAME"])%list.
Definition zone_layout : list column := (cols FInt true ["I"] ++ cols FText false ["NAME"])%list.
Definition inter_layout : list column :=
  (cols FInt true ["ARFROM"; "ARTO"] ++ cols FText false ["TRID"] ++ cols FFloat false ["PTRAN"])%list.
Definition facts_layout (rev : Z) : list column :=
  (cols FText true ["NAME"] ++ cols FInt true ["I"; "J"; "MODE"]
   ++ cols FFloat false ["PDES"; "QDES"; "VSET"; "SHMX"; "TRMX"; "VTMN"; "VTMX"; "VSMX"; "IMX"; "LINX"; "RMPCT"]
   ++ cols FInt false ["OWNER"] ++ cols FFloat false ["SET1"; "SET2"] ++ cols FInt false ["VSREF"]
   ++ (if Z.eqb rev 30 then [] else cols FInt false ["REMOT"] ++ cols FText false ["MNAME"]))%list.
Definition group_layout : list column :=
  (cols FInt true ["I"; "J"] ++ cols FText false ["ID"] ++ cols FInt false ["MET"] ++ cols FInt true ["DUM1"]
   ++ cols FInt false ["DUM2"; "DUM3"; "DUM4"; "DUM5"; "DUM6"; "DUM7"; "DUM8"; "DUM9"])%list.
Definition imp_layout : list column :=
  (cols FInt true ["I"]
   ++ cols FFloat false ["T1"; "F1"; "T2"; "F2"; "T3"; "F3"; "T4"; "F4"; "T5"; "F5"; "T6"; "F6"; "T7"; "F7"; "T8"; "F8"; "T9"; "F9";
                         "T10"; "F10"; "T11"; "F11"])%list.
Definition dc1_layout : list column :=
  (cols FText true ["NAME"] ++ cols FInt false ["MDC"] ++ cols FFloat true ["RDC"; "SETVL"; "VSCHD"] ++ cols FFloat false ["VCMOD"; "RCOMP"; "DELTI"]
   ++ cols FText false ["METER"] ++ cols FFloat false ["DCVMIN"] ++ cols FInt false ["CCCITMX"] ++ cols FFloat false ["CCCACC"])%list.
Definition dc2_layout : list column :=
  (cols FInt true ["IPR"; "NBR"] ++ cols FFloat true ["ANMXR"; "ANMNR"; "RCR"; "XCR"; "EBASR"]
   ++ cols FFloat false ["TRR"; "TAPR"; "TMXR"; "TMNR"; "STPR"] ++ cols FText false ["ICR"] ++ cols FInt false ["IFR"; "ITR"]
   ++ cols FText false ["IDR"] ++ cols FFloat false ["XCAPR"])%list.
Definition dc3_layout : list column :=
  (cols FInt true ["IPI"; "NBI"] ++ cols FFloat true ["ANMXI"; "ANMNI"; "RCI"; "XCI"; "EBASI"; "TRI"; "TAPI"; "TMXI"; "TMNI"; "STPI"; "ICI"]
   ++ cols FInt true ["IFI"; "ITI"] ++ cols FText true ["IDI"] ++ cols FFloat true ["XCAPI"])%list.
Definition vsc1_layout : list column :=
  (cols FText true ["NAME"] ++ cols FInt false ["MDC"] ++ cols FFloat true ["RDC"]
   ++ cols FFloat false ["O1"; "F1"; "O2"; "F2"; "O3"; "F3"; "O4"; "F4"])%list.
Definition vsc2_layout : list column :=
  (cols FText true ["IBUS"] ++ cols FInt true ["TYPE"] ++ cols FInt false ["MODE"] ++ cols FFloat true ["DCSET"]
   ++ cols FFloat false ["ACSET"; "ALOSS"; "BLOSS"; "MINLOSS"; "SMAX"; "IMAX"; "PWF"; "MAXQ"; "MINQ"] ++ cols FText false ["REMOT"]
   ++ cols FFloat false ["RMPCT"])%list.

(** *** sections *)
Inductive item :=
| IBus (b : raw_bus) | ILoad (id : string) (x : raw_load) | IFs (id : string) (x : raw_fs) | IGen (id : string) (x : raw_gen)
| IShort (* a generator row of fewer than 16 columns *)
| IBranch (ckt : string) (x : raw_branch) | IX2 (si sj ckt : string) (x : raw_x2) | IX3 (ckt : string) (x : raw_x3) | ISs (x : raw_ss).
(** the rows of one record of a section, and what they say *)
Inductive record_of (rev : Z) : section -> list row -> list item -> Prop :=
| rec_bus : forall r b, bus_row rev r b -> record_of rev SBus [r] [IBus b]
| rec_load : forall r id x, load_row rev r id x -> record_of rev SLoad [r] [ILoad id x]
| rec_fs : forall r id x, fs_row r id x -> record_of rev SFixed [r] [IFs id x]
| rec_gen : forall r id x, gen_row rev r id x -> record_of rev SGen [r] [IGen id x]
| rec_short : forall r, (List.length r < 16)%nat -> record_of rev SGen [r] [IShort]
| rec_branch : forall r ckt x, branch_row rev r ckt x -> record_of rev SBranch [r] [IBranch ckt x]
| rec_x2 : forall r r2 r3 r4 si sj ckt x, x2_rows rev r r2 r3 r4 si sj ckt x -> record_of rev SXfmr [r; r2; r3; r4] [IX2 si sj ckt x]
| rec_x3 : forall r r2 r3 r4 r5 ckt x, x3_rows rev r r2 r3 r4 r5 ckt x -> record_of rev SXfmr [r; r2; r3; r4; r5] [IX3 ckt x]
| rec_ss : forall r x, ss_row rev r x -> record_of rev SShunt [r] [ISs x]
| rec_area : forall r, accepts area_layout false r -> record_of rev SArea [r] []
| rec_dc : forall r1 r2 r3, accepts dc1_layout false r1 -> accepts dc2_layout false r2 -> accepts dc3_layout false r3 ->
    record_of rev SDc [r1; r2; r3] []
| rec_vsc : forall r1 r2 r3, accepts vsc1_layout true r1 -> accepts vsc2_layout false r2 -> accepts vsc2_layout false r3 ->
    record_of rev SVsc [r1; r2; r3] []
| rec_imp : forall r, (rev <> 34%Z -> accepts imp_layout true r) -> record_of rev SImp [r] []
| rec_group : forall r, (5 <= List.length r)%nat -> accepts group_layout true r -> record_of rev SGroup [r] []
| rec_zone : forall r, accepts zone_layout false r -> record_of rev SZone [r] []
| rec_owner : forall r, accepts zone_layout false r -> record_of rev SOwner [r] []
| rec_inter : forall r, accepts inter_layout false r -> record_of rev SInter [r] []
| rec_facts : forall r, accepts (facts_layout rev) false r -> record_of rev SFacts [r] []
| rec_switching : forall r, record_of rev SSwitching [r] []
| rec_multi : forall r, record_of rev SMulti [r] [].

Definition comment_row (r : row) : Prop := exists t ts, r = String "@" t :: ts.
Definition quit_row (r : row) : Prop := exists t ts, r = String "q" t :: ts \/ r = String "Q" t :: ts.
(** the tokens of a row, with blanks between *)
Fixpoint spread (r : row) : string := match r with [] => "" | t :: ts => t ++ match ts with [] => "" | _ => " " ++ spread ts end end.
(** a section ends with 0, alone or followed by blank and slash *)
Definition end_row (r : row) : Prop := spread r = "0" \/ exists c, spread r = "0 /" ++ c.
Definition named_row (r : row) : Prop := exists c t ts, r = String c t :: ts.
Definition data_row (r : row) : Prop := named_row r /\ ~ comment_row r /\ ~ quit_row r /\ ~ end_row r.

(** the rows of a section before the one that ends it *)
Inductive section_rows (rev : Z) (s : section) : list row -> list item -> Prop :=
| rows_none : section_rows rev s [] []
| rows_comment : forall r rows is, comment_row r -> section_rows rev s rows is -> section_rows rev s (r :: rows) is
| rows_record : forall r more rows is js, data_row r -> record_of rev s (r :: more) is -> section_rows rev s rows js ->
    section_rows rev s ((r :: more) ++ rows) (is ++ js).
(** system-wide data: every row counts, comments too *)
Definition system_row (r : row) : Prop := named_row r /\ ~ quit_row r /\ ~ end_row r.
(** GNE devices, induction machines and substations: a comment hides the row after it, whatever that is *)
Inductive hidden_rows : list row -> Prop :=
| hidden_none : hidden_rows []
| hidden_row : forall r rows, data_row r -> hidden_rows rows -> hidden_rows (r :: rows)
| hidden_comment : forall r cs h rows, comment_row r -> Forall comment_row cs -> named_row h -> ~ comment_row h ->
    hidden_rows rows -> hidden_rows (r :: cs ++ h :: rows).
Definition plain_section (s : section) : Prop := ~ In s [SSystem; SGne; SInd; SSub].
Inductive before_end (rev : Z) : section -> list row -> list item -> Prop :=
| before_plain : forall s rows is, plain_section s -> section_rows rev s rows is -> before_end rev s rows is
| before_system : forall rows, Forall system_row rows -> before_end rev SSystem rows []
| before_hidden : forall s rows, In s [SGne; SInd; SSub] -> hidden_rows rows -> before_end rev s rows [].
(** the rows after the heading: the sections in order, each with its end row; anything may follow the last one, or a
    quit row (in the system-wide data also a row whose first token is empty) *)
Inductive body (rev : Z) : list section -> list row -> list item -> Prop :=
| body_done : forall rows, body rev [] rows []
| body_section : forall s ss rows e rest is js, before_end rev s rows is -> end_row e ->
    body rev ss rest js -> body rev (s :: ss) (rows ++ e :: rest) (is ++ js)
| body_quit : forall s ss rows q rest is, before_end rev s rows is ->
    (quit_row q \/ s = SSystem /\ exists ts, q = "" :: ts) -> body rev (s :: ss) (rows ++ q :: rest) is.

Definition order (rev : Z) : list section :=
  if Z.eqb rev 30
  then [SBus; SLoad; SGen; SBranch; SXfmr; SArea; SDc; SVsc; SShunt; SImp; SMulti; SGroup; SZone; SInter; SOwner; SFacts]
  else if Z.eqb rev 32
  then [SBus; SLoad; SFixed; SGen; SBranch; SXfmr; SArea; SDc; SVsc; SImp; SMulti; SGroup; SZone; SInter; SOwner; SFacts; SShunt]
  else if Z.eqb rev 33
  then [SBus; SLoad; SFixed; SGen; SBranch; SXfmr; SArea; SDc; SVsc; SImp; SMulti; SGroup; SZone; SInter; SOwner; SFacts; SShunt; SGne]
  else [SSystem; SBus; SLoad; SFixed; SGen; SBranch; SSwitching; SXfmr; SArea; SDc; SVsc; SImp; SMulti; SGroup; SZone; SInter; SOwner;
        SFacts; SShunt; SGne; SInd; SSub].

(** *** heading: an optional comment row, the case identification, two titles.  With more comment rows, the case
    identification is the first row that is none, but the rows are counted from the second. *)
Definition case_layout : list column :=
  (cols FInt false ["IC"] ++ cols FFloat true ["SBASE"] ++ cols FInt false ["REV"; "XFRRAT"; "NXFRAT"] ++ cols FFloat false ["BASFRQ"])%list.
Definition short_case_layout : list column := (cols FInt false ["IC"] ++ cols FFloat true ["SBASE"])%list.
Definition heading (rows : list row) (rev : Z) (sbase : R) (rest : list row) : Prop :=
  exists pre r1 t1 t2 cs c more,
    rows = (pre ++ r1 :: t1 :: t2 :: rest)%list /\ (pre = [] /\ ~ comment_row r1 \/ exists k, pre = [k] /\ comment_row k) /\
    rows = (cs ++ c :: more)%list /\ Forall comment_row cs /\ named_row c /\ ~ comment_row c /\
    (List.length r1 = 2%nat /\ rev = 30%Z /\ accepts short_case_layout false c /\ float_in short_case_layout false c "SBASE" 0%R sbase \/
     List.length r1 <> 2%nat /\ exists c', Forall2 before_slash (firstn 6 c) c' /\ accepts case_layout false c' /\
       float_in case_layout false c' "SBASE" 0%R sbase /\ int_in case_layout false c' "REV" 33%Z rev) /\
    In rev [30; 32; 33; 34]%Z.

(** *** the tables: of the records with one key the last, in the order of the keys *)
Inductive text_lt : string -> string -> Prop :=
| text_shorter : forall c s, text_lt "" (String c s)
| text_char : forall c d s t, (nat_of_ascii c < nat_of_ascii d)%nat -> text_lt (String c s) (String d t)
| text_later : forall c s t, text_lt s t -> text_lt (String c s) (String c t).
(** numbers and texts by themselves; the keys of one table have the same form, so the other cases do not occur *)
Definition atom_lt (a b : katom) : Prop :=
  match a, b with
  | KI m, KI n => (m < n)%Z
  | KS s, KS t => text_lt s t
  | KI _, _ => True
  | KS _, KNone => True
  | _, _ => False
  end.
Inductive key_lt : key -> key -> Prop :=
| key_none : forall x a, key_lt [] (x :: a)
| key_first : forall x y a b, atom_lt x y -> key_lt (x :: a) (y :: b)
| key_next : forall x a b, key_lt a b -> key_lt (x :: a) (x :: b).
Definition last_with_key A (l : list (key * A)) (k : key) (x : A) : Prop :=
  exists before after, l = (before ++ (k, x) :: after)%list /\ forall y, ~ In (k, y) after.
Definition collected A (l : list (key * A)) (out : list A) : Prop :=
  exists es, out = map snd es /\ (forall i j a b, (i < j)%nat -> nth_error es i = Some a -> nth_error es j = Some b -> key_lt (fst a) (fst b)) /\
    forall k x, In (k, x) es <-> last_with_key l k x.
Definition bus_items (is : list item) : list (key * raw_bus) :=
  flat_map (fun i => match i with IBus b => [([KI (b_num b)], b)] | _ => [] end) is.
Definition load_items (is : list item) : list (key * raw_load) :=
  flat_map (fun i => match i with ILoad id x => [([KI (rl_bus x); KS id], x)] | _ => [] end) is.
Definition fs_items (is : list item) : list (key * raw_fs) :=
  flat_map (fun i => match i with IFs id x => [([KI (fs_bus x); KS id], x)] | _ => [] end) is.
Definition gen_items (is : list item) : list (key * raw_gen) :=
  flat_map (fun i => match i with IGen id x => [([KI (g_bus x); KS id], x)] | _ => [] end) is.
Definition branch_items (is : list item) : list (key * raw_branch) :=
  flat_map (fun i => match i with IBranch ckt x => [([KI (br_i x); KI (br_j x); KS ckt], x)] | _ => [] end) is.
Definition x2_items (is : list item) : list (key * raw_x2) :=
  flat_map (fun i => match i with IX2 si sj ckt x => [([KS si; KS sj; KS ckt], x)] | _ => [] end) is.
Definition x3_items (is : list item) : list (key * raw_x3) :=
  flat_map (fun i => match i with IX3 ckt x => [([KI (h_i x); KI (h_j x); KI (h_k x); KS ckt], x)] | _ => [] end) is.
Definition ss_items (is : list item) : list (key * raw_ss) :=
  flat_map (fun i => match i with ISs x => [([KI (ss_bus x)], x)] | _ => [] end) is.
(** no two records of a table with the same key *)
Definition distinct_records (is : list item) : Prop :=
  NoDup (map fst (bus_items is)) /\ NoDup (map fst (load_items is)) /\ NoDup (map fst (fs_items is)) /\
  NoDup (map fst (gen_items is)) /\ NoDup (map fst (branch_items is)) /\ NoDup (map fst (x2_items is)) /\
  NoDup (map fst (x3_items is)) /\ NoDup (map fst (ss_items is)).
(** the case; a short generator row next to other generators makes the file unusable *)
Definition case_from (rev : Z) (sbase : R) (is : list item) (c : raw_case) : Prop :=
  rc_rev c = rev /\ rc_sbase c = sbase /\ (In IShort is -> gen_items is = []) /\
  collected (bus_items is) (rc_buses c) /\ collected (load_items is) (rc_loads c) /\ collected (fs_items is) (rc_fs c) /\
  collected (gen_items is) (rc_gens c) /\ collected (branch_items is) (rc_branches c) /\ collected (x2_items is) (rc_x2 c) /\
  collected (x3_items is) (rc_x3 c) /\ collected (ss_items is) (rc_ss c).
End Reading.
