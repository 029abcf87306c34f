(** C127-C134: from the text of a RAW file to the case and the network *)
From Coq Require Import Reals ZArith String Ascii List Bool Permutation.
From Verif Require Import PyExc RawTransformers RawParser SpecRaw RawText SpecRawText RawLoopProofs RawFieldProofs RawRecordProofs RawRecordProofs2 RawRecordProofs3
  RawRecordProofs4 RawRecordProofs5 RawBodyProofs RawCsvProofs RawCaseProofs RawFileProofs RawProofs RawWitness RawTextWitness RawTextWitness2.
Import ListNotations.
Local Open Scope string_scope.

(** ** C127: fields *)
Theorem C127_fields_read : forall lines rows, written_file lines rows -> rows_of lines = Ok rows.
Proof. exact rows_read. Qed.
Print Assumptions C127_fields_read.
Theorem C127_fields_trimmed : forall lines rows, rows_of lines = Ok rows -> Forall (Forall trimmed) rows.
Proof. exact rows_trimmed. Qed.
Print Assumptions C127_fields_trimmed.
Example C127_example : written_file wfile wrows /\ rows_of wfile = Ok wrows /\
  map (firstn 3) (firstn 3 (skipn 4 wrows)) = [["3"; "LOAD, LOW"; "20"]; ["1"; "SLACK"; "110"]; ["2"; "MACHINE 'A'"; "110"]].
Proof. exact (conj wfile_written (conj (rows_read _ _ wfile_written) (eq_refl _))). Qed.
Example C127_blanks : rows_of ["1 'A B'   2"; "3 4 "] = Ok [["1"; "A B"; "2"]; ["3"; "4"; ""]].
Proof. exact (eq_refl _). Qed.

(** ** C128: records of one row *)
Theorem C128_bus : forall to_int to_float rev r k b, In rev [30; 32; 33; 34]%Z ->
  (read_bus to_int to_float rev r = Ok (k, b) <-> k = [KI (b_num b)] /\ bus_row to_int to_float rev r b).
Proof. exact read_bus_iff. Qed.
Print Assumptions C128_bus.
Theorem C128_load : forall to_int to_float rev r k x, In rev [30; 32; 33; 34]%Z -> Forall trimmed r ->
  (read_load to_int to_float rev r = Ok (k, x) <-> exists id, k = [KI (rl_bus x); KS id] /\ load_row to_int to_float rev r id x).
Proof. exact read_load_iff. Qed.
Print Assumptions C128_load.
Theorem C128_fixed_shunt : forall to_int to_float r k x, Forall trimmed r ->
  (read_fs to_int to_float r = Ok (k, x) <-> exists id, k = [KI (fs_bus x); KS id] /\ fs_row to_int to_float r id x).
Proof. exact read_fs_iff. Qed.
Print Assumptions C128_fixed_shunt.
Theorem C128_generator : forall to_int to_float rev r k x, Forall trimmed r ->
  (read_gen to_int to_float rev r = Ok (k, Some x) <-> exists id, k = [KI (g_bus x); KS id] /\ gen_row to_int to_float rev r id x).
Proof. exact read_gen_iff. Qed.
Print Assumptions C128_generator.
Theorem C128_short_generator : forall to_int to_float rev r k,
  read_gen to_int to_float rev r = Ok (k, None) <-> k = [KNone; KS "1"] /\ (List.length r < 16)%nat.
Proof. exact read_gen_short. Qed.
Print Assumptions C128_short_generator.
Theorem C128_branch : forall to_int to_float rev r k x, In rev [30; 32; 33; 34]%Z -> Forall trimmed r ->
  (read_branch to_int to_float rev r = Ok (k, x) <->
   exists ckt, k = [KI (br_i x); KI (br_j x); KS ckt] /\ branch_row to_int to_float rev r ckt x).
Proof. exact read_branch_iff. Qed.
Print Assumptions C128_branch.
Theorem C128_switched_shunt : forall to_int to_float rev r k x, In rev [30; 32; 33; 34]%Z ->
  (read_ss to_int to_float rev r = Ok (k, x) <-> k = [KI (ss_bus x)] /\ ss_row to_int to_float rev r x).
Proof. exact read_ss_iff. Qed.
Print Assumptions C128_switched_shunt.
Example C128_example : read_bus wint wfloat 33 (row_of (nth 5 wfile "")) = Ok ([KI 1], wbus 1 3 110) /\
  bus_row wint wfloat 33 (row_of (nth 5 wfile "")) (wbus 1 3 110) /\
  read_branch wint wfloat 33 ["1"; "2"; ""; "0.01"; "0.1"] = Err Raised.
Proof.
  assert (H : read_bus wint wfloat 33 (row_of (nth 5 wfile "")) = Ok ([KI 1], wbus 1 3 110)) by (vm_compute; reflexivity).
  exact (conj H (conj (proj2 (proj1 (read_bus_iff wint wfloat 33 _ [KI 1] (wbus 1 3 110) (or_intror (or_intror (or_introl eq_refl)))) H)) (eq_refl _))).
Qed.

(** ** C129: transformers *)
Theorem C129_two_windings : forall to_int to_float rev r r2 r3 r4 k x, In rev [30; 32; 33; 34]%Z ->
  (tok r 2 = Ok "0" /\ read_x2 to_int to_float rev r r2 r3 r4 = Ok (k, x) <->
   exists si sj ckt, k = [KS si; KS sj; KS ckt] /\ x2_rows to_int to_float rev r r2 r3 r4 si sj ckt x).
Proof. exact read_x2_iff. Qed.
Print Assumptions C129_two_windings.
Theorem C129_three_windings : forall to_int to_float rev r r2 r3 r4 r5 k x, In rev [30; 32; 33; 34]%Z ->
  ((exists t, tok r 2 = Ok t /\ t <> "0") /\ read_x3 to_int to_float rev r r2 r3 r4 r5 = Ok (k, x) <->
   exists ckt, k = [KI (h_i x); KI (h_j x); KI (h_k x); KS ckt] /\ x3_rows to_int to_float rev r r2 r3 r4 r5 ckt x).
Proof. exact read_x3_iff. Qed.
Print Assumptions C129_three_windings.
Example C129_example : read_x2 wint wfloat 33 xrow xz xw (row_of "1.05,0") = Ok ([KS "2"; KS "3"; KS "1"], wx2).
Proof. vm_compute. rewrite code_zero. reflexivity. Qed.
(** with the third bus left empty, the four rows of a transformer with two windings are refused *)
Example C129_empty_third_bus : record wint wfloat 33 SXfmr no_tables (row_of "2,3,,'1 ',1,1,1,0,0,2,'T1',1,1,1,0,1,0,1,0,1,' '")
  [xz; xw; row_of "1.05,0"; ["0"]] = Err IndexError.
Proof. vm_compute. reflexivity. Qed.

(** ** C130: the whole file *)
Theorem C130_file_read : forall to_int to_float lines rows c, written_file lines rows ->
  (read_raw to_int to_float lines = Ok c <->
   exists rev sb rest is, heading to_int to_float rows rev sb rest /\ body to_int to_float rev (order rev) rest is /\ case_from rev sb is c).
Proof. exact read_raw_iff. Qed.
Print Assumptions C130_file_read.
Example C130_example : written_file wfile wrows /\ read_raw wint wfloat wfile = Ok wfile_case.
Proof. exact (conj wfile_written wfile_read). Qed.
Example C130_records : body wint wfloat 30 (order 30) (srest [line3; line1]) [b3; b1] /\ case_from 30 100 [b3; b1] scase.
Proof.
  assert (B := s_body line3 line1 b3 b1 (or_intror (conj eq_refl (conj eq_refl (conj eq_refl eq_refl))))).
  exact (conj B (proj1 (read_items _ _ _ _ _ _ _ _ _ (s_written [line3; line1] eq_refl) (s_heading _) B) (proj2 s_read))).
Qed.
(** an end row written without the blank is not recognised, an empty line is not skipped, and after a comment the row
    that ends the last section of revision 33 is not seen *)
Example C130_end_rows : read_raw wint wfloat (sfile [line1; "0/"; line3]) = Err Raised /\
  read_raw wint wfloat (sfile [line1; ""; line3]) = Err IndexError /\
  read_raw wint wfloat (whead ++ [nth 1 wbus_lines ""] ++ repeat "0" 17 ++ ["@ no devices"; "0"]) = Err IndexError.
Proof. repeat split; vm_compute; reflexivity. Qed.

(** ** C131: the order of the records *)
Theorem C131_order_irrelevant : forall to_int to_float lines rows lines' rows' rev sb rest rest' is is',
  written_file lines rows -> heading to_int to_float rows rev sb rest -> body to_int to_float rev (order rev) rest is ->
  written_file lines' rows' -> heading to_int to_float rows' rev sb rest' -> body to_int to_float rev (order rev) rest' is' ->
  distinct_records is -> Permutation is is' ->
  forall c, read_raw to_int to_float lines = Ok c <-> read_raw to_int to_float lines' = Ok c.
Proof. exact read_order. Qed.
Print Assumptions C131_order_irrelevant.
Example C131_example : read_raw wint wfloat (sfile [line1; line3]) = Ok scase <-> read_raw wint wfloat (sfile [line3; line1]) = Ok scase.
Proof.
  exact (read_order wint wfloat _ _ _ _ _ _ _ _ _ _ (s_written [line1; line3] eq_refl) (s_heading _)
    (s_body line1 line3 b1 b3 (or_introl (conj eq_refl (conj eq_refl (conj eq_refl eq_refl))))) (s_written [line3; line1] eq_refl) (s_heading _)
    (s_body line3 line1 b3 b1 (or_intror (conj eq_refl (conj eq_refl (conj eq_refl eq_refl))))) s_distinct s_perm scase).
Qed.

(** ** C132: files cut off *)
Theorem C132_longer_file : forall to_int to_float lines rows c more, written_file lines rows ->
  read_raw to_int to_float lines = Ok c -> read_raw to_int to_float (lines ++ more) = Ok c.
Proof. exact read_more. Qed.
Print Assumptions C132_longer_file.
Example C132_example : read_raw wint wfloat (wfile ++ ["1,2"]) = Ok wfile_case /\ read_raw wint wfloat (firstn 40 wfile) = Err IndexError.
Proof. split; [exact (read_more _ _ _ _ _ _ wfile_written wfile_read) | vm_compute; reflexivity]. Qed.

(** ** C133: the network of a file *)
Theorem C133_network : forall to_int to_float lines rows rev sb rest is net, written_file lines rows ->
  heading to_int to_float rows rev sb rest -> body to_int to_float rev (order rev) rest is ->
  (forall b, In (IBus b) is -> b_num b <> (-1)%Z) ->
  (load_raw to_int to_float lines = Ok net <-> exists c, case_from rev sb is c /\ raw_ok c /\ raw_net c net).
Proof. exact load_raw_iff. Qed.
Print Assumptions C133_network.
Theorem C133_bus_numbers : forall rev sb is c, case_from rev sb is c -> NoDup (map b_num (rc_buses c)).
Proof. exact case_buses. Qed.
Print Assumptions C133_bus_numbers.
(** the list of slack buses Data.py keeps besides the table *)
Theorem C133_slack_buses : forall rev sb is c, NoDup (map fst (bus_items is)) -> case_from rev sb is c ->
  forall n, slack_bus (rc_buses c) n = true <-> In n (rt_slack (put_items no_tables is)).
Proof. exact slack_agrees. Qed.
Print Assumptions C133_slack_buses.
Example C133_example : exists net, load_raw wint wfloat wfile = Ok net.
Proof. exact wfile_loads. Qed.

(** ** C134: short generator rows *)
Theorem C134_refused : forall to_int to_float lines rows rev sb rest is, written_file lines rows -> heading to_int to_float rows rev sb rest ->
  body to_int to_float rev (order rev) rest is -> In IShort is -> (exists id g, In (IGen id g) is) -> read_raw to_int to_float lines = Err TypeError.
Proof. exact short_refused. Qed.
Print Assumptions C134_refused.
Theorem C134_dropped : forall to_int to_float lines rows rev sb rest is, written_file lines rows -> heading to_int to_float rows rev sb rest ->
  body to_int to_float rev (order rev) rest is -> (forall id g, ~ In (IGen id g) is) ->
  forall c, read_raw to_int to_float lines = Ok c <-> case_from rev sb (filter (fun i => match i with IShort => false | _ => true end) is) c.
Proof. exact short_dropped. Qed.
Print Assumptions C134_dropped.
Example C134_example :
  (exists c, read_raw wint wfloat (gfile ["1,'1 ',50,10,100,-100,1,0,100,0,1,0,0,1,1"]) = Ok c /\ rc_gens c = []) /\
  read_raw wint wfloat (gfile ["1,'1 ',50,10,100,-100,1,0,100,0,1,0,0,1,1"; "1,'2 ',20,5,100,-100,1,0,100,0,1,0,0,1,1,100"]) = Err TypeError /\
  exists c, read_raw wint wfloat (gfile ["1,'2 ',20,5,100,-100,1,0,100,0,1,0,0,1,1,100"]) = Ok c /\ map g_pg (rc_gens c) = [20%R].
Proof. split; [|split]; [eexists; split; vm_compute; reflexivity | vm_compute; reflexivity | eexists; split; vm_compute; reflexivity]. Qed.
(** with 27 columns the wind machine columns are taken to be the last two, so the control mode is read from F4 *)
Example C134_wind_columns :
  exists k g, read_gen wint wfloat 33 ["1"; "1"; "20"; "5"; "9"; "-9"; "1"; "0"; "100"; "0"; "1"; "0"; "0"; "1"; "1"; "100"; "9"; "0";
                                       "1"; "1"; "0"; "1"; "0"; "1"; "0"; "2"; "1"] = Ok (k, Some g) /\ g_wmod g = 2%Z.
Proof. eexists _, _. split; vm_compute; reflexivity. Qed.
