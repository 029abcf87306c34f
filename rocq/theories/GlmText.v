(** Model of the first stage of the GridLAB-D reader, src/ditto/readers/gridlabd/read.py:68-197
    (read_gld_objects_and_schedules), and of the object class it fills, src/ditto/formats/gridlabd/base.py.

    Simplifications.  The file is its list of rows without the newline; characters are 8-bit and white space
    is ASCII white space.  The classes generated from schema.json are the parameter [schema], which gives the
    property names of a class (its own and its ancestors') or None for an unknown class name.  The two unit
    conversions str(float(v)/12) and str(float(v)*1e6) and the cron test are parameters, as they go through
    float formatting and the croniter package. *)
From Coq Require Import String Ascii List Bool ZArith.
From Verif Require Import PyExc.
Import ListNotations.
Local Open Scope string_scope.
Set Implicit Arguments.

(** *** Python's string operations *)
(** str.isspace on ASCII characters *)
Definition is_ws (c : ascii) : bool :=
  match nat_of_ascii c with
  | 9 | 10 | 11 | 12 | 13 | 28 | 29 | 30 | 31 | 32 => true
  | _ => false
  end%nat.
Fixpoint lstrip (f : ascii -> bool) (s : string) : string :=
  match s with String c r => if f c then lstrip f r else s | "" => "" end.
Fixpoint rstrip (f : ascii -> bool) (s : string) : string :=
  match s with
  | "" => ""
  | String c r => match rstrip f r with
                  | "" => if f c then "" else String c ""
                  | t => String c t
                  end
  end.
(** s.strip(chars): characters for which [f] holds are removed at both ends *)
Definition strip_by (f : ascii -> bool) (s : string) : string := lstrip f (rstrip f s).
(** s.strip() *)
Definition strip : string -> string := strip_by is_ws.
(** s[:s.find("//")], the whole of s if there is none *)
Fixpoint cut_comment (s : string) : string :=
  match s with
  | "" => ""
  | String c r => match c, r with
                  | "/"%char, String "/"%char _ => ""
                  | _, _ => String c (cut_comment r)
                  end
  end.
(** s[:s.find(c)], the whole of s if there is none *)
Fixpoint cut_at (c : ascii) (s : string) : string :=
  match s with "" => "" | String d r => if Ascii.eqb d c then "" else String d (cut_at c r) end.
(** s.split(): the words of s *)
Definition push (w : string) (ws : list string) : list string := match w with "" => ws | _ => w :: ws end.
Fixpoint split2 (s : string) : string * list string :=
  match s with
  | "" => ("", [])
  | String c r => if is_ws c then ("", push (fst (split2 r)) (snd (split2 r)))
                  else (String c (fst (split2 r)), snd (split2 r))
  end.
Definition split (s : string) : list string := push (fst (split2 s)) (snd (split2 s)).
(** s.split(":"): never empty *)
Fixpoint colon2 (s : string) : string * list string :=
  match s with
  | "" => ("", [])
  | String c r => if Ascii.eqb c ":" then ("", fst (colon2 r) :: snd (colon2 r))
                  else (String c (fst (colon2 r)), snd (colon2 r))
  end.
(** s without its double quotes, the replace of 135 *)
Fixpoint unquote (s : string) : string :=
  match s with "" => "" | String c r => if Ascii.eqb c """" then unquote r else String c (unquote r) end.
(** s[-1] == c, false on the empty string *)
Fixpoint ends_with (c : ascii) (s : string) : bool :=
  match s with "" => false | String d "" => Ascii.eqb d c | String _ r => ends_with c r end.
Definition starts_with (c : ascii) (s : string) : bool :=
  match s with "" => false | String d _ => Ascii.eqb d c end.
(** " ".join *)
Fixpoint join (ws : list string) : string :=
  match ws with [] => "" | [w] => w | w :: ws => w ++ " " ++ join ws end.

(** *** objects and dictionaries *)
(** an instance of a generated class: the attributes set so far, base.py:23-36 *)
Record gobj := { go_class : string; go_attrs : list (string * string) }.
(** a dictionary keeps the position of a key whose value is replaced *)
Fixpoint dset A (k : string) (v : A) (d : list (string * A)) : list (string * A) :=
  match d with
  | [] => [(k, v)]
  | (k', v') :: d => if String.eqb k k' then (k', v) :: d else (k', v') :: dset k v d
  end.
Fixpoint dget A (k : string) (d : list (string * A)) : option A :=
  match d with [] => None | (k', v) :: d => if String.eqb k k' then Some v else dget k d end.
(** obj[k], base.py:23-29 *)
Definition gget (o : gobj) (k : string) : pres string :=
  match dget k (go_attrs o) with Some v => Ok v | None => Err AttributeError end.
Definition gset_raw (o : gobj) (k v : string) : gobj :=
  {| go_class := go_class o; go_attrs := dset k v (go_attrs o) |}.

Definition mem (k : string) (l : list string) : bool := existsb (String.eqb k) l.
(** skipped_objects, 34-54 *)
Definition skipped_objects : list string :=
  [ "house"; "solar"; "inverter"; "waterheater"; "climate"; "ZIPload"; "tape.recorder"; "player";
    "tape.collector"; "tape.group_recorder"; "recorder"; "voltdump"; "currdump"; "collector"; "metrics";
    "eventgen"; "fault_check"; "power_metrics"; "impedance_dump" ].

Section Reading.
Variable schema : string -> option (list string).
Variable over12 : string -> pres string.   (* str(float(v) / 12) *)
Variable mega : string -> pres string.     (* str(float(v) * 1e6) *)
Variable cron_hit : string -> pres bool.   (* croniter(cron, sub_datetime).get_next() == origin_datetime *)

(** obj[k] = v, base.py:31-36 *)
Definition gset (o : gobj) (k v : string) : pres gobj :=
  match schema (go_class o) with
  | Some ps => if mem k ps then Ok (gset_raw o k v) else Err AttributeError
  | None => Err AttributeError
  end.

(** the local variables of the loop, 75-80 and 120; [g_cnt] is schedule_bracket_cnt *)
Record gstate := { g_cur : option gobj; g_ign : bool; g_objs : list (string * gobj);
                   g_sched : option string; g_cnt : Z; g_found : bool; g_scheds : list (string * string) }.
Definition g_start : gstate :=
  {| g_cur := None; g_ign := false; g_objs := []; g_sched := None; g_cnt := 0; g_found := false; g_scheds := [] |}.
Definition set_cur (s : gstate) (o : option gobj) : gstate :=
  {| g_cur := o; g_ign := g_ign s; g_objs := g_objs s; g_sched := g_sched s; g_cnt := g_cnt s;
     g_found := g_found s; g_scheds := g_scheds s |}.
Definition set_ign (s : gstate) (b : bool) : gstate :=
  {| g_cur := g_cur s; g_ign := b; g_objs := g_objs s; g_sched := g_sched s; g_cnt := g_cnt s;
     g_found := g_found s; g_scheds := g_scheds s |}.
Definition set_sched (s : gstate) (o : option string) (n : Z) (f : bool) : gstate :=
  {| g_cur := g_cur s; g_ign := g_ign s; g_objs := g_objs s; g_sched := o; g_cnt := n;
     g_found := f; g_scheds := g_scheds s |}.
Definition add_sched (s : gstate) (k v : string) : gstate :=
  {| g_cur := g_cur s; g_ign := g_ign s; g_objs := g_objs s; g_sched := g_sched s; g_cnt := g_cnt s;
     g_found := g_found s; g_scheds := dset k v (g_scheds s) |}.
Definition store (s : gstate) (name : string) (o : gobj) : gstate :=
  {| g_cur := None; g_ign := g_ign s; g_objs := dset name o (g_objs s); g_sched := g_sched s; g_cnt := g_cnt s;
     g_found := g_found s; g_scheds := g_scheds s |}.

Definition nth1 (l : list string) : pres string := match l with _ :: x :: _ => Ok x | _ => Err IndexError end.

(** an "object" row, 105-115; the class name is written before the skip test, but it is only read while an
    object is open, and then it is that object's class *)
Definition open_object (s : gstate) (entries : list string) : pres gstate :=
  match g_cur s with
  | Some _ => Ok (set_ign s true)
  | None =>
    do e <- nth1 entries;
    let cls := fst (colon2 e) in
    if mem cls skipped_objects then Ok s
    else match schema cls with
         | None => Err AttributeError
         | Some _ =>
           let o := {| go_class := cls; go_attrs := [] |} in
           match snd (colon2 e) with
           | [] => Ok (set_cur s (Some o))
           | num :: _ => do o' <- gset o "name" (cls ++ ":" ++ num); Ok (set_cur s (Some o'))
           end
         end
  end.

(** a "schedule" row, 117-121 *)
Definition open_schedule (s : gstate) (entries : list string) : pres gstate :=
  match g_sched s with
  | Some _ => Ok s
  | None => do e <- nth1 entries; Ok (set_sched s (Some e) 1 (g_found s))
  end.

(** element, value and unit of an attribute row, 130-146 *)
Definition attribute (o : gobj) (entries : list string) : pres gobj :=
  match entries with
  | k :: v :: rest =>
    let v := unquote v in
    do v1 <- match rest with
             | u :: _ => if String.eqb (go_class o) "line_spacing" && String.eqb u "in" then over12 v else Ok v
             | [] => Ok v
             end;
    do v2 <- match rest with
             | u :: _ => if String.eqb (go_class o) "capacitor" && String.eqb u "MVAr" then mega v1 else Ok v1
             | [] => Ok v1
             end;
    gset o k v2
  | _ => Ok o
  end.

(** the end of an object, 148-175: stored under its name, or under "from-to"; the branch that only logs is
    never taken, as reading a missing attribute raises and no attribute is None *)
Definition close_object (s : gstate) (o : gobj) : pres gstate :=
  if g_ign s then Ok (set_ign s false)
  else match gget o "name" with
       | Ok n => Ok (store s n o)
       | Err _ =>
         do f <- gget o "from";
         do t <- gget o "to";
         do o' <- gset o "name" (f ++ "-" ++ t);
         do n <- gget o' "name";
         Ok (store s n o')
       end.

(** a row while an object is open, 126-175; also returns the row, as it is cut for what follows *)
Definition in_object (s : gstate) (o : gobj) (row : string) : pres (gstate * string) :=
  let row := cut_at ";" row in
  do o' <- attribute o (split row);
  let s := set_cur s (Some o') in
  if ends_with "}" row then do s' <- close_object s o'; Ok (s', row) else Ok (s, row).

(** a row while a schedule is open, 177-195 *)
Definition in_schedule (s : gstate) (name row : string) : pres gstate :=
  let row := strip_by (Ascii.eqb ";") row in
  let entries := split row in
  do s <- (if Nat.ltb 5 (List.length entries) && negb (g_found s)
           then do hit <- cron_hit (join (removelast entries));
                Ok (if hit then add_sched (set_sched s (Some name) (g_cnt s) true) name (last entries "") else s)
           else Ok s);
  match row with
  | "" => Ok s
  | _ =>
    let n := (if ends_with "}" row then g_cnt s - 1 else g_cnt s)%Z in
    let n := (if starts_with "{" row then n + 1 else n)%Z in
    if Z.eqb n 0 then Ok (set_sched s None n false) else Ok (set_sched s (Some name) n (g_found s))
  end.

Definition first_is (k : string) (entries : list string) : bool :=
  match entries with e :: _ => String.eqb e k | [] => false end.
(** one pass of the loop, 94-195 *)
Definition read_row (s : gstate) (row : string) : pres gstate :=
  let row := strip row in
  match row with
  | String "/" (String "/" _) => Ok s
  | _ =>
    let row := cut_comment row in
    let entries := split row in
    if first_is "object" entries then open_object s entries
    else if first_is "schedule" entries then open_schedule s entries
    else do sr <- match g_cur s with Some o => in_object s o row | None => Ok (s, row) end;
         match g_sched s with
         | Some name => in_schedule (fst sr) name (snd sr)
         | None => Ok (fst sr)
         end
  end.
Definition read_rows (rows : list string) (s : gstate) : pres gstate := mfold read_row rows s.

(** the #include rows, 85-92: the rows of the included files follow those of the file itself; [files] gives
    the rows of a file, None if it cannot be opened (FileNotFoundError, written [Raised]) *)
Variable files : string -> option (list string).
Definition quote_or_semi (c : ascii) : bool := Ascii.eqb """" c || Ascii.eqb ";" c.
Fixpoint includes (rows : list string) : pres (list string) :=
  match rows with
  | [] => Ok []
  | row :: rows =>
    if String.eqb (substring 0 8 row) "#include"
    then do e <- nth1 (split row);
         match files (strip_by quote_or_semi e) with
         | None => Err Raised
         | Some l => do r <- includes rows; Ok (l ++ r)%list
         end
    else includes rows
  end.

(** read_gld_objects_and_schedules, 68-197 *)
Definition read_glm (input : string) : pres (list (string * gobj) * list (string * string)) :=
  match files input with
  | None => Err Raised
  | Some rows =>
    do more <- includes rows;
    do s <- read_rows (rows ++ more)%list g_start;
    Ok (g_objs s, g_scheds s)
  end.
End Reading.
