(** What a GridLAB-D file says, written without the reader: rows are described by how they are put together
    from blanks, words and comments. *)
From Coq Require Import String Ascii List Bool Arith.
Import ListNotations.
Local Open Scope string_scope.
Set Implicit Arguments.

Definition chars : string -> list ascii := list_ascii_of_string.
Definition white (c : ascii) : Prop := (9 <= nat_of_ascii c <= 13 \/ 28 <= nat_of_ascii c <= 32)%nat.
(** only white space, possibly empty *)
Definition blank (s : string) : Prop := forall c, In c (chars s) -> white c.
(** at least one character, no white space *)
Definition word (s : string) : Prop := s <> "" /\ forall c, In c (chars s) -> ~ white c.
Definition free (c : ascii) (s : string) : Prop := ~ In c (chars s).
Definition no_comment (s : string) : Prop := forall a b, s <> a ++ "//" ++ b.
(** nothing, or something that begins with white space *)
Definition gap (t : string) : Prop := t = "" \/ exists c t', t = String c t' /\ white c.
(** a row without meaning: blank, or a comment and nothing before it *)
Definition noise (r : string) : Prop := exists w c, blank w /\ (r = w \/ r = w ++ "//" ++ c).
(** the row's first word is k *)
Definition starts_as (k r : string) : Prop :=
  exists w t, blank w /\ r = w ++ k ++ t /\ (gap t \/ exists c, t = "//" ++ c).
(** v is q without its double quotes *)
Definition unquoted (q v : string) : Prop :=
  chars v = filter (fun c => negb (Ascii.eqb c """")) (chars q).
(** what may end a statement: nothing, a semicolon with anything after it, a comment *)
Definition ending (t : string) : Prop := t = "" \/ exists c, t = ";" ++ c \/ t = "//" ++ c.
(** a word usable as attribute name, value or unit *)
Definition token (s : string) : Prop :=
  word s /\ free ";" s /\ free "}" s /\ no_comment s /\ forall a, s <> a ++ "/".

(** the row  k q  with value v *)
Definition attr_row (k v r : string) : Prop :=
  exists w1 w2 q x t, r = w1 ++ k ++ w2 ++ q ++ x ++ t /\ blank w1 /\ blank w2 /\ w2 <> "" /\ blank x /\ ending t
    /\ token k /\ k <> "object" /\ k <> "schedule" /\ token q /\ unquoted q v.
(** the row  k q u  with value v and unit u *)
Definition unit_row (k v u r : string) : Prop :=
  exists w1 w2 w3 q x t, r = w1 ++ k ++ w2 ++ q ++ w3 ++ u ++ x ++ t
    /\ blank w1 /\ blank w2 /\ w2 <> "" /\ blank w3 /\ w3 <> "" /\ blank x /\ ending t
    /\ token k /\ k <> "object" /\ k <> "schedule" /\ token q /\ unquoted q v /\ token u.
(** the end of an object: a brace, alone on its row or directly followed by a semicolon or a comment *)
Definition close_row (r : string) : Prop :=
  exists w t, r = w ++ "}" ++ t /\ blank w /\ (blank t \/ ending t).
(** the same with blanks between the brace and a comment *)
Definition brace_comment (r : string) : Prop :=
  exists w x c, r = w ++ "}" ++ x ++ "//" ++ c /\ blank w /\ blank x /\ x <> "".
(** the row  object cls …  or  object cls:num … ; in the second form the object is named so *)
Definition open_row (cls : string) (kvs : list (string * string)) (r : string) : Prop :=
  exists w1 w2 t h, r = w1 ++ "object" ++ w2 ++ h ++ t /\ blank w1 /\ blank w2 /\ w2 <> "" /\ gap t
    /\ word h /\ no_comment h /\ free ":" cls
    /\ (h = cls /\ kvs = []
        \/ exists num, free ":" num /\ h = cls ++ ":" ++ num /\ kvs = [("name", cls ++ ":" ++ num)]).

(** attribute rows and noise, in order *)
Inductive attrs : list (string * string) -> list string -> Prop :=
  | attrs_nil : attrs [] []
  | attrs_noise : forall r kvs rows, noise r -> attrs kvs rows -> attrs kvs (r :: rows)
  | attrs_attr : forall k v r kvs rows, attr_row k v r -> attrs kvs rows -> attrs ((k, v) :: kvs) (r :: rows).
(** one object: class and attributes *)
Definition one_object (cls : string) (kvs : list (string * string)) (rows : list string) : Prop :=
  exists r0 kvs0 kvs1 body r1, rows = (r0 :: body ++ [r1])%list /\ kvs = (kvs0 ++ kvs1)%list
    /\ open_row cls kvs0 r0 /\ attrs kvs1 body /\ close_row r1.
Definition described := (string * list (string * string))%type.
(** a file: objects, noise, and rows that belong to neither an object nor a schedule *)
Definition outside (r : string) : Prop := ~ starts_as "object" r /\ ~ starts_as "schedule" r.
Inductive glm_file : list described -> list string -> Prop :=
  | file_nil : glm_file [] []
  | file_outside : forall r os rows, outside r -> glm_file os rows -> glm_file os (r :: rows)
  | file_object : forall cls kvs b os rows, one_object cls kvs b -> glm_file os rows -> glm_file ((cls, kvs) :: os) (b ++ rows).

(** the value an attribute ends with: the last one given *)
Definition final (k : string) (kvs : list (string * string)) : option string :=
  fold_left (fun acc kv => if String.eqb (fst kv) k then Some (snd kv) else acc) kvs None.
(** the name of an object: its own, or the names of its two ends *)
Definition name_of (kvs : list (string * string)) : option string :=
  match final "name" kvs, final "from" kvs, final "to" kvs with
  | Some n, _, _ => Some n
  | None, Some f, Some t => Some (f ++ "-" ++ t)
  | _, _, _ => None
  end.
(** the attribute k of an object once it is stored *)
Definition value_of (kvs : list (string * string)) (k : string) : option string :=
  if String.eqb k "name" then name_of kvs else final k kvs.

(** the classes the simulator has no use for *)
Definition unused_classes : list string :=
  [ "house"; "solar"; "inverter"; "waterheater"; "climate"; "ZIPload"; "tape.recorder"; "player";
    "tape.collector"; "tape.group_recorder"; "recorder"; "voltdump"; "currdump"; "collector"; "metrics";
    "eventgen"; "fault_check"; "power_metrics"; "impedance_dump" ].
(** the object belongs to a known, used class, has only attributes of that class, and can be named *)
Definition legal (schema : string -> option (list string)) (o : described) : Prop :=
  ~ In (fst o) unused_classes
  /\ (exists ps, schema (fst o) = Some ps /\ In "name" ps /\ incl (map fst (snd o)) ps)
  /\ name_of (snd o) <> None.
(** the last object with that name *)
Definition last_named (n : string) (os : list described) : option described :=
  fold_left (fun acc o => match name_of (snd o) with
                          | Some m => if String.eqb m n then Some o else acc
                          | None => acc
                          end) os None.
(** the same row with other blanks around it *)
Definition reindented (r r' : string) : Prop :=
  exists core w1 w2 w1' w2', blank w1 /\ blank w2 /\ blank w1' /\ blank w2'
    /\ r = w1 ++ core ++ w2 /\ r' = w1' ++ core ++ w2'.
(** rows with noise put in anywhere *)
Inductive noisier : list string -> list string -> Prop :=
  | noisier_nil : noisier [] []
  | noisier_keep : forall r a b, noisier a b -> noisier (r :: a) (r :: b)
  | noisier_add : forall r a b, noise r -> noisier a b -> noisier a (r :: b).
(** a comment put behind a row: directly behind its last character, or with blanks between if that last
    character is not a brace *)
Definition commented (r r' : string) : Prop :=
  r' = r \/ exists core w x c, r = core ++ w /\ r' = core ++ x ++ "//" ++ c /\ blank w /\ blank x /\ no_comment core
    /\ (forall a, core <> a ++ "/")
    /\ (x = "" /\ (exists a d, core = a ++ String d "" /\ ~ white d) \/ forall a y, blank y -> core <> a ++ "}" ++ y).
(** objects and noise only *)
Inductive objects_only : list described -> list string -> Prop :=
  | oo_nil : objects_only [] []
  | oo_noise : forall r os rows, noise r -> objects_only os rows -> objects_only os (r :: rows)
  | oo_object : forall cls kvs b os rows, one_object cls kvs b -> objects_only os rows -> objects_only ((cls, kvs) :: os) (b ++ rows).
(** an object that is not closed properly: its brace is followed by blanks and a comment *)
Definition unclosed_object (cls : string) (kvs : list (string * string)) (rows : list string) : Prop :=
  exists r0 kvs0 kvs1 body r1, rows = (r0 :: body ++ [r1])%list /\ kvs = (kvs0 ++ kvs1)%list
    /\ open_row cls kvs0 r0 /\ attrs kvs1 body /\ brace_comment r1.
(** the body of an object, with objects nested in it (one level); the second list has all attributes in the
    order of the rows, the nested objects' own names (object cls:num) excepted *)
Inductive nested : list (string * string) -> list string -> Prop :=
  | nested_nil : nested [] []
  | nested_noise : forall r kvs rows, noise r -> nested kvs rows -> nested kvs (r :: rows)
  | nested_attr : forall k v r kvs rows, attr_row k v r -> nested kvs rows -> nested ((k, v) :: kvs) (r :: rows)
  | nested_object : forall cls r0 kvs0 kvs1 body r1 kvs rows, open_row cls kvs0 r0 -> attrs kvs1 body -> close_row r1 ->
      nested kvs rows -> nested (kvs1 ++ kvs) ((r0 :: body ++ [r1]) ++ rows).
Definition nesting_object (cls : string) (kvs : list (string * string)) (rows : list string) : Prop :=
  exists r0 kvs0 kvs1 body r1, rows = (r0 :: body ++ [r1])%list /\ kvs = (kvs0 ++ kvs1)%list
    /\ open_row cls kvs0 r0 /\ nested kvs1 body /\ close_row r1.
(** the row  #include "f"  with or without semicolon *)
Definition include_row (f r : string) : Prop :=
  exists w s t, r = "#include" ++ w ++ """" ++ f ++ """" ++ s ++ t /\ blank w /\ w <> "" /\ (s = "" \/ s = ";") /\ gap t
    /\ word f /\ free """" f /\ free ";" f.
Inductive included (files : string -> option (list string)) : list string -> list string -> Prop :=
  | inc_nil : included files [] []
  | inc_other : forall r rows more, (forall t, r <> "#include" ++ t) -> included files rows more -> included files (r :: rows) more
  | inc_file : forall f l r rows more, include_row f r -> files f = Some l -> included files rows more ->
      included files (r :: rows) (l ++ more).
(** the object as the reader should hold it: class and attribute values *)
Definition holds_object (o : described) (cls : string) (attr : string -> option string) : Prop :=
  cls = fst o /\ forall k, attr k = value_of (snd o) k.
(** the dictionary entries are those of the objects described; of objects with one name, the last *)
Definition dictionary (os : list described) (find : string -> option (string * (string -> option string))) : Prop :=
  forall n, match last_named n os, find n with
            | Some o, Some g => holds_object o (fst g) (snd g)
            | None, None => True
            | _, _ => False
            end.
