(** Schedules in a GridLAB-D file, written without the reader: how their rows are put together, and the value
    a schedule has at the given time. *)
From Coq Require Import String Ascii List Bool Arith.
From Verif Require Import PyExc SpecGlm.
Import ListNotations.
Local Open Scope string_scope.
Set Implicit Arguments.

(** the words of t, with white space between them and none around them *)
Inductive spaced : list string -> string -> Prop :=
  | spaced_one : forall w, spaced [w] w
  | spaced_more : forall w x ws t, blank x -> x <> "" -> spaced ws t -> spaced (w :: ws) (w ++ x ++ t).
(** what may follow: blanks, or a semicolon and blanks, or either with a comment directly behind it *)
Definition tail (t : string) : Prop :=
  exists s u, t = s ++ u /\ (s = "" \/ s = ";") /\ (blank u \/ exists c, u = "//" ++ c).
(** a row made of these words *)
Definition words_row (ws : list string) (r : string) : Prop :=
  exists w1 t x e, r = w1 ++ t ++ x ++ e /\ blank w1 /\ spaced ws t /\ blank x /\ tail e
    /\ Forall token ws
    /\ (forall k l, ws = k :: l -> k <> "object" /\ k <> "schedule" /\ forall a, k <> "{" ++ a).
(** the row  minute hour day month weekday … value *)
Definition cron_row (c v r : string) : Prop :=
  exists ws, words_row (ws ++ [v]) r /\ (5 <= List.length ws)%nat /\ c = String.concat " " ws.
(** a row too short for that *)
Definition short_row (r : string) : Prop := exists ws, words_row ws r /\ (List.length ws <= 5)%nat.
(** a brace alone on its row, or directly followed by a semicolon or a comment *)
Definition block_open (r : string) : Prop := exists w x e, r = w ++ "{" ++ x ++ e /\ blank w /\ blank x /\ tail e.
Definition block_close (r : string) : Prop := exists w e, r = w ++ "}" ++ e /\ blank w /\ tail e.
(** the row  schedule name … *)
Definition schedule_row (name r : string) : Prop :=
  exists w1 w2 t, r = w1 ++ "schedule" ++ w2 ++ name ++ t /\ blank w1 /\ blank w2 /\ w2 <> "" /\ gap t
    /\ word name /\ no_comment name.

(** the body of a schedule: its cron expressions and values in order; rows that are too short do not count,
    blocks without a name may be nested *)
Inductive sched_body : list (string * string) -> list string -> Prop :=
  | sb_nil : sched_body [] []
  | sb_noise : forall r cs rows, noise r -> sched_body cs rows -> sched_body cs (r :: rows)
  | sb_short : forall r cs rows, short_row r -> sched_body cs rows -> sched_body cs (r :: rows)
  | sb_cron : forall c v r cs rows, cron_row c v r -> sched_body cs rows -> sched_body ((c, v) :: cs) (r :: rows)
  | sb_block : forall r0 cs1 rows1 r1 cs rows, block_open r0 -> sched_body cs1 rows1 -> block_close r1 ->
      sched_body cs rows -> sched_body (cs1 ++ cs) (r0 :: rows1 ++ r1 :: rows).
Definition schedule := (string * list (string * string))%type.
Definition one_schedule (s : schedule) (rows : list string) : Prop :=
  exists r0 body r1, rows = (r0 :: body ++ [r1])%list /\ schedule_row (fst s) r0 /\ sched_body (snd s) body /\ block_close r1.
(** the same with the opening brace on a row of its own *)
Definition braced_schedule (s : schedule) (rows : list string) : Prop :=
  exists r0 r0' body r1, rows = (r0 :: r0' :: body ++ [r1])%list /\ schedule_row (fst s) r0 /\ block_open r0'
    /\ sched_body (snd s) body /\ block_close r1.

(** a file with objects and schedules *)
Inductive full_file : list described -> list schedule -> list string -> Prop :=
  | full_nil : full_file [] [] []
  | full_outside : forall r os ss rows, outside r -> full_file os ss rows -> full_file os ss (r :: rows)
  | full_object : forall cls kvs b os ss rows, one_object cls kvs b -> full_file os ss rows ->
      full_file ((cls, kvs) :: os) ss (b ++ rows)
  | full_schedule : forall s b os ss rows, one_schedule s b -> full_file os ss rows -> full_file os (s :: ss) (b ++ rows).

(** the value of a schedule: that of its first row whose cron expression hits the time; none if no row does *)
Inductive picks (hits : string -> pres bool) : list (string * string) -> option string -> Prop :=
  | picks_none : picks hits [] None
  | picks_hit : forall c v cs, hits c = Ok true -> picks hits ((c, v) :: cs) (Some v)
  | picks_miss : forall c v cs o, hits c = Ok false -> picks hits cs o -> picks hits ((c, v) :: cs) o.
(** the test of a cron expression raises e, and no row above it hits *)
Inductive breaks (hits : string -> pres bool) (e : perr) : list (string * string) -> Prop :=
  | breaks_here : forall c v cs, hits c = Err e -> breaks hits e ((c, v) :: cs)
  | breaks_later : forall c v cs, hits c = Ok false -> breaks hits e cs -> breaks hits e ((c, v) :: cs).
(** the schedules with their values *)
Definition valued (hits : string -> pres bool) (ss : list schedule) (vs : list (string * option string)) : Prop :=
  Forall2 (fun s v => fst s = fst v /\ picks hits (snd s) (snd v)) ss vs.
(** of schedules with one name, the last one that has a value *)
Definition last_value (n : string) (vs : list (string * option string)) : option string :=
  fold_left (fun acc v => match snd v with
                          | Some x => if String.eqb (fst v) n then Some x else acc
                          | None => acc
                          end) vs None.
(** the dictionary has exactly these values, each name once *)
Definition schedule_dictionary (vs : list (string * option string)) (d : list (string * string)) : Prop :=
  NoDup (map fst d) /\ forall n x, In (n, x) d <-> last_value n vs = Some x.
(** a cron row whose semicolon is followed by white space and a comment *)
Definition late_comment_row (c v r : string) : Prop :=
  exists ws w1 t x m, r = w1 ++ t ++ ";" ++ x ++ "//" ++ m /\ blank w1 /\ spaced (ws ++ [v]) t /\ blank x /\ x <> ""
    /\ Forall token (ws ++ [v]) /\ (5 <= List.length ws)%nat /\ c = String.concat " " ws
    /\ (forall k l, ws = k :: l -> k <> "object" /\ k <> "schedule" /\ forall a, k <> "{" ++ a).
