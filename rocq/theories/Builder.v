(** Model of src/logic/stamping/matrixbuilder.py (class MatrixBuilder). *)
From Coq Require Import List Bool Arith.
Import ListNotations.

Section Builder.
Context {V : Type}.
Variable isz : V -> bool.      (* python: value == 0 *)
Variable isbad : V -> bool.    (* math.isnan(value) or not a number, line 25; only looked at in debug mode *)
Variable debug : bool.         (* settings.debug *)

Definition entry := (nat * nat * V)%type.

(** __init__, lines 8-14.  [b_entries] are the three parallel lists _row, _col, _val;
    _max_index is always their length, so it is not stored. Rows and columns are natural numbers:
    the checks for negative or non-integer indices (lines 21-24) can not fail here. *)
Record builder := { b_entries : list entry; b_index : nat }.

Definition b_init : builder := {| b_entries := []; b_index := 0 |}.
Definition b_max_index (b : builder) : nat := length (b_entries b).

Inductive berror := InvalidValue | IndexError | GarbageRemains.
Inductive bresult (A : Type) := BOk (a : A) | BErr (e : berror).
Arguments BOk {A}. Arguments BErr {A}.

Fixpoint set_nth (n : nat) (x : entry) (l : list entry) : list entry :=
  match l, n with
  | [], _ => []
  | _ :: r, O => x :: r
  | y :: r, S n => y :: set_nth n x r
  end.

(** stamp, lines 16-39 *)
Definition b_stamp (b : builder) (e : entry) : bresult builder :=
  let v := snd e in
  if isz v then BOk b
  else if debug && isbad v then BErr InvalidValue
  else if b_index b =? b_max_index b then
    BOk {| b_entries := b_entries b ++ [e]; b_index := S (b_index b) |}
  else if b_index b <? b_max_index b then
    BOk {| b_entries := set_nth (b_index b) e (b_entries b); b_index := S (b_index b) |}
  else BErr IndexError.

(** clear, lines 41-42 *)
Definition b_clear (b : builder) (retain : nat) : builder :=
  {| b_entries := b_entries b; b_index := retain |}.

(** to_matrix, lines 44-48: the triples handed to csc_matrix *)
Definition b_to_matrix (b : builder) : bresult (list entry) :=
  if debug && negb (b_max_index b =? b_index b) then BErr GarbageRemains
  else BOk (b_entries b).

(** get_row / get_col, lines 50-60 *)
Definition b_get_row (b : builder) (r : nat) : list (nat * V) :=
  map (fun e => (snd (fst e), snd e))
      (filter (fun e => fst (fst e) =? r) (firstn (b_index b) (b_entries b))).
Definition b_get_col (b : builder) (c : nat) : list (nat * V) :=
  map (fun e => (fst (fst e), snd e))
      (filter (fun e => snd (fst e) =? c) (firstn (b_index b) (b_entries b))).

(** get_usage, lines 90-91 *)
Definition b_get_usage (b : builder) : nat := b_index b.

(** a run of the builder *)
Inductive bop := Stamp (e : entry) | Clear (k : nat).

Definition b_step (b : builder) (o : bop) : bresult builder :=
  match o with Stamp e => b_stamp b e | Clear k => BOk (b_clear b k) end.

Fixpoint b_run (b : builder) (ops : list bop) : bresult builder :=
  match ops with
  | [] => BOk b
  | o :: r => match b_step b o with BOk b' => b_run b' r | BErr e => BErr e end
  end.
End Builder.
Arguments BOk {A}. Arguments BErr {A}.
