(** Specification side of C52, C53, C55, C67, C68. *)
From Coq Require Import String Ascii List Bool Arith ZArith Reals.
From Verif Require Import TimeSeries.
Import ListNotations.
Local Open Scope R_scope.

Definition apparent (s : R * R) : R := sqrt (fst s * fst s + snd s * snd s).
Definition times (k : R) (s : R * R) : R * R := (k * fst s, k * snd s).
Definition positive (ms : list R) : Prop := forall m, In m ms -> 0 < m.
(** one load through a sequence of magnitudes *)
Definition through (s : R * R) (ms : list R) : R * R := fold_left apply_magnitude ms s.

Definition at_ {A} (l : list A) (i : nat) (x : A) : Prop := nth_error l i = Some x.
(** load [l], number [i] in the list, is the last one with its name *)
Definition owns_name (loads : list tload) (i : nat) (l : tload) : Prop :=
  at_ loads i l /\ forall j k, (i < j)%nat -> at_ loads j k -> load_name k <> load_name l.
Definition shadowed (loads : list tload) (i : nat) (l : tload) : Prop :=
  at_ loads i l /\ exists j k, (i < j)%nat /\ at_ loads j k /\ load_name k = load_name l.
(** the load is given magnitude [m] for the hour *)
Definition column_value (cols : list column) (name : string) (h : Z) (m : R) : Prop := exists f, In (name, f) cols /\ f h = Some m.
(** loads after the profiles of a list of hours *)
Definition after_hours (base : list tload) (cols : list column) (hs : list Z) : list tload :=
  fold_left (fun ls h => set_load_values (named base) cols h ls) hs base.

(** an hour option: the stated one, 0 when left out *)
Definition hour_of (o : option Z) (h : Z) : Prop := o = Some h \/ o = None /\ h = 0%Z.
(** the [n] hours from [h] on *)
Definition hours_from (h : Z) (n : nat) : list Z := map (fun j => (h + Z.of_nat j)%Z) (seq 0 n).

(** the load a phase of the swing bus is booked to: the last one with a listed number and that phase *)
Definition books (nums : list string) (loads : list tload) (phase : string) (i : nat) (l : tload) : Prop :=
  at_ loads i l /\ In (tl_num l) nums /\ load_key l = phase /\
  forall j k, (i < j)%nat -> at_ loads j k -> ~ (In (tl_num k) nums /\ load_key k = phase).
Fixpoint sum_if (p : string -> bool) (v : gout -> R) (gs : list gout) : R :=
  match gs with [] => 0 | g :: gs => (if p (go_phase g) then v g else 0) + sum_if p v gs end.
(** the number part of a load name given on the command line *)
Definition number_of (name num : string) : Prop := (exists pre, name = (pre ++ "_" ++ num)%string) \/ name = num.
Definition no_underscore (s : string) : Prop := all_chars (fun c => negb (Ascii.eqb c "_")) s = true.
Definition at_bus (name : string) (gs : list gout) : list gout := filter (fun g => String.eqb (go_name g) name) gs.
Definition magnitude_sum (gs : list gout) : R := fold_right Rplus 0 (map (fun g => sqrt (go_P g * go_P g + go_Q g * go_Q g)) gs).
Definition numbers_of (names nums : list string) : Prop := Forall2 (fun n num => number_of n num /\ no_underscore num) names nums.
(** [after]: every load of [before], with the outputs of the phases booked to it added *)
Definition booked (nums : list string) (gs : list gout) (before after : list tload) : Prop :=
  length after = length before /\
  forall i l p, at_ before i l -> (forall ph, p ph = true <-> books nums before ph i l) ->
    at_ after i (set_power l (tl_P l + sum_if p go_P gs, tl_Q l + sum_if p go_Q gs)).
