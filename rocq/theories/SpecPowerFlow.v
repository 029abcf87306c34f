(** Specification side of C144. *)
From Coq Require Import List Bool Arith Reals.
From Verif Require Import SpecSystem Components SpecComponents Network SpecNetwork Devices Graph SpecGraph SpecKirchhoff PowerFlow.
Import ListNotations.
Local Open Scope R_scope.

(** fuses and capacitors are where they belong *)
Definition sorted (nw : network) : Prop :=
  (forall e, In e (nw_fuses nw) -> exists f t m, e = EFuse f t m) /\ (forall e, In e (nw_capacitors nw) -> exists B c f t, e = ECap B c f t).

(** *** one piece *)
(** two ends an element holds together; loads, generators, shunts and the slack hold nothing together, an open switch neither, but a
    capacitor does even when open *)
Inductive joins : elem -> bref -> bref -> Prop :=
| j_line l f t : joins (ELine l f t) f t
| j_phase ph g b B p : In p ph -> joins (EUnb ph g b B) (fst p) (snd p)
| j_windings y fp fn tp tn : joins (EXf y fp fn tp tn) fp tp
| j_primary y fp fn tp tn : joins (EXf y fp fn tp tn) fp fn
| j_secondary y fp fn tp tn : joins (EXf y fp fn tp tn) tp tn
| j_tap1 c f p s1 t1 s2 t2 : joins (ECt c f p s1 t1 s2 t2) f t1
| j_tap2 c f p s1 t1 s2 t2 : joins (ECt c f p s1 t1 s2 t2) f t2
| j_switch f t : joins (ESwitch true f t) f t
| j_source vr vi f t : joins (EVs vr vi f t) f t
| j_regulator r f t c : joins (EReg r f t c) f t
| j_fuse f t m : joins (EFuse f t m) f t
| j_capacitor B c f t : joins (ECap B c f t) f t.
Definition not_fuses (nw : network) : list elem :=
  nw_lines nw ++ nw_transformers nw ++ map ESlack (nw_slack nw) ++ nw_switches nw ++ map EGen (nw_generators nw) ++ nw_loads nw ++ nw_misc nw ++
  (if nw_three_phase nw then nw_regulators nw ++ nw_capacitors nw else nw_sources nw ++ nw_shunts nw).
(** buses i and j are joined by an element that is not a blown fuse *)
Definition adjacent (x : details_of) (nw : network) (i j : nat) : Prop := exists e, joins e (Some i) (Some j) /\
  (In e (not_fuses nw) \/ nw_three_phase nw = true /\ exists k, nth_error (nw_fuses nw) k = Some e /\ snd (of_fuse x k) = GOOD).
(** ... so their places are neighbours *)
Definition beside (x : details_of) (nw : network) (u v : nat) : Prop :=
  exists i j, (adjacent x nw i j \/ adjacent x nw j i) /\ gb_name (of_bus x i) = u /\ gb_name (of_bus x j) = v.
Definition real_bus (x : details_of) (nw : network) (b : bus) : Prop := In b (nw_buses nw) /\ gb_virtual (of_bus x (bus_id b)) = false.
Definition name_of_bus (x : details_of) (b : bus) : nat := gb_name (of_bus x (bus_id b)).
Definition one_piece (x : details_of) (nw : network) : Prop :=
  (exists b, real_bus x nw b) /\ forall b c, real_bus x nw b -> real_bus x nw c -> path (beside x nw) (name_of_bus x b) (name_of_bus x c).
(** no bus is the ground, and virtual buses (the inner ones) are joined to nothing and have no slack *)
Definition proper (x : details_of) (nw : network) : Prop :=
  (forall k, gb_ground (of_bus x k) = false) /\
  (forall e f t k, In e (elements nw) -> joins e f t -> f = Some k \/ t = Some k -> gb_virtual (of_bus x k) = false) /\
  (forall s k, In (ESlack s) (elements nw) -> sl_bus s = Some k -> gb_virtual (of_bus x k) = false).

(** *** devices *)
(** the same network up to switches of capacitors *)
Inductive reswitched : elem -> elem -> Prop :=
| same_element e : reswitched e e
| other_switch B c c' f t : reswitched (ECap B c f t) (ECap B c' f t).
Definition rewired (nw nw' : network) : Prop := exists cs, nw' = with_capacitors nw cs /\ Forall2 reswitched (nw_capacitors nw) cs.
Definition intact (x : details_of) (nw : network) : Prop :=
  nw_three_phase nw = true -> forall k, (k < length (nw_fuses nw))%nat -> snd (of_fuse x k) = GOOD.
Definition Cabs (c : C) : R := sqrt (fst c * fst c + snd c * snd c).
(** no capacitor has to be switched at voltages V: it is in the circuit above its band and out of it below *)
Definition capacitors_rest (x : details_of) (V : bref -> C) (nw : network) : Prop :=
  forall k B c f t, nth_error (nw_capacitors nw) k = Some (ECap B c f t) ->
  match of_cap x k with
  | (C_MANUAL, _, _) => True
  | (C_VOLT, high, low) => f <> None /\ (high < Cabs (V f) -> c = true) /\ (Cabs (V f) < low -> c = false)
  | _ => False
  end.
(** the currents of an account through the fuses are within their limits *)
Definition fuses_rest (x : details_of) (nw : network) (ac : account) : Prop :=
  forall k f t m I y, nth_error (nw_fuses nw) k = Some (EFuse f t m) -> nth_error ac (before_fuses nw + k) = Some (EFuse f t m, I, y) ->
  exists i, In (t, Copp i) I /\ Cabs i <= fst (of_fuse x k).
