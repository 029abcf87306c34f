(** Specification side of C159. *)
From Coq Require Import List Bool Arith Reals.
From Verif Require Import SpecSystem Components SpecComponents Network SpecNetwork Devices Graph SpecGraph Solver PowerFlow SpecPowerFlow.
Import ListNotations.
Local Open Scope R_scope.

(** elements whose two sides may have different nominal voltages *)
Definition steps (e : elem) : Prop := (exists y fp fn tp tn, e = EXf y fp fn tp tn) \/ (exists c f p s1 t1 s2 t2, e = ECt c f p s1 t1 s2 t2) \/ (exists r f t c, e = EReg r f t c).
Definition present (x : details_of) (nw : network) (e : elem) : Prop :=
  In e (not_fuses nw) \/ nw_three_phase nw = true /\ exists k, nth_error (nw_fuses nw) k = Some e /\ snd (of_fuse x k) = GOOD.
(** an element of a kind holds the places u and v together *)
Definition held_by (P : elem -> Prop) (x : details_of) (nw : network) (u v : nat) : Prop :=
  exists e i j, P e /\ present x nw e /\ joins e (Some i) (Some j) /\
    (gb_name (of_bus x i) = u /\ gb_name (of_bus x j) = v \/ gb_name (of_bus x i) = v /\ gb_name (of_bus x j) = u).
(** neighbours of one voltage level: held together, and by nothing that may change the voltage *)
Definition level (x : details_of) (nw : network) (u v : nat) : Prop := held_by (fun e => ~ steps e) x nw u v /\ ~ held_by steps x nw u v.
(** the first bus of a place, in the order of the network *)
Definition first_at (x : details_of) (nw : network) (u : nat) (b : bus) : Prop :=
  exists l r, filter (fun b => negb (gb_virtual (of_bus x (bus_id b)))) (nw_buses nw) = l ++ b :: r /\ name_of_bus x b = u /\ forall c, In c l -> name_of_bus x c <> u.
Definition nominal (x : details_of) (b : bus) : R := gb_vnom (of_bus x (bus_id b)).

(** settings a run of a three-phase network can tell apart, and of a network in single-phase equivalent *)
Definition same_for_three (c d : pf_settings) : Prop := pf_nr c = pf_nr d /\ pf_tx_stepping c = pf_tx_stepping d /\ pf_device_control c = pf_device_control d.
Definition same_for_one (c d : pf_settings) : Prop := pf_nr c = pf_nr d /\ pf_tx_stepping c = pf_tx_stepping d /\ pf_limiting c = pf_limiting d /\ pf_flat c = pf_flat d.
