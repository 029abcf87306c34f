(** Specification side of theorems on what is refused and on starting values (C81, C83, C85, C95, C104, C105). *)
From Coq Require Import Reals String List Bool Arith.
From Verif Require Import PyExc ThreePhase SpecThreePhase LineImpedance.
Import ListNotations.
Local Open Scope R_scope.

(** angle of a phase in radians, phase 2 being opposite to phase 1 *)
Definition angle_of (p : string) (a : R) : Prop :=
  p = "A"%string /\ a = 0 \/ p = "B"%string /\ a = 4 / 3 * PI \/ p = "C"%string /\ a = 2 / 3 * PI \/ p = "1"%string /\ a = 0 \/ p = "2"%string /\ a = PI.
(** where the solver starts for phase [p] of a node with its own bus: fixed values of about 120 V for triplex nodes, else the given voltage, else the nominal one *)
Definition starts (nd : dnode) (p : string) (v : R * R) : Prop :=
  p = "1"%string /\ v = (-60, 10392 / 100) \/ p = "2"%string /\ v = (60, - (10392 / 100)) \/
  p <> "1"%string /\ p <> "2"%string /\
  exists m a, (dn_volt nd p = Some (m, a) \/ dn_volt nd p = None /\ dn_vnom nd = Some m /\ angle_of p a) /\ v = (m * cos a, m * sin a).
