(** Statements about what the parsers hand to the solver. *)
From Coq Require Import String List Reals ZArith.
From Verif Require Import Network ThreePhase SpecThreePhase RawParser.
Import ListNotations.

(** a name that is not one the parser gives to inner buses *)
Definition outside (o : option string) : Prop := forall s, o = Some s -> ~ interior_name s.
(** elements whose ends have such names; for lines, with phases the parser knows *)
Definition plain_ends (m : dmodel) : Prop :=
  match m with
  | MXfmr x => outside (dx_from x) /\ outside (dx_to x)
  | MReg r => outside (dr_from r) /\ outside (dr_to r)
  | MLine l => outside (dl_from l) /\ outside (dl_to l) /\ Forall (fun p => known p \/ p = "N"%string) (map wi_phase (dl_wires l))
  | MCap c => outside (dc_parent c)
  | _ => True
  end.
(** a bus for a phase at the place of a name *)
Definition bus_for (n : net) (name : option string) (p : string) (b : nat) : Prop := exists s, name = Some s /\ found n s p b.
(** a line that has a bus for each of its phases at both ends *)
Definition connected (n : net) (l : tline) : Prop :=
  forall p, In p (tn_phases l) -> (exists b, bus_for n (tn_from l) p b) /\ (exists b, bus_for n (tn_to l) p b).
(** no two phases of a line end at the same bus *)
Definition apart (ph : list (bref * bref)) : Prop := NoDup (map fst ph) /\ NoDup (map snd ph).
(** a positive sequence network in which each number belongs to one bus, and [z] to bus [k] *)
Definition is_bus (o : onet) (z : Z) (k : nat) : Prop := exists b, nth_error (n_buses o) k = Some b /\ ob_num b = z.
