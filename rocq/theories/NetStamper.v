(** The matrix stamper of a whole network: build_matrix_stamper, src/logic/stamping/matrixstamper.py:123-131.

    The element a stamp belongs to (an attribute only used in reports) is its position among the elements, the buses not counted
    (Bus.get_stamps, bus.py:50-51, is empty); [nan] is what numpy.full fills arrays with. *)
From Coq Require Import List Reals.
From Verif Require Import Expr Stamper Collect SpecSystem Components Network SpecNetwork.
Import ListNotations.
Local Open Scope R_scope.

(** get_stamps of the elements one after the other, then those of the infeasibility currents *)
Fixpoint numbered (k : nat) (l : list (list stamper)) : list (nat * option details * list R) :=
  match l with
  | [] => []
  | s :: l => map (fun x => (k, fst x, snd x)) s ++ numbered (S k) l
  end.
Definition stamper_list (a : assigned) : list (nat * option details * list R) := numbered 0 (all_stampers a).
(** [None] where python raises *)
Definition matrix_stamper (nan : R) (nw : network) (a : assigned) : option (@mstamper R skey (list sym) nat) :=
  match build_colls (stamper_list a) with
  | None => None
  | Some cs => match build_stamper 0 nan skey_eqb pkey_eqb rkey_eqb input_eqb (optimizing nw) cs with SOk ms => Some ms | SErr _ => None end
  end.
