(** Specification side of C147: networks with infeasibility currents. *)
From Coq Require Import String List Bool Arith Reals.
From Verif Require Import Expr Collect SpecSystem Components SpecComponents Network SpecNetwork SpecKirchhoff.
Import ListNotations.
Local Open Scope R_scope.

(** the value of the unknown [x] of the infeasibility current of bus number [k] *)
Definition infeasibility (a : assigned) (v : nat -> R) (k : nat) (x : sym) : R := read v (index_in (nth k (as_infeasibility a) []) x).
(** the current it draws from the bus, L1infeasibility.py and L2infeasibility.py *)
Definition extra (l1 : bool) (a : assigned) (v : nat -> R) (k : nat) : C :=
  let x := infeasibility a v k in
  if l1 then Csub (x "Iir_minus"%string, x "Iii_minus"%string) (x "Iir_plus"%string, x "Iii_plus"%string) else (x "Iir"%string, x "Iii"%string).
(** the multipliers of the current balance of a bus *)
Definition multiplier (a : assigned) (v : nat -> R) (b : bus) : C := mult v (as_table a (bus_id b)).

(** voltages [V] are possible in the network when current [E k] is drawn from bus number [k] besides *)
Definition physical_with (E : nat -> C) (nw : network) (V : bref -> C) : Prop :=
  V None = C0 /\ exists ac, accounts_for V nw ac /\ Forall (fun x => x = 0) (misses ac) /\
  forall k b, nth_error (nw_buses nw) k = Some b -> Cadd (net_current (bus_id b) ac) (E k) = C0.
Definition nearly_physical_with (eps : R) (E : nat -> C) (nw : network) (V : bref -> C) : Prop :=
  V None = C0 /\ exists ac, accounts_for V nw ac /\ Forall (fun x => Rabs x < eps) (misses ac) /\
  forall k b, nth_error (nw_buses nw) k = Some b ->
    let I := Cadd (net_current (bus_id b) ac) (E k) in Rabs (fst I) < eps /\ Rabs (snd I) < eps.

(** [i] is the row of the unknown [x] of the infeasibility current of bus number [k] *)
Definition infeasibility_row (a : assigned) (k : nat) (x : sym) (i : nat) : Prop := index_in (nth k (as_infeasibility a) []) x = Some i.
(** all rows: the rows of the multipliers are the circuit laws, those of the infeasibility currents tie them to the multipliers *)
Definition gives_infeasible_rows (l1 : bool) (nw : network) (a : assigned) (ac : account) (v : nat -> R) : Prop :=
  let row := F (equations a) v 0 in
  (forall k b, nth_error (nw_buses nw) k = Some b -> exists i j,
     n_Lr (as_table a (bus_id b)) = Some i /\ n_Li (as_table a (bus_id b)) = Some j /\ (i < as_size a)%nat /\ (j < as_size a)%nat /\
     (row i, row j) = Cadd (net_current (bus_id b) ac) (extra l1 a v k)) /\
  (forall j x, nth_error (misses ac) j = Some x -> exists r, (r < as_size a)%nat /\ row r = x) /\
  (forall k b, nth_error (nw_buses nw) k = Some b -> let L := multiplier a v b in let x := infeasibility a v k in
     if l1 then exists i j p q, infeasibility_row a k "Iir_plus"%string i /\ infeasibility_row a k "Iii_plus"%string j /\
                                infeasibility_row a k "Iir_minus"%string p /\ infeasibility_row a k "Iii_minus"%string q /\
                                (i < as_size a)%nat /\ (j < as_size a)%nat /\ (p < as_size a)%nat /\ (q < as_size a)%nat /\
                                row i = 1 - fst L + 2 * x "Iir_plus"%string /\ row j = 1 - snd L + 2 * x "Iii_plus"%string /\
                                row p = 1 + fst L + 2 * x "Iir_minus"%string /\ row q = 1 + snd L + 2 * x "Iii_minus"%string
     else exists i j, infeasibility_row a k "Iir"%string i /\ infeasibility_row a k "Iii"%string j /\ (i < as_size a)%nat /\ (j < as_size a)%nat /\
                      row i = fst L + 2 * x "Iir"%string /\ row j = snd L + 2 * x "Iii"%string).
