(** Specification side of C162. *)
From Coq Require Import String List Bool Arith ZArith Reals.
From Verif Require Import SpecComponents Network.
From Verif Require Results Output.
Import ListNotations.

(** the row with number [num] is that of the bus at place [k], whose voltages are the unknowns [V] *)
Definition listed (rs : Output.result) (k : nat) (num : Z) (V : nat * nat) : Prop :=
  exists b, nth_error (Output.or_buses rs) k = Some b /\ num = Output.ob_num b /\ V = Output.ob_V b.
Definition slack_listed (rs : Output.result) (s : slack) (row : Z * Results.rslack) : Prop :=
  forall k, Network.sl_bus s = Some k -> listed rs k (fst row) (Results.rs_bus (snd row)).
Definition gen_listed (rs : Output.result) (g : generator) (row : Z * Results.rgen) : Prop :=
  forall k, gen_bus g = Some k -> exists V, listed rs k (fst row) V.
Definition bus_of_inf (i : Results.rinf) : nat * nat := match i with Results.RL2 b _ => b | Results.RL1 b _ _ => b end.
Definition inf_listed (b : Output.obus) (row : Z * Results.rinf) : Prop := fst row = Output.ob_num b /\ bus_of_inf (snd row) = Output.ob_V b.

(** a power as it is written: those below 0.00001, also all negative ones, as 0 *)
Definition cut (x y : R) : Prop := ((x < 1 / 100000 -> y = 0) /\ (1 / 100000 <= x -> y = x))%R.
(** what is shown of the current [E] drawn besides at a bus with voltage [V]: real parts and imaginary parts multiplied; with the sign turned in the L1 analysis *)
Definition shows_current (l1 : bool) (V E : C) (g : Results.gen_result) : Prop :=
  let sign := (if l1 then -1 else 1)%R in cut (sign * (fst V * fst E))%R (Results.gr_P g) /\ cut (sign * (snd V * snd E))%R (Results.gr_Q g).
