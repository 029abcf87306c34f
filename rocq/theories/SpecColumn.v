(** Specification side of C155: what the numbers of the power file add up to. *)
From Coq Require Import Reals String List Bool Arith.
From Verif Require Import Components SpecComponents Network SpecNetwork SpecKirchhoff SpecBalance Results Output SpecOutput.
Import ListNotations.
Local Open Scope R_scope.

Definition sum (l : list R) : R := fold_right Rplus 0 l.
(** slacks and generators are the only sources, and every slack holds a bus *)
Definition sources_listed (nw : network) : Prop :=
  filter is_source (elements nw) = map ESlack (nw_slack nw) ++ map EGen (nw_generators nw) /\ forall s, In s (nw_slack nw) -> sl_bus s <> None.
(** active power in the rows of generators and slacks: those of slacks split it into two parts, one in each column *)
Definition column_P (gens slacks : list gen_result) : R := sum (map gr_P (gens ++ slacks)).
Definition active (gens slacks : list gen_result) : R := sum (map gr_P gens) + sum (map (fun g => gr_P g + gr_Q g) slacks).
(** all slacks hold their voltage at angle 0 *)
Definition slacks_at_zero (nw : network) : Prop := forall s, In s (nw_slack nw) -> sl_ang s = 0.
(** rows of slacks and generators, given what the elements draw: of a slack the products of the parts of voltage and current, of a generator the power it takes *)
Definition slack_row (V : bref -> C) (x : elem * currents * list R) (g : gen_result) : Prop := exists s I, fst x = (ESlack s, [(sl_bus s, I)]) /\
  gr_P g = fst (V (sl_bus s)) * fst I /\ gr_Q g = snd (V (sl_bus s)) * snd I.
Definition gen_row (V : bref -> C) (x : elem * currents * list R) (g : gen_result) : Prop := exists s I, fst x = (EGen s, [(gen_bus s, I)]) /\
  (gr_P g, gr_Q g) = power (V (gen_bus s)) I.
(** column [k] of a line of a file holds the number y *)
Definition reads (k : nat) (row : string) (y : R) : Prop := exists text, nth_error (split comma row) k = Some text /\ decimal 2 text y.
