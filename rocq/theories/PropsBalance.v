(** C152: where the power goes. *)
From Coq Require Import List Bool Arith Reals.
From Verif Require Import SpecSystem Components SpecComponents Network SpecNetwork SpecKirchhoff KirchhoffWitness SpecNetInfeas NetInfeasWitness SpecNetLeast SpecBalance BalanceFinal BalanceWitness.
Import ListNotations.
Local Open Scope R_scope.

(** C152: at any voltages, and with any currents the laws of the elements allow, what is supplied is what is delivered and lost except for what the
    currents that are left over at the buses carry away *)
Theorem C152_account : forall nw V ac, network_ok nw -> V None = C0 -> accounts_for V nw ac ->
  supplied V ac = Csub (Cadd (delivered V ac) (lost V ac)) (at_buses nw V (fun _ b => net_current (bus_id b) ac)).
Proof. exact balance. Qed.
Print Assumptions C152_account.

(** C152: in every possible state of the circuit every element takes the power of its formula and the powers balance *)
Theorem C152_balance : forall nw V, network_ok nw -> physical nw V -> exists ac, accounts_for V nw ac /\
  Forall (fun x => takes V (fst (fst x)) (absorbed V (snd (fst x)))) ac /\ supplied V ac = Cadd (delivered V ac) (lost V ac).
Proof. exact balance_physical. Qed.
Print Assumptions C152_balance.
(** the state of the feeder with 2/3 at the far bus loses 1/9 of 1/3, the one with 1/3 loses 4/9 of 2/3 *)
Example C152_balance_example : forall x, x * (1 - x) = 2 / 9 -> network_ok feeder /\ physical feeder (far x) /\
  exists ac, accounts_for (far x) feeder ac /\ supplied (far x) ac = (1 - x, 0) /\ delivered (far x) ac = (2 / 9, 0) /\ lost (far x) ac = ((1 - x) * (1 - x), 0).
Proof. exact (fun x H => conj feeder_ok (conj (far_physical x H) (feeder_powers x H))). Qed.

(** C152: without negative resistances nothing is gained on the way *)
Theorem C152_losses : forall nw V, network_ok nw -> physical nw V -> (forall e, In e (elements nw) -> passive e) -> exists ac, accounts_for V nw ac /\
  supplied V ac = Cadd (delivered V ac) (lost V ac) /\ 0 <= fst (lost V ac) /\ fst (delivered V ac) <= fst (supplied V ac).
Proof. exact more_supplied. Qed.
Print Assumptions C152_losses.
Example C152_losses_example : forall e, In e (elements feeder) -> passive e.
Proof. exact feeder_passive. Qed.

(** C152: with loads of constant power, the slacks and voltage sources feed the described loads less the described generation plus the losses *)
Theorem C152_slack : forall nw V, network_ok nw -> physical nw V -> constant_power nw -> exists ac, accounts_for V nw ac /\
  fst (fed V ac) = fst (described nw) - generated nw + fst (lost V ac) /\ snd (supplied V ac) = snd (described nw) + snd (lost V ac).
Proof. exact slack_power. Qed.
Print Assumptions C152_slack.
Example C152_slack_example : constant_power feeder /\ described feeder = Cadd C0 (Cadd C0 (Cadd (2 / 9, 0) C0)).
Proof. exact (conj feeder_constant eq_refl). Qed.

(** C152: that holds for the solutions of the assembled equations *)
Theorem C152_solved : forall old nw v, network_ok nw -> nw_optimization nw = None -> let a := assign_matrix old nw in
  energised nw (voltages a v) -> (forall r, (r < as_size a)%nat -> F (equations a) v 0 r = 0) ->
  exists ac, accounts_for (voltages a v) nw ac /\ Forall (fun x => takes (voltages a v) (fst (fst x)) (absorbed (voltages a v) (snd (fst x)))) ac /\
  supplied (voltages a v) ac = Cadd (delivered (voltages a v) ac) (lost (voltages a v) ac).
Proof. exact solved_balance. Qed.
Print Assumptions C152_solved.

(** C152: with infeasibility analysis the reported currents take the rest *)
Theorem C152_deficit : forall old nw l1 v, network_ok nw -> nw_optimization nw = Some l1 -> let a := assign_matrix old nw in
  energised nw (voltages a v) -> (forall r, (r < as_size a)%nat -> F (equations a) v 0 r = 0) ->
  exists ac, accounts_for (voltages a v) nw ac /\ Forall (fun x => takes (voltages a v) (fst (fst x)) (absorbed (voltages a v) (snd (fst x)))) ac /\
  supplied (voltages a v) ac = Cadd (Cadd (delivered (voltages a v) ac) (lost (voltages a v) ac)) (at_buses nw (voltages a v) (fun k _ => extra l1 a v k)).
Proof. exact deficit. Qed.
Print Assumptions C152_deficit.
Example C152_deficit_example : forall l1 old, let a := assign_matrix old (stranded l1) in network_ok (stranded l1) /\ energised (stranded l1) (voltages a (stranded_point l1)) /\
  (forall r, (r < as_size a)%nat -> F (equations a) (stranded_point l1) 0 r = 0) /\ extra l1 a (stranded_point l1) 0 = (-1, 0).
Proof. exact (fun l1 old => conj (stranded_ok l1) (conj (stranded_energised l1 _) (conj (proj1 (stranded_solved l1 old)) (proj1 (proj2 (stranded_solved l1 old)))))). Qed.

(** C152: a state that meets every equation up to eps misses the balance by at most eps times the sum of the voltages *)
Theorem C152_mismatch : forall eps nw V, network_ok nw -> nearly_physical eps nw V -> exists ac, accounts_for V nw ac /\ Forall (fun x => Rabs x < eps) (misses ac) /\
  let d := Csub (supplied V ac) (Cadd (delivered V ac) (lost V ac)) in Rabs (fst d) <= all_voltages nw V * eps /\ Rabs (snd d) <= all_voltages nw V * eps.
Proof. exact mismatch. Qed.
Print Assumptions C152_mismatch.
