(** C162: the rows of slacks, generators and infeasibility currents in the results. *)
From Coq Require Import Reals ZArith String List Bool Arith.
From Verif Require Import PyExc PowerFlow ThreePhase Loader LoaderWitness SolverNet SolverNetWitness Report.
From Verif Require TimeSeries Results Output.
From Verif Require Import SpecSystem SpecComponents Network SpecNetwork SpecKirchhoff SpecNetInfeas NetInfeasWitness SpecRows RowsProofs RowsWitness.
Import ListNotations.
Local Open Scope R_scope.

(** C162: the row of a slack carries the number of its bus in the list of voltages and uses the voltages shown there; so do the rows of infeasibility
    currents, one for each bus; rows of generators carry the number of their bus *)
Theorem C162_buses : forall T W uri r opt nw, from_file T W uri = Ok r -> solver_network opt r = Ok nw ->
  forall So label old viol ls (res : @pf_result So) rs, results label old r nw viol ls res = Some rs ->
  Forall2 (slack_listed rs) (nw_slack nw) (Output.or_slacks rs) /\ Forall2 (gen_listed rs) (nw_generators nw) (Output.or_gens rs) /\
  (opt = None <-> Output.or_inf rs = None) /\ (forall l, Output.or_inf rs = Some l -> Forall2 inf_listed (Output.or_buses rs) l).
Proof. exact rows_listed. Qed.
Print Assumptions C162_buses.
Example C162_buses_example : from_file feed_tools lone_desk "lone.glm"%string = Ok (Three lone_net) /\ solver_network None (Three lone_net) = Ok lone_nw /\
  forall old v rd, exists rs, results no_names old (Three lone_net) lone_nw false [] (PFDone true v 1 0 rd [] 0%nat) = Some rs /\ map fst (Output.or_slacks rs) = [0%Z].
Proof. exact (conj lone_loads (conj lone_network lone_rows)). Qed.

(** C162: the power shown for an infeasibility current is the product of the real (P) and imaginary (Q) parts of the voltage of its bus and of the current drawn
    there besides the elements (C147); the L1 analysis shows it with the opposite sign; negative powers are shown as 0 *)
Theorem C162_currents : forall old r nw l1 v, network_ok nw -> nw_optimization nw = Some l1 -> let a := assign_matrix old nw in
  exists rows, infeasible_of a r nw = Some rows /\ length rows = length (nw_buses nw) /\
  forall k b row, nth_error (nw_buses nw) k = Some b -> nth_error rows k = Some row -> shows_current l1 (voltages a v (Some (bus_id b))) (extra l1 a v k) (Results.inf_res v (snd row)).
Proof. exact infeasible_shown. Qed.
Print Assumptions C162_currents.
Example C162_currents_example : forall l1, network_ok (stranded l1) /\ nw_optimization (stranded l1) = Some l1.
Proof. exact (fun l1 => conj (stranded_ok l1) eq_refl). Qed.

(** C162: so the two analyses report the same missing current differently: at a bus with voltage 1 and a load of current 1 without supply, both find that 1 has to be
    fed in; L1 shows P = 1, L2 shows P = Q = 0, as if the network were feasible *)
Theorem C162_shortage_refuted : forall l1 old r, let a := assign_matrix old (stranded l1) in let v := short_point l1 in
  (forall q, (q < as_size a)%nat -> F (equations a) v 0 q = 0) /\ voltages a v (Some 9%nat) = (1, 0) /\ extra l1 a v 0 = (-1, 0) /\
  exists row, infeasible_of a r (stranded l1) = Some [row] /\ Results.gr_P (Results.inf_res v (snd row)) = (if l1 then 1 else 0) /\ Results.gr_Q (Results.inf_res v (snd row)) = 0.
Proof. exact short_shown. Qed.
Print Assumptions C162_shortage_refuted.
