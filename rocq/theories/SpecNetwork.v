(** Specification side of C42-C44. *)
From Coq Require Import String List Bool Arith Reals.
From Verif Require Import Expr Segment Collect SpecSystem Components SpecComponents UnbalancedLine Network.
Import ListNotations.
Local Open Scope R_scope.

(** the buses an element refers to *)
Definition refs (e : elem) : list bref :=
  match e with
  | ELine _ f t | ESwitch _ f t | ELoad _ f t | EVs _ _ f t | ECap _ _ f t => [f; t]
  | EUnb ph _ _ _ => flat_map (fun p => [fst p; snd p]) ph
  | EXf _ fp fn tp tn => [fp; fn; tp; tn]
  | ECt _ f p s1 t1 s2 t2 => [f; p; s1; t1; s2; t2]
  | ESlack s => [sl_bus s]
  | EGen g => [gen_bus g]
  | EShunt _ _ b => [b]
  | EReg _ f t c => [f; t; c]
  | EFuse f t i => [f; t; i]
  end.
(** buses are different objects and every bus an element refers to is in the network *)
Definition network_ok (nw : network) : Prop :=
  NoDup (map bus_id (nw_buses nw)) /\
  forall e, In e (elements nw) -> forall k, In (Some k) (refs e) -> In k (map bus_id (nw_buses nw)).

Definition node_indexes (x : nodes) : list nat :=
  flat_map (fun o => match o with Some i => [i] | None => [] end) [n_Vr x; n_Vi x; n_Lr x; n_Li x].
(** all indexes of unknowns an element uses *)
Definition used (s : list stamper) : list nat :=
  flat_map (fun e : element => flat_map (fun x => match snd x with Some i => [i] | None => [] end) (sd_var (fst e))) (present s).
Definition bus_index (nw : network) (a : assigned) (i : nat) : Prop := exists b, In b (nw_buses nw) /\ In i (node_indexes (as_table a (bus_id b))).
(** owners of indexes: buses, elements and infeasibility currents, in this order *)
Inductive owner := OBus (k : nat) | OElem (k : nat) | OInf (k : nat).
Definition owns (nw : network) (a : assigned) (o : owner) (i : nat) : Prop :=
  match o with
  | OBus k => exists b, nth_error (nw_buses nw) k = Some b /\ In i (node_indexes (as_table a (bus_id b)))
  | OElem k => exists s, nth_error (as_stampers a) k = Some s /\ In i (used s) /\ ~ bus_index nw a i
  | OInf k => exists s, nth_error (as_infeasibility a) k = Some s /\ In i (used s) /\ ~ bus_index nw a i
  end.
(** rows written by an element *)
Definition writes (s : list stamper) (i : nat) : Prop :=
  exists e x, In e (present s) /\ In x (first_orders (fst e)) /\ row_index (fst e) x = Some (Some i).
Definition all_stampers (a : assigned) : list (list stamper) := as_stampers a ++ as_infeasibility a.
(** the names of an element whose unknowns are its own have different indexes *)
Definition names_apart (nw : network) (a : assigned) (s : list stamper) : Prop :=
  forall e x y i, In e (present s) -> lookup (sd_var (fst e)) x = Some (Some i) -> lookup (sd_var (fst e)) y = Some (Some i) -> ~ bus_index nw a i -> x = y.
(** the same within the unknowns and within the multipliers only *)
Definition kinds_apart (nw : network) (a : assigned) (s : list stamper) : Prop :=
  forall e x y i, In e (present s) ->
    (In x (sg_primals (sd_seg (fst e))) /\ In y (sg_primals (sd_seg (fst e))) \/ In x (sg_duals (sd_seg (fst e))) /\ In y (sg_duals (sd_seg (fst e)))) ->
    lookup (sd_var (fst e)) x = Some (Some i) -> lookup (sd_var (fst e)) y = Some (Some i) -> ~ bus_index nw a i -> x = y.
(** number of unknowns an element brings, besides its buses *)
Definition own_unknowns (e : elem) : nat :=
  match e with
  | ELine _ _ _ | EUnb _ _ _ _ | ELoad _ _ _ | EShunt _ _ _ | ECap _ _ _ _ => 0
  | EXf _ _ _ _ _ | ECt _ _ _ _ _ _ _ => 4
  | ESlack _ | EVs _ _ _ _ | EFuse _ _ _ => 2
  | ESwitch closed _ _ => if closed then 2 else 0
  | EGen _ => 1
  | EReg _ _ _ _ => 6
  end.
Definition unknowns (nw : network) : nat := 2 * length (nw_buses nw) + list_sum (map own_unknowns (elements nw)).
Definition expected_size (nw : network) : nat :=
  match nw_optimization nw with
  | None => unknowns nw
  | Some l1 => 2 * unknowns nw + (if l1 then 4 else 2) * length (nw_buses nw)
  end.
(** nothing is connected to bus k *)
Definition isolated (nw : network) (k : nat) : Prop := forall e, In e (elements nw) -> ~ In (Some k) (refs e).

(** unknown [x] of the first segment of element number [k] has index [i] *)
Definition unknown_at (a : assigned) (k : nat) (x : sym) (i : nat) : Prop :=
  exists d c s, nth_error (as_stampers a) k = Some ((Some d, c) :: s) /\ lookup (sd_var d) x = Some (Some i).
(** the entries a transmission start vector must have *)
Definition bus_entry (opt flat : bool) (tbl : table) (b : bus) (i : nat) (x : R) : Prop :=
  n_Vr (tbl (bus_id b)) = Some i /\ x = (if flat then 1 else bus_Vm b * cos (bus_Va b)) \/
  n_Vi (tbl (bus_id b)) = Some i /\ x = (if flat then 0 else bus_Vm b * sin (bus_Va b)) \/
  opt = true /\ n_Lr (tbl (bus_id b)) = Some i /\ x = 1 / 10000.
Definition generator_entry (nw : network) (flat : bool) (a : assigned) (j : nat) (g : generator) (i : nat) (x : R) : Prop :=
  unknown_at a (generators_at nw + j)%nat "Q"%string i /\ x = (if flat then - ((gen_Qmin g + gen_Qmax g) / 2) else - gen_Qinit g) \/
  optimizing nw = true /\ unknown_at a (generators_at nw + j)%nat "lambda_0"%string i /\ x = 1 / 10000.
Definition slack_entry (nw : network) (flat : bool) (a : assigned) (j : nat) (g : slack) (i : nat) (x : R) : Prop :=
  unknown_at a (slack_at nw + j)%nat "I_Sr"%string i /\ x = (if flat then 0 else sl_Pinit g / 100) \/
  unknown_at a (slack_at nw + j)%nat "I_Si"%string i /\ x = (if flat then 0 else sl_Qinit g / 100).
Inductive tx_entry (flat : bool) (nw : network) (a : assigned) (i : nat) (x : R) : Prop :=
| entry_bus b : In b (nw_buses nw) -> bus_entry (optimizing nw) flat (as_table a) b i x -> tx_entry flat nw a i x
| entry_generator j g : nth_error (nw_generators nw) j = Some g -> generator_entry nw flat a j g i x -> tx_entry flat nw a i x
| entry_slack j g : nth_error (nw_slack nw) j = Some g -> slack_entry nw flat a j g i x -> tx_entry flat nw a i x.

(** which elements take part in the equations of a network *)
Inductive takes_part (nw : network) : elem -> Prop :=
| part_line e : In e (nw_lines nw) -> takes_part nw e
| part_transformer e : In e (nw_transformers nw) -> takes_part nw e
| part_slack s : In s (nw_slack nw) -> takes_part nw (ESlack s)
| part_switch e : In e (nw_switches nw) -> takes_part nw e
| part_generator g : In g (nw_generators nw) -> takes_part nw (EGen g)
| part_load e : In e (nw_loads nw) -> takes_part nw e
| part_misc e : In e (nw_misc nw) -> takes_part nw e
| part_regulator e : nw_three_phase nw = true -> In e (nw_regulators nw) -> takes_part nw e
| part_fuse e : nw_three_phase nw = true -> In e (nw_fuses nw) -> takes_part nw e
| part_capacitor e : nw_three_phase nw = true -> In e (nw_capacitors nw) -> takes_part nw e
| part_source e : nw_three_phase nw = false -> In e (nw_sources nw) -> takes_part nw e
| part_shunt e : nw_three_phase nw = false -> In e (nw_shunts nw) -> takes_part nw e.
