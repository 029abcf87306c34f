(** C42-C44: matrix indexes and the initial vector. *)
From Coq Require Import String List Bool Arith Reals.
From Verif Require Import Expr Segment Collect SpecSystem Components Network SpecNetwork NetworkProofs NetworkAssign NetworkInit NetworkWitness.
Import ListNotations.

(** C42: the indexes in use are exactly 0 .. size - 1 and each belongs to one bus, element or infeasibility current *)
Theorem C42_indexes_exactly : forall old nw i, network_ok nw -> i < as_size (assign_matrix old nw) <-> exists o, owns nw (assign_matrix old nw) o i.
Proof. exact all_owned. Qed.
Print Assumptions C42_indexes_exactly.
Theorem C42_one_owner : forall old nw o1 o2 i, network_ok nw -> owns nw (assign_matrix old nw) o1 i -> owns nw (assign_matrix old nw) o2 i -> o1 = o2.
Proof. exact one_owner. Qed.
Print Assumptions C42_one_owner.
(** within an element different unknowns have different indexes *)
Theorem C42_names_apart : forall old nw s, network_ok nw -> In s (as_stampers (assign_matrix old nw)) -> names_apart nw (assign_matrix old nw) s.
Proof. exact element_names. Qed.
Print Assumptions C42_names_apart.
Theorem C42_infeasibility_names_apart : forall old nw s, network_ok nw -> In s (as_infeasibility (assign_matrix old nw)) -> kinds_apart nw (assign_matrix old nw) s.
Proof. exact infeas_names. Qed.
Print Assumptions C42_infeasibility_names_apart.
Theorem C42_bus_indexes : forall old nw k b, network_ok nw -> nth_error (nw_buses nw) k = Some b ->
  as_table (assign_matrix old nw) (bus_id b) = new_nodes (per_bus (optimizing nw) * k) (optimizing nw).
Proof. exact table_bus. Qed.
Print Assumptions C42_bus_indexes.
Theorem C42_size : forall old nw, NoDup (map bus_id (nw_buses nw)) -> as_size (assign_matrix old nw) = expected_size nw.
Proof. exact total_size. Qed.
Print Assumptions C42_size.
(** the elements with stamps are those of the lists read for the kind of the network *)
Theorem C42_all_take_part : forall old nw, NoDup (map bus_id (nw_buses nw)) ->
  let a := assign_matrix old nw in
  (forall e, takes_part nw e -> exists k n, nth_error (as_stampers a) k = Some (fst (assign_elem (optimizing nw) (as_table a) n e))) /\
  (forall k s, nth_error (as_stampers a) k = Some s -> exists e n, takes_part nw e /\ s = fst (assign_elem (optimizing nw) (as_table a) n e)).
Proof. exact all_take_part. Qed.
Print Assumptions C42_all_take_part.
(** indexes left from an earlier assignment have no influence *)
Theorem C42_repeatable : forall old1 old2 nw, network_ok nw ->
  let a := assign_matrix old1 nw in let b := assign_matrix old2 nw in
  (forall u, In u (nw_buses nw) -> as_table a (bus_id u) = as_table b (bus_id u)) /\
  as_stampers a = as_stampers b /\ as_infeasibility a = as_infeasibility b /\ as_size a = as_size b.
Proof. exact repeatable. Qed.
Print Assumptions C42_repeatable.
Example C42_ok : forall opt, network_ok (small opt).
Proof. exact small_ok. Qed.
Example C42_part : forall opt, takes_part (small opt) (EGen gen3) /\ takes_part (small opt) (EShunt 1 1 (Some 3)).
Proof. intros opt. split; [apply part_generator|apply part_shunt]; cbn; auto. Qed.
Example C42_sizes : as_size (assign_matrix stale (small None)) = 15 /\ as_size (assign_matrix stale (small (Some false))) = 36 /\ as_size (assign_matrix stale (small (Some true))) = 42.
Proof. exact small_sizes. Qed.
Example C42_indexes :
  as_table (assign_matrix stale (small None)) 3 = {| n_Vr := Some 2; n_Vi := Some 3; n_Lr := None; n_Li := None |} /\
  as_table (assign_matrix stale (small (Some true))) 3 = {| n_Vr := Some 4; n_Vi := Some 5; n_Lr := Some 6; n_Li := Some 7 |} /\
  unknown_at (assign_matrix stale (small None)) 5 "Q"%string 14 /\ unknown_at (assign_matrix stale (small None)) 2 "I_Sr"%string 10.
Proof. exact small_indexes. Qed.

(** C43: every equation has a row (or is the ground's) and every row lies inside the matrix *)
Theorem C43_rows : forall old nw s e x, network_ok nw -> In s (all_stampers (assign_matrix old nw)) -> In e (present s) -> In x (first_orders (fst e)) ->
  exists o, row_index (fst e) x = Some o /\ forall i, o = Some i -> i < as_size (assign_matrix old nw).
Proof. exact rows_exist. Qed.
Print Assumptions C43_rows.
Theorem C43_columns : forall old nw s e x, network_ok nw -> In s (all_stampers (assign_matrix old nw)) -> In e (present s) -> In x (sg_variables (sd_seg (fst e))) ->
  exists o, col_index (fst e) x = Some o /\ forall i, o = Some i -> i < as_size (assign_matrix old nw).
Proof. exact cols_exist. Qed.
Print Assumptions C43_columns.
(** every unknown of an element is the row of an equation of that element *)
Theorem C43_own_rows : forall old nw i o, network_ok nw -> owns nw (assign_matrix old nw) o i ->
  match o with
  | OBus _ => True
  | OElem k => exists s, nth_error (as_stampers (assign_matrix old nw)) k = Some s /\ writes s i
  | OInf k => exists s, nth_error (as_infeasibility (assign_matrix old nw)) k = Some s /\ writes s i
  end.
Proof. exact own_rows. Qed.
Print Assumptions C43_own_rows.
(** a bus nothing is connected to has empty rows and columns *)
Theorem C43_isolated_bus : forall old nw b i s, network_ok nw -> In b (nw_buses nw) -> isolated nw (bus_id b) ->
  In i (node_indexes (as_table (assign_matrix old nw) (bus_id b))) -> In s (as_stampers (assign_matrix old nw)) -> ~ In i (used s) /\ ~ writes s i.
Proof. exact isolated_rows. Qed.
Print Assumptions C43_isolated_bus.
Example C43_isolated : forall opt, isolated (small opt) 9.
Proof. exact small_isolated. Qed.

(** C44: the initial vector has exactly the listed entries and zeros elsewhere *)
Theorem C44_transmission : forall flat old nw, network_ok nw ->
  let a := assign_matrix old nw in
  (forall i x, tx_entry flat nw a i x -> tx_init flat nw a i = x) /\
  (forall i, (forall x, ~ tx_entry flat nw a i x) -> tx_init flat nw a i = 0%R).
Proof. exact tx_init_values. Qed.
Print Assumptions C44_transmission.
(** the imaginary multiplier is never initialised *)
Theorem C44_imaginary_multiplier : forall flat old nw b i, network_ok nw -> In b (nw_buses nw) -> n_Li (as_table (assign_matrix old nw) (bus_id b)) = Some i ->
  tx_init flat nw (assign_matrix old nw) i = 0%R.
Proof. exact tx_init_Li. Qed.
Print Assumptions C44_imaginary_multiplier.
Theorem C44_three_phase : forall old nw, network_ok nw ->
  let a := assign_matrix old nw in
  (forall b i, In b (nw_buses nw) -> n_Vr (as_table a (bus_id b)) = Some i -> dx_init nw a i = (bus_Vm b * cos (bus_Va b))%R) /\
  (forall b i, In b (nw_buses nw) -> n_Vi (as_table a (bus_id b)) = Some i -> dx_init nw a i = (bus_Vm b * sin (bus_Va b))%R) /\
  (forall i, (forall b, In b (nw_buses nw) -> n_Vr (as_table a (bus_id b)) <> Some i /\ n_Vi (as_table a (bus_id b)) <> Some i) -> dx_init nw a i = 0%R).
Proof. exact dx_init_values. Qed.
Print Assumptions C44_three_phase.
Example C44_network : network_ok (small (Some true)) /\ n_Li (as_table (assign_matrix stale (small (Some true))) 3) = Some 7.
Proof. exact (conj (small_ok (Some true)) (f_equal n_Li (proj1 (proj2 small_indexes)))). Qed.
Example C44_entries :
  tx_entry false (small None) (assign_matrix stale (small None)) 14 (-1) /\ tx_entry true (small None) (assign_matrix stale (small None)) 14 (-2) /\
  tx_entry false (small None) (assign_matrix stale (small None)) 10 (50 / 100) /\ tx_entry true (small None) (assign_matrix stale (small None)) 2 1.
Proof. exact small_entries. Qed.
