(** Model of index assignment and of the initial vector: src/logic/network/networkmodel.py, src/models/components/bus.py and the
    assign_nodes methods of the elements (Components.v).

    Simplifications: a Bus object is an identifier, [None] is GROUND; what assign_nodes stores on a Bus object is kept in a table
    from identifiers to indexes (initially whatever an earlier call left there); the textual matrix_map (lines 86-110) is for
    display only and is not modelled. *)
From Coq Require Import String List Bool Arith ZArith Reals.
From Verif Require Import Expr Segment Collect SpecSystem Components UnbalancedLine.
Import ListNotations.
Local Open Scope R_scope.

Definition bref := option nat.
Definition table := nat -> nodes.
Definition at_ref (tbl : table) (b : bref) : nodes := match b with Some k => tbl k | None => GROUND end.

Record bus := { bus_id : nat; bus_Vm : R; bus_Va : R }.
Record generator := { gen_bus : bref; gen_P : R; gen_Vset : R; gen_Qmin : R; gen_Qmax : R; gen_Qinit : R }.
Record slack := { sl_bus : bref; sl_V : R; sl_ang : R; sl_Pinit : R; sl_Qinit : R }.
Inductive elem :=
| ELine (l : line) (f t : bref)
| EUnb (phases : list (bref * bref)) (g b B : nat -> nat -> R)
| EXf (x : transformer) (fp fn tp tn : bref)
| ECt (c : center_tap) (from pri s1 t1 s2 t2 : bref)
| ESlack (s : slack)
| ESwitch (closed : bool) (f t : bref)
| EGen (g : generator)
| ELoad (l : load) (f t : bref)
| EVs (vr vi : R) (f t : bref)
| EShunt (G_MW B_MVAR : R) (b : bref)
| EReg (ratio : R) (f t cur : bref)
| EFuse (f t interior : bref)
| ECap (B : R) (closed : bool) (f t : bref).

(** networkmodel.py:19-46, 115-120, 157-179 *)
Record network := {
  nw_three_phase : bool;
  nw_buses : list bus; nw_lines : list elem; nw_transformers : list elem; nw_slack : list slack; nw_switches : list elem;
  nw_generators : list generator; nw_loads : list elem; nw_misc : list elem;
  nw_sources : list elem; nw_shunts : list elem;
  nw_regulators : list elem; nw_fuses : list elem; nw_capacitors : list elem;
  (** infeasibility currents: [Some true] is the L1 form, [Some false] the L2 form *)
  nw_optimization : option bool }.
Definition optimizing (nw : network) : bool := match nw_optimization nw with Some _ => true | None => false end.
(** get_all_elements without the buses, 48-56, 122-123, 181-182 *)
Definition elements (nw : network) : list elem :=
  nw_lines nw ++ nw_transformers nw ++ map ESlack (nw_slack nw) ++ nw_switches nw ++ map EGen (nw_generators nw) ++ nw_loads nw ++ nw_misc nw ++
  (if nw_three_phase nw then nw_regulators nw ++ nw_fuses nw ++ nw_capacitors nw else nw_sources nw ++ nw_shunts nw).

(** Bus.assign_nodes, bus.py:76-85 *)
Definition new_nodes (n : nat) (opt : bool) : nodes :=
  {| n_Vr := Some n; n_Vi := Some (n + 1)%nat;
     n_Lr := if opt then Some (n + 2)%nat else None; n_Li := if opt then Some (n + 3)%nat else None |}.
Definition per_bus (opt : bool) : nat := if opt then 4%nat else 2%nat.
Definition set_nodes (tbl : table) (k : nat) (x : nodes) : table := fun j => if Nat.eqb j k then x else tbl j.
Fixpoint assign_buses (opt : bool) (bs : list bus) (tbl : table) (n : nat) : table * nat :=
  match bs with
  | [] => (tbl, n)
  | b :: bs => assign_buses opt bs (set_nodes tbl (bus_id b) (new_nodes n opt)) (n + per_bus opt)
  end.
(** assign_nodes of the elements *)
Definition assign_elem (opt : bool) (tbl : table) (n : nat) (e : elem) : list stamper * nat :=
  let a := at_ref tbl in
  match e with
  | ELine l f t => (line_stampers l (a f) (a t) opt, n)
  | EUnb ph g b B => (unb_stampers (map (fun p => (a (fst p), a (snd p))) ph) g b B opt, n)
  | EXf x fp fn tp tn => xf_stampers x (a fp) (a fn) (a tp) (a tn) n opt
  | ECt c f p s1 t1 s2 t2 => ct_stampers c (a f) (a p) (a s1) (a t1) (a s2) (a t2) n opt
  | ESlack s => slack_stampers (sl_V s) (sl_ang s) (a (sl_bus s)) n opt
  | ESwitch closed f t => switch_stampers closed (a f) (a t) n opt
  | EGen g => gen_stampers (gen_P g) (gen_Vset g) (a (gen_bus g)) n opt
  | ELoad l f t => load_stampers l (a f) (a t) n opt
  | EVs vr vi f t => vs_stampers vr vi (a f) (a t) n opt
  | EShunt G B b => (shunt_stampers G B (a b) opt, n)
  | EReg ratio f t cur => reg_stampers ratio (a f) (a t) (a cur) n opt
  | EFuse f t i => fuse_stampers (a f) (a t) (a i) n opt
  | ECap B closed f t => (if closed then [ (Some (line_details (a f) (a t) opt true), [0; B; 0]) ] else [], n)
  end.
Fixpoint assign_elems (opt : bool) (tbl : table) (n : nat) (es : list elem) : list (list stamper) * nat :=
  match es with
  | [] => ([], n)
  | e :: es => let (s, n1) := assign_elem opt tbl n e in let (r, n2) := assign_elems opt tbl n1 es in (s :: r, n2)
  end.
(** the infeasibility currents, one per bus *)
Fixpoint assign_infeasibility (l1 : bool) (tbl : table) (n : nat) (bs : list bus) : list (list stamper) * nat :=
  match bs with
  | [] => ([], n)
  | b :: bs => let (s, n1) := (if l1 then l1_stampers else l2_stampers) (tbl (bus_id b)) n in
               let (r, n2) := assign_infeasibility l1 tbl n1 bs in (s :: r, n2)
  end.
Record assigned := { as_table : table; as_stampers : list (list stamper); as_infeasibility : list (list stamper); as_size : nat }.
(** assign_matrix, networkmodel.py:71-84 *)
Definition assign_matrix (old : table) (nw : network) : assigned :=
  let opt := optimizing nw in
  let (tbl, n0) := assign_buses opt (nw_buses nw) old 0 in
  let (s, n1) := assign_elems opt tbl n0 (elements nw) in
  let (i, n2) := match nw_optimization nw with None => ([], n1) | Some l1 => assign_infeasibility l1 tbl n1 (nw_buses nw) end in
  {| as_table := tbl; as_stampers := s; as_infeasibility := i; as_size := n2 |}.

(** *** initial vector *)
(** v[i] = x on a numpy vector; writing at index None sets every entry *)
Definition put (v : nat -> R) (i : option nat) (x : R) : nat -> R :=
  match i with Some i => set_v v i x | None => fun _ => x end.
Definition index_in (s : list stamper) (x : sym) : option nat :=
  match s with
  | (Some d, _) :: _ => match lookup (sd_var d) x with Some o => o | None => None end
  | _ => None
  end.
Definition Vr_init (b : bus) : R := bus_Vm b * cos (bus_Va b).
Definition Vi_init (b : bus) : R := bus_Vm b * sin (bus_Va b).
(** TxNetworkModel.generate_v_init, networkmodel.py:125-152 *)
Definition init_bus (opt flat : bool) (tbl : table) (v : nat -> R) (b : bus) : nat -> R :=
  let k := tbl (bus_id b) in
  let v := put v (n_Vr k) (if flat then 1 else Vr_init b) in
  let v := put v (n_Vi k) (if flat then 0 else Vi_init b) in
  if opt then put (put v (n_Lr k) (1 / 10000)) (n_Lr k) (1 / 10000) (* get_Li_init, bus.py:73-74, names the real multiplier again *)
  else v.
(** the constructor negates Qmin, Qmax and Qinit, generator.py:55-59 *)
Definition init_gen (opt flat : bool) (v : nat -> R) (x : generator * list stamper) : nat -> R :=
  let (g, s) := x in
  let v := put v (index_in s "Q"%string) (if flat then (- gen_Qmin g + - gen_Qmax g) / 2 else - gen_Qinit g) in
  if opt then put v (index_in s "lambda_0"%string) (1 / 10000) else v.
Definition init_slack (flat : bool) (v : nat -> R) (x : slack * list stamper) : nat -> R :=
  let (g, s) := x in
  let v := put v (index_in s "I_Sr"%string) (if flat then 0 else sl_Pinit g / 100) in
  put v (index_in s "I_Si"%string) (if flat then 0 else sl_Qinit g / 100).
Definition stampers_of {A} (l : list A) (before : nat) (a : assigned) : list (A * list stamper) := combine l (skipn before (as_stampers a)).
Definition slack_at (nw : network) : nat := length (nw_lines nw ++ nw_transformers nw).
Definition generators_at (nw : network) : nat := length (nw_lines nw ++ nw_transformers nw ++ map ESlack (nw_slack nw) ++ nw_switches nw).
Definition tx_init (flat : bool) (nw : network) (a : assigned) : nat -> R :=
  let v := fold_left (init_bus (optimizing nw) flat (as_table a)) (nw_buses nw) (fun _ => 0) in
  let v := fold_left (init_gen (optimizing nw) flat) (stampers_of (nw_generators nw) (generators_at nw) a) v in
  fold_left (init_slack flat) (stampers_of (nw_slack nw) (slack_at nw) a) v.
(** DxNetworkModel.generate_v_init, networkmodel.py:184-191, and Bus.set_initial_voltages, bus.py:53-56 (all buses have indexes here) *)
Definition put_if_zero (v : nat -> R) (i : option nat) (x : R) : nat -> R :=
  match i with Some k => if is0 (v k) then set_v v k x else v | None => v end.
Definition dx_init (nw : network) (a : assigned) : nat -> R :=
  fold_left (fun v b => let k := as_table a (bus_id b) in put_if_zero (put_if_zero v (n_Vr k) (Vr_init b)) (n_Vi k) (Vi_init b)) (nw_buses nw) (fun _ => 0).
