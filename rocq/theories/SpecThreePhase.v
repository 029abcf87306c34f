(** What the three-phase parser should produce, stated without its loops. *)
From Coq Require Import Reals ZArith String Ascii List Bool.
From Verif Require Import PyExc Components Devices UnbalancedLine ThreePhase.
Import ListNotations.
Local Open Scope R_scope.

(** the five phase letters the parser knows *)
Definition known (p : string) : Prop := In p ["A"; "B"; "C"; "1"; "2"]%string.
(** the nodes of a store, in order *)
Fixpoint nodes_of (ms : list dmodel) : list dnode :=
  match ms with [] => [] | MNode n :: r => n :: nodes_of r | _ :: r => nodes_of r end.
(** a store whose nodes have different names and list no phase twice *)
Definition tidy (ms : list dmodel) : Prop :=
  NoDup (map dn_name (nodes_of ms)) /\ Forall (fun nd => NoDup (dn_phases nd)) (nodes_of ms).
(** a node that gets buses of its own *)
Definition is_root (nd : dnode) : Prop := dn_parent nd = None /\ dn_conn nd = None.
(** [hangs_from nds a r]: following the parent links of the nodes [nds] from [a] ends at the root node [r] *)
Inductive hangs_from (nds : list dnode) : string -> string -> Prop :=
  | hang_root nd : In nd nds -> is_root nd -> hangs_from nds (dn_name nd) (dn_name nd)
  | hang_child nd par r : In nd nds -> dn_parent nd = Some par -> hangs_from nds par r -> hangs_from nds (dn_name nd) r.
(** the bus number under which a node's phase is found *)
Definition found (n : net) (name phase : string) (b : nat) : Prop := lookup n name phase = Ok b.
(** the [i]-th phase and its successor, cyclically *)
Definition succ_phase (ps : list string) (i : nat) : option string := nth_error ps (Nat.modulo (S i) (List.length ps)).

(** names of interior buses *)
Definition ends_with (s suffix : string) : Prop := exists a, s = (a ++ suffix)%string.
Definition interior_name (s : string) : Prop :=
  ends_with s "-Reg" \/ ends_with s "-Fuse" \/ ends_with s "_primary" \/ ends_with s "_sending_1" \/ ends_with s "_sending_2".
(** what identifies a bus, leaving out its initial voltage *)
Definition ident (b : tbus) : nat * string * string * bool * R := (tb_id b, tb_name b, tb_phase b, tb_virtual b, tb_vnom b).

(** the set voltage a swing node states for a phase: its own voltage_X if given, else its nominal voltage
    at the phase's standard angle *)
Definition standard_angle (p : string) : R :=
  if String.eqb p "B" then 4 * PI / 3 else if String.eqb p "C" then 2 * PI / 3 else if String.eqb p "2" then PI else 0.
Definition set_point (nd : dnode) (p : string) (va : R * R) : Prop :=
  match (if String.eqb p "1" then None else if String.eqb p "2" then None else dn_volt nd p) with
  | Some v => va = v
  | None => exists m, dn_vnom nd = Some m /\ va = (m, standard_angle p)
  end.
(** (node, phase) pairs of the swing nodes in store order *)
Definition known_phases (nd : dnode) : list string := filter (fun p => mem p ["A"; "B"; "C"; "1"; "2"]%string) (dn_phases nd).
Definition swing_phases (ms : list dmodel) : list (dnode * string) :=
  flat_map (fun nd => if dn_source nd then map (pair nd) (known_phases nd) else []) (nodes_of ms).

(** an admittance g + jb is the inverse of the impedance r + jx *)
Definition inverse_of (g b r x : R) : Prop := g * r - b * x = 1 /\ g * x + b * r = 0.

(** every bus an element refers to *)
Definition opt_list {A} (o : option A) : list A := match o with Some a => [a] | None => [] end.
Definition xfmr_refs (x : txfmr) : list nat :=
  match x with
  | TX fp fn tp tn _ _ _ _ => opt_list fp ++ opt_list fn ++ opt_list tp ++ opt_list tn
  | TCT _ a b c d e f _ _ _ => [a; b; c; d; e; f]
  end.
Definition all_refs (n : net) : list nat :=
  map sk_bus (nt_slack n) ++ flat_map (fun l => opt_list (tl_from l) ++ opt_list (tl_to l)) (nt_loads n) ++
  flat_map xfmr_refs (nt_xfmrs n) ++ map tc_bus (nt_caps n) ++
  flat_map (fun r => [tr_from r; tr_to r; tr_cur r]) (nt_regs n) ++
  flat_map (fun f => [tf_from f; tf_to f; tf_mid f]) (nt_fuses n) ++
  flat_map (fun s => [ts_from s; ts_to s]) (nt_switches n).
(** the phases element creation works on *)
Definition element_phases (m : dmodel) : list string :=
  match m with
  | MReg r => dr_phases1 r
  | MLine l => if (dl_fuse l || dl_switch l)%bool then map wi_phase (dl_wires l) else []
  | MXfmr x => dx_phases x ++ flat_map dw_phases (dx_windings x)
  | _ => []
  end.
Definition one_letter (p : string) : Prop := exists c, p = String c EmptyString.
(** the (node, phase) pairs of a list of nodes in the order in which they are met *)
Definition visits (nds : list dnode) : list (dnode * string) := flat_map (fun nd => map (pair nd) (dn_phases nd)) nds.
Definition rootb (nd : dnode) : bool := match dn_parent nd, dn_conn nd with None, None => true | _, _ => false end.
Definition knownb (p : string) : bool := mem p ["A"; "B"; "C"; "1"; "2"]%string.
(** the last visit that made a bus *)
Definition last_made (v : list (dnode * string)) : option (dnode * string) :=
  match rev (filter (fun x => rootb (fst x) && knownb (snd x)) v) with [] => None | x :: _ => Some x end.
