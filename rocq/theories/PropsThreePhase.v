(** Properties of the three-phase network parser. *)
From Coq Require Import Reals ZArith String Ascii Bool Permutation Relations List.
From Verif Require Import PyExc Components Devices UnbalancedLine UnbalancedWitness ThreePhase SpecThreePhase SpecThreeElems ThreePhaseBusProofs ThreePhaseXfmrProofs ThreePhaseInitProofs ThreePhaseFinal ThreeWitness.
Import ListNotations.
Local Open Scope R_scope.
Local Open Scope string_scope.

Example three_examples_parse : Forall (fun ms => tidy ms /\ known_elements ms /\ exists n, parse_three half_inv false ms = Ok n) [demo1; demo2; demo3; demo4; demo5].
Proof. exact three_demos. Qed.

(** C59: coil connections *)
Theorem C59_phase_list : forall d1 d2 ps, Forall one_letter ps ->
  exists l1 l2, wired d1 ps l1 /\ wired d2 ps l2 /\
    map unpack4 (get_phase_list d1 d2 ps) = map (fun c => Ok (fst (fst c), snd (fst c), fst (snd c), snd (snd c))) (combine l1 l2).
Proof. exact phase_list_wired. Qed.
Print Assumptions C59_phase_list.
Example C59_example : get_phase_list true false ["A"; "B"; "C"] = ["ABAN"; "BCBN"; "CACN"].
Proof. reflexivity. Qed.
Example C59_one_phase : get_phase_list true false ["A"] = ["AAAN"].
Proof. exact one_phase_delta. Qed.

(** C77: two-winding transformers *)
Theorem C77_transformers : forall inv cap ms n, known_elements ms -> parse_three inv cap ms = Ok n ->
  exists gs, nt_xfmrs n = concat gs /\ Forall2 (fun us x => xfmr_made n x us) gs (flat_map xfmrs_of ms).
Proof. exact p_xfmrs. Qed.
Print Assumptions C77_transformers.
Example C77_example : exists n, parse_three half_inv false demo1 = Ok n.
Proof. exact demo1_parses. Qed.

(** C78: the magnetising shunt of a two-winding transformer *)
Theorem C78_shunt : forall inv cap ms n, known_elements ms -> parse_three inv cap ms = Ok n ->
  forall x w1 w2 p r xx vp s, In (MXfmr x) ms -> dx_tap x = false -> dx_windings x = [w1; w2] -> In p (dw_phases w1) ->
  dx_shunt x = Some (r, xx) -> ~ (r = 0 /\ xx = 0) -> coil_voltage w1 vp -> dw_rated w2 = Some s -> 0 < s ->
  exists fp fn tp tn d g b rt, In (TX fp fn tp tn d g b rt) (nt_xfmrs n) /\ leads_to_o n (dx_from x) p (match fp with Some i => i | None => 0%nat end) /\
    (let k := s / (vp * vp) * (s / (vp * vp)) in inverse_of (g * k) (b * k) (r * (vp * vp / s)) (xx * (vp * vp / s))) /\
    (inverse_of g b (r * (vp * vp / s)) (xx * (vp * vp / s)) <-> vp * vp = s).
Proof. exact p_shunt. Qed.
Print Assumptions C78_shunt.
Theorem C78_shunt_wrong : forall n, parse_three half_inv false demo1 = Ok n ->
  exists fp fn tp tn d g b rt, In (TX fp fn tp tn d g b rt) (nt_xfmrs n) /\
    ~ inverse_of g b (3 * (4000 * sqrt 3 * (4000 * sqrt 3) / 1000)) (4 * (4000 * sqrt 3 * (4000 * sqrt 3) / 1000)).
Proof. exact demo_shunt_wrong. Qed.
Print Assumptions C78_shunt_wrong.
Example C78_example : exists n, parse_three half_inv false demo1 = Ok n.
Proof. exact demo1_parses. Qed.

(** C79: center-tap transformers *)
Theorem C79_center_tap : forall inv cap ms n, known_elements ms -> parse_three inv cap ms = Ok n ->
  forall x, In (MXfmr x) ms -> dx_tap x = true -> exists u, In u (nt_xfmrs n) /\ ct_made n x u.
Proof. exact p_tap. Qed.
Print Assumptions C79_center_tap.
Example C79_example : exists n, parse_three half_inv false demo2 = Ok n.
Proof. exact demo2_parses. Qed.

(** C80: the bus table *)
Theorem C80_bus_numbers : forall inv cap ms n, known_elements ms -> parse_three inv cap ms = Ok n ->
  map tb_id (nt_buses n) = seq 0 (List.length (nt_buses n)).
Proof. exact p_numbers. Qed.
Print Assumptions C80_bus_numbers.
Theorem C80_bus_origin : forall ms n, tidy ms -> create_buses ms = Ok n ->
  NoDup (map (fun b => (tb_name b, tb_phase b)) (nt_buses n)) /\
  forall a p, (exists b, In b (nt_buses n) /\ tb_name b = a /\ tb_phase b = p) <->
              (exists nd, In nd (nodes_of ms) /\ dn_name nd = a /\ is_root nd /\ In p (dn_phases nd) /\ known p).
Proof. exact bus_origin. Qed.
Print Assumptions C80_bus_origin.
Example C80_example : tidy demo_nodes /\ exists n, create_buses demo_nodes = Ok n /\ List.length (nt_buses n) = 11%nat.
Proof. exact demo_bus_count. Qed.

(** C81: parents and children share buses *)
Theorem C81_node_bus : forall ms n nd p, tidy ms -> create_buses ms = Ok n ->
  In nd (nodes_of ms) -> In p (dn_phases nd) -> known p -> (is_root nd \/ dn_parent nd <> None) ->
  exists b bus r, found n (dn_name nd) p b /\ nth_error (nt_buses n) b = Some bus /\ tb_name bus = r /\ tb_phase bus = p /\
                  hangs_from (nodes_of ms) (dn_name nd) r.
Proof. exact node_bus. Qed.
Print Assumptions C81_node_bus.
Theorem C81_same_bus : forall ms n a b p q i j, tidy ms -> create_buses ms = Ok n -> known p -> known q ->
  found n a p i -> found n b q j ->
  (i = j <-> p = q /\ exists r, hangs_from (nodes_of ms) a r /\ hangs_from (nodes_of ms) b r).
Proof. exact same_bus. Qed.
Print Assumptions C81_same_bus.
Theorem C81_parent_first : forall ms n l1 nd l2 par p, tidy ms -> create_buses ms = Ok n -> nodes_of ms = (l1 ++ nd :: l2)%list ->
  dn_parent nd = Some par -> In p (dn_phases nd) -> known p ->
  exists nd', In nd' l1 /\ dn_name nd' = par /\ In p (dn_phases nd').
Proof. exact parent_first. Qed.
Print Assumptions C81_parent_first.
Example C81_example : exists n, create_buses demo_nodes = Ok n /\ found n "mid" "B" 4 /\ found n "met" "B" 4.
Proof. exact demo_alias. Qed.
Example C81_late_parent : create_buses [node "c" ["A"] false (Some "r") 100; node "r" ["A"] false None 100] = Err KeyError.
Proof. exact late_parent. Qed.

(** C82: swing sources *)
Theorem C82_sources : forall ms n, tidy ms -> create_buses ms = Ok n ->
  Forall2 (fun sk x => (is_root (fst x) -> set_point (fst x) (snd x) (sk_v sk, sk_ang sk)) /\
                       (is_root (fst x) \/ dn_parent (fst x) <> None -> found n (dn_name (fst x)) (snd x) (sk_bus sk)))
          (nt_slack n) (swing_phases ms).
Proof. exact slack_list. Qed.
Print Assumptions C82_sources.
Theorem C82_child_source : forall ms n v1 nd p v2, tidy ms -> create_buses ms = Ok n -> visits (nodes_of ms) = (v1 ++ (nd, p) :: v2)%list ->
  known p -> dn_source nd = true -> ~ is_root nd ->
  exists sk nd' p', last_made v1 = Some (nd', p') /\ set_point nd' p' (sk_v sk, sk_ang sk) /\
    nth_error (nt_slack n) (List.length (filter (fun x => dn_source (fst x) && knownb (snd x)) v1)) = Some sk.
Proof. exact slack_child. Qed.
Print Assumptions C82_child_source.
Theorem C82_always_bound : forall ms, create_buses ms <> Err UnboundLocalError.
Proof. exact no_unbound. Qed.
Print Assumptions C82_always_bound.
Example C82_child_takes_other : exists n, create_buses swing_child = Ok n /\ found n "r" "A" 0 /\
  nt_slack n = [{| sk_bus := 0; sk_v := 200; sk_ang := 0 |}].
Proof. exact swing_child_takes_other. Qed.

(** C83: elements leave the buses of the nodes and the sources alone *)
Theorem C83_frame : forall inv cap ms n, known_elements ms -> parse_three inv cap ms = Ok n ->
  exists n0, create_buses ms = Ok n0 /\ nt_slack n = nt_slack n0 /\
  (exists l, map ident (nt_buses n) = (map ident (nt_buses n0) ++ l)%list /\ Forall (fun i => snd (fst i) = true) l) /\
  forall name p b, one_letter p -> ~ interior_name name -> (found n name p b <-> found n0 name p b).
Proof. exact p_frame. Qed.
Print Assumptions C83_frame.
Example C83_example : exists n, parse_three half_inv false demo4 = Ok n.
Proof. exact demo4_parses. Qed.

(** C84: capacitors *)
Theorem C84_capacitors : forall inv cap ms n, known_elements ms -> parse_three inv cap ms = Ok n ->
  Forall2 (fun t i => cap_made n (fst i) (snd i) t) (nt_caps n) (flat_map caps_of ms).
Proof. exact p_caps. Qed.
Print Assumptions C84_capacitors.
Theorem C84_initial_voltage : forall inv cap ms n', known_elements ms -> parse_three inv cap ms = Ok n' ->
  exists n, create_buses ms = Ok n /\ forall i b, nth_error (nt_buses n) i = Some b -> exists b', nth_error (nt_buses n') i = Some b' /\
    (~ In i (map tc_bus (nt_caps n')) -> b' = b) /\
    (In i (map tc_bus (nt_caps n')) -> ident b' = ident b /\ cap_voltage ms b').
Proof. exact parse_inits. Qed.
Print Assumptions C84_initial_voltage.
Example C84_example : exists n, parse_three half_inv false demo3 = Ok n.
Proof. exact demo3_parses. Qed.

(** C85: regulators *)
Theorem C85_regulators : forall inv cap ms n, known_elements ms -> parse_three inv cap ms = Ok n ->
  Forall2 (fun t i => reg_made n (fst i) (snd i) t) (nt_regs n) (flat_map regs_of ms).
Proof. exact p_regs. Qed.
Print Assumptions C85_regulators.
Example C85_example : exists n, parse_three half_inv false demo4 = Ok n.
Proof. exact demo4_parses. Qed.

(** C86: loads *)
Theorem C86_loads : forall inv cap ms n, known_elements ms -> parse_three inv cap ms = Ok n ->
  Forall2 (fun t i => load_made n (fst i) (snd i) t) (nt_loads n) (flat_map load_items ms).
Proof. exact p_loads. Qed.
Print Assumptions C86_loads.
Example C86_example : exists n, parse_three half_inv false demo3 = Ok n.
Proof. exact demo3_parses. Qed.
Example C86_names_collide : last_token "north_load_7" = "7" /\ last_token "south_load_7" = "7".
Proof. exact load_names_collide. Qed.

(** C87: fuses and switches *)
Theorem C87_fuses : forall inv cap ms n, known_elements ms -> parse_three inv cap ms = Ok n ->
  Forall2 (fun t i => fuse_made n (fst i) (snd i) t) (nt_fuses n) (flat_map fuses_of ms).
Proof. exact p_fuses. Qed.
Print Assumptions C87_fuses.
Theorem C87_switches : forall inv cap ms n, known_elements ms -> parse_three inv cap ms = Ok n ->
  Forall2 (fun t i => switch_made n (fst i) (snd i) t) (nt_switches n) (flat_map switches_of ms).
Proof. exact p_switches. Qed.
Print Assumptions C87_switches.
Theorem C87_fuse_open_ignored : forall inv cap f ms, parse_three inv cap (map (reopen f) ms) = parse_three inv cap ms.
Proof. exact reopen_same. Qed.
Print Assumptions C87_fuse_open_ignored.
Example C87_example : exists n, parse_three half_inv false demo5 = Ok n.
Proof. exact demo5_parses. Qed.

(** C88: references and lines *)
Theorem C88_references : forall inv cap ms n, known_elements ms -> parse_three inv cap ms = Ok n ->
  Forall (fun i => (i < List.length (nt_buses n))%nat) (all_refs n).
Proof. exact p_refs. Qed.
Print Assumptions C88_references.
Theorem C88_lines : forall inv cap ms n, known_elements ms -> parse_three inv cap ms = Ok n ->
  Forall2 (fun t l => line_made cap l t) (nt_lines n) (flat_map lines_of ms).
Proof. exact p_lines. Qed.
Print Assumptions C88_lines.
Example C88_example : exists n, parse_three half_inv false demo5 = Ok n.
Proof. exact demo5_parses. Qed.
