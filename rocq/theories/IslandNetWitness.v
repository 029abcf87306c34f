(** Two islands in a file, for C161: nodes a and b joined by a switch, and node c. *)
From Coq Require Import Reals ZArith String Ascii List Bool Lia Lra Arith.
From Verif Require Import PyExc Components Network SpecNetwork Devices Graph SpecGraph PowerFlow SpecPowerFlow ThreePhase SpecThreePhase SpecThreeElems SolverNet SpecSolverNet SolverNetWitness IslandNet SpecIslandNet.
From Verif Require Island UnbalancedWitness ThreeWitness.
Import ListNotations.
Local Open Scope string_scope.

Definition two_load (at_node : string) (phases : list string) : dmodel :=
  MLoad {| do_name := Some ("load_" ++ at_node); do_conn := Some at_node; do_triplex := None;
           do_loads := map (fun p => {| dp_phase := Some p; dp_p := 5; dp_q := 2; dp_z := (0, 0)%R; dp_i := (0, 0)%R |}) phases |}.
Definition two_switch : dmodel :=
  MLine {| dl_fuse := false; dl_switch := true; dl_from := Some "a"; dl_to := Some "b"; dl_phases := Some ["A"; "B"]; dl_wires := [ThreeWitness.wire "A" false; ThreeWitness.wire "B" false]; dl_limit := None;
           dl_status := fun _ => None; dl_z := []; dl_shunt := None; dl_len := 2 |}.
Definition two_cap : dmodel :=
  MCap {| dc_phases := [("A", 100%R)]; dc_connected := ["A"]; dc_high := None; dc_low := None; dc_control := Some "VOLT";
          dc_parent := Some "b"; dc_vnom := Some 2400%R; dc_switch := fun p => Some "CLOSED" |}.
Definition two_file (phases : list string) : list dmodel :=
  [ThreeWitness.node "a" ["A"; "B"] true None 2400; ThreeWitness.node "b" ["A"; "B"] false None 2400; ThreeWitness.node "c" ["A"; "B"] false None 2400;
   two_switch; two_load "b" phases; two_load "c" phases; two_cap].
Lemma two_known phases : known_elements (two_file phases).
Proof. apply ThreeWitness.known_ok. reflexivity. Qed.
Lemma two_plain phases : Forall plain_ends (two_file phases) /\ Forall plain_loads (two_file phases).
Proof.
  split; unfold two_file; repeat apply Forall_cons; try apply Forall_nil; cbn [plain_ends plain_loads ThreeWitness.node two_switch two_load two_cap do_conn]; try exact Logic.I; try (apply not_inner; reflexivity).
  all: split; [apply not_inner; reflexivity|]; split; [apply not_inner; reflexivity|]; cbn; repeat apply Forall_cons; try apply Forall_nil; unfold known; cbn; intuition auto.
Qed.
Lemma two_selected : exists n nw r, parse_three UnbalancedWitness.half_inv false (two_file ["A"; "AB"]) = Ok n /\ dx_network None n = Ok nw /\ outer n 0 /\
  length (nt_buses n) = 6%nat /\ length (nt_loads n) = 4%nat /\ length (nt_caps n) = 1%nat /\
  Island.select_island (gb_name (dx_place n 0)) (island_net (dx_details n) nw) = Some r /\
  map Island.ib_num (Island.in_buses r) = [0; 1; 2; 3]%nat /\ map Island.iv_id (Island.in_loads r) = [1]%nat /\ Island.in_caps r = [] /\ map Island.is_id (Island.in_slack r) = [0; 1]%nat.
Proof.
  unfold UnbalancedWitness.half_inv. assert (exists r, parse_three (fun _ => Some [[Some (1 / 2, 0)%R]]) false (two_file ["A"; "AB"]) = r) as [r E] by eauto.
  rewrite E. revert E. repeat ThreeWitness.advance. ThreeWitness.run. intros <-. eexists. eexists. eexists. split; [reflexivity|]. split; [reflexivity|].
  split; [eexists; split; reflexivity|]. split; [reflexivity|]. split; [reflexivity|]. split; [reflexivity|]. split; [match goal with |- ?a = _ => let v := eval lazy -[IZR Rplus Rmult Rminus Ropp Rinv Rdiv cos sin PI sqrt Rabs] in a in exact (eq_refl v <: a = v) end|].
  split; [reflexivity|]. split; [reflexivity|]. split; reflexivity.
Qed.
(** a node with a load between a phase and ground *)
Definition tiny_file : list dmodel := [ThreeWitness.node "a" ["A"] true None 2400; two_load "a" ["A"]].
Lemma tiny_hyps : known_elements tiny_file /\ Forall plain_ends tiny_file /\ Forall plain_loads tiny_file.
Proof.
  split; [apply ThreeWitness.known_ok; reflexivity|]. split; unfold tiny_file; repeat apply Forall_cons; try apply Forall_nil; try exact Logic.I. apply not_inner. reflexivity.
Qed.
Lemma tiny_selected : exists n nw r, parse_three UnbalancedWitness.half_inv false tiny_file = Ok n /\ dx_network None n = Ok nw /\ outer n 0 /\
  length (nt_loads n) = 1%nat /\ Island.select_island (gb_name (dx_place n 0)) (island_net (dx_details n) nw) = Some r /\ length (Island.in_buses r) = 1%nat.
Proof.
  unfold UnbalancedWitness.half_inv. assert (exists r, parse_three (fun _ => Some [[Some (1 / 2, 0)%R]]) false tiny_file = r) as [r E] by eauto.
  rewrite E. revert E. repeat ThreeWitness.advance. ThreeWitness.run. intros <-. eexists. eexists. eexists. split; [reflexivity|]. split; [reflexivity|].
  split; [eexists; split; reflexivity|]. split; [reflexivity|]. split; [match goal with |- ?a = _ => let v := eval lazy -[IZR Rplus Rmult Rminus Ropp Rinv Rdiv cos sin PI sqrt Rabs] in a in exact (eq_refl v <: a = v) end|]. reflexivity.
Qed.
