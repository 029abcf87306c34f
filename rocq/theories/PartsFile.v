(** C156: files and runs in the terms of the parsers. *)
From Coq Require Import String Reals ZArith List Bool Arith Lia Lra.
From Verif Require Import PyExc Components SpecComponents SpecSystem Network SpecNetwork NetworkAssign Solver SpecKirchhoff KirchhoffNet NetStamper SpecNetStamper PowerFlow
  ThreePhase RawParser SpecRaw Loader SolverNet SpecSolverNet SolverNetProofs SolverRawProofs SolverNetFinal SpecParts PartsFinal.
Import ListNotations.
Local Open Scope R_scope.

(** the voltages of a run under the bus numbers of the file *)
Definition by_number (o : onet) (V : bref -> C) (U : Z -> C) : Prop := forall k b, nth_error (n_buses o) k = Some b -> V (Some k) = U (RawParser.ob_num b).
Lemma raw_file T W uri o : from_file T W uri = Ok (Single o) -> forall opt V U, V None = C0 -> by_number o V U ->
  (physical (sx_network opt o) V <-> sequence o U (fun x => x = 0)) /\ forall eps, nearly_physical eps (sx_network opt o) V <-> sequence o U (fun x => Rabs x < eps).
Proof. intros E opt V U V0 VU. destruct (loaded_raw _ _ _ _ E) as (WA & ND & _). now apply single_laws. Qed.
(** no voltage is 0 where power is taken *)
Definition powered (o : onet) (U : Z -> C) : Prop :=
  (forall z l, In (z, l) (n_loads o) -> (ld_P l, ld_Q l) <> C0 -> U z <> C0) /\ forall g, In g (n_gens o) -> U (og_bus g) <> C0.
Lemma powered_energised o opt V U : well_attached o -> NoDup (map RawParser.ob_num (n_buses o)) -> V None = C0 -> by_number o V U -> powered o U -> energised (sx_network opt o) V.
Proof.
  intros WA ND V0 VU [P1 P2].
  assert (forall z, attached o z -> V (sx_ref o z) = U z) as AT.
  { intros z A. destruct (ref_of o z A) as (k & -> & b & Hb & E). rewrite (VU k b Hb). now rewrite E. }
  destruct WA as (_ & WG & WL & _). rewrite Forall_forall in WG, WL. unfold energised, elements. cbn [sx_network nw_lines nw_transformers nw_slack nw_switches nw_generators nw_loads nw_misc nw_sources nw_shunts nw_regulators nw_fuses nw_capacitors nw_three_phase].
  split.
  - intros l f t H N. rewrite ?in_app_iff, ?in_map_iff in H.
    repeat match type of H with _ \/ _ => destruct H as [H|H] | ex _ => destruct H as (x & E & H) | False => destruct H | In _ [] => destruct H | In _ (map _ _) => apply in_map_iff in H | _ /\ _ => destruct H end; try discriminate.
    injection E as <- <- <-. destruct x as [z l]. cbn [fst snd] in *. unfold across. rewrite V0, AT by (apply WL, in_map_iff; now exists (z, l)). intros Q. apply (P1 z l H N). unfold Csub, C0 in *. injection Q as Q1 Q2. rewrite (surjective_pairing (U z)). f_equal; lra.
  - intros g H. rewrite ?in_app_iff, ?in_map_iff in H.
    repeat match type of H with _ \/ _ => destruct H as [H|H] | ex _ => destruct H as (x & E & H) | False => destruct H | In _ [] => destruct H | In _ (map _ _) => apply in_map_iff in H | _ /\ _ => destruct H end; try discriminate.
    injection E as <-. destruct H as (y & <- & H). cbn [sx_gen gen_bus]. rewrite AT by (apply WG, in_map_iff; now exists y). exact (P2 y H).
Qed.
Section Run.
Variables (T : tools) (W : world) (nm : Z -> nat) (So : Type) (spsolve : So -> list (nat * nat * R) -> list R -> So * option (list R)) (nan : R)
  (cfg : pf_settings) (old : Network.table) (visit : list nat -> list nat) (uri : string) (so : So).
(** a run on a RAW file that reports success ended with a step from voltages that obey the laws of the file within the tolerance *)
Lemma raw_run v it tx res ds so' o : sized spsolve -> from_file T W uri = Ok (Single o) ->
  run_file T W nm spsolve nan cfg old visit None uri so = Ok (PFDone true v it tx res ds so') ->
  exists u so0 es J, spsolve so0 es J = (so', Some v) /\
    forall U, by_number o (voltages (assign_matrix old (sx_network None o)) u) U -> powered o U -> sequence o U (fun x => Rabs x < set_tolerance (pf_nr cfg)).
Proof.
  intros SZ EF E. destruct (run_success _ _ _ _ _ _ _ _ _ _ _ _ _ _ _ _ _ _ SZ eq_refl E) as (r & nw & E1 & E2 & _ & (u & so0 & es & J & S & H) & _).
  rewrite EF in E1. injection E1 as <-. cbn [solver_network] in E2. injection E2 as <-.
  assert (with_devices (sx_network None o) ds = sx_network None o) as D by (unfold with_devices, with_capacitors; cbn [nw_fuses nw_capacitors sx_network length skipn]; destruct ds; reflexivity).
  rewrite D in H. exists u, so0, es, J. split; [exact S|]. intros U BN PO. destruct (loaded_raw _ _ _ _ EF) as (WA & ND & _).
  pose proof (eq_refl : voltages (assign_matrix old (sx_network None o)) u None = C0) as V0. 
  apply (proj2 (raw_file _ _ _ _ EF None _ U V0 BN)). apply H. now apply (powered_energised _ _ _ U).
Qed.
End Run.
