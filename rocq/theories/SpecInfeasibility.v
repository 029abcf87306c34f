(** Specification side of C39, C40 and C65. *)
From Coq Require Import Reals List Bool Arith.
From Verif Require Import Expr Segment Collect Components SpecComponents SpecSystem.
Import ListNotations.
Local Open Scope R_scope.

(** the value of all Lagrangians together *)
Definition lagrangian (es : list element) (v : nat -> R) (tx : R) : R :=
  fold_right (fun e acc => den (sg_lagrange (sd_seg (fst e))) (sym_val e v tx) + acc) 0 es.

(** the elements whose circuit equations are affine: lines, shunts, capacitors, impedance and current loads, slacks, sources,
    switches, fuses, transformers, regulators *)
Definition linear_segments : list segment := [line_lh; shunt_lh; lh_Ic; slack_lh; vs_lh; xfrmr_lh; center_tap_lh].
Record linear_element (e : element) : Prop := {
  le_segment : In (sd_seg (fst e)) linear_segments;
  le_rows : sd_eqn (fst e) = None;
  le_opt : sd_opt (fst e) = true }.
(** unknowns at indexes with [P], multipliers at the others, all below [N] *)
Definition separated (P : nat -> bool) (N : nat) (e : element) : Prop :=
  (forall x i, In x (sg_primals (sd_seg (fst e))) -> lookup (sd_var (fst e)) x = Some (Some i) -> (i < N)%nat /\ P i = true) /\
  (forall x i, In x (sg_duals (sd_seg (fst e))) -> lookup (sd_var (fst e)) x = Some (Some i) -> (i < N)%nat /\ P i = false).
(** infeasibility currents at buses, with the index of the first unknown *)
Definition places_ok (P : nat -> bool) (N k : nat) (l : list (nodes * nat)) : Prop :=
  forall b n, In (b, n) l ->
    (forall j, (j < k)%nat -> (n + j < N)%nat /\ P (n + j)%nat = true) /\
    (forall i, In (Some i) [n_Lr b; n_Li b] -> (i < N)%nat /\ P i = false).
Definition l2_elements (l : list (nodes * nat)) : list element := flat_map (fun x => present (fst (l2_stampers (fst x) (snd x)))) l.
Definition l1_elements (l : list (nodes * nat)) : list element := flat_map (fun x => present (fst (l1_stampers (fst x) (snd x)))) l.
(** the circuit equations, i.e. the rows of the multipliers, hold *)
Definition circuit_holds (P : nat -> bool) (N : nat) (es : list element) (v : nat -> R) (tx : R) : Prop :=
  forall r, (r < N)%nat -> P r = false -> F es v tx r = 0.
Definition total_L2 (l : list (nodes * nat)) (v : nat -> R) : R :=
  fold_right (fun x acc => v (snd x) * v (snd x) + v (S (snd x)) * v (S (snd x)) + acc) 0 l.
(** unknowns handed out one bus after the other, networkmodel.py:80-84 *)
Fixpoint consecutive (k n : nat) (bs : list nodes) : list (nodes * nat) :=
  match bs with [] => [] | b :: bs => (b, n) :: consecutive k (n + k)%nat bs end.
(** an element uses only earlier indexes *)
Definition before (n : nat) (e : element) : Prop := forall x i, lookup (sd_var (fst e)) x = Some (Some i) -> (i < n)%nat.
(** net L1 currents *)
Definition net_r (v : nat -> R) (n : nat) : R := v n - v (n + 2)%nat.
Definition net_i (v : nat -> R) (n : nat) : R := v (n + 1)%nat - v (n + 3)%nat.
Definition total_net2 (l : list (nodes * nat)) (v : nat -> R) : R :=
  fold_right (fun x acc => net_r v (snd x) * net_r v (snd x) + net_i v (snd x) * net_i v (snd x) + acc) 0 l.
