(** C150: a linear solver that solves every system with exactly one solution (elimination from the last column). *)
From Coq Require Import List Bool Arith ZArith Reals Lia Lra.
From Verif Require Import Builder SpecBuilder Solver SpecSolver SolverProofs NetSolverProofs SpecNewton.
Import ListNotations.
Local Open Scope R_scope.

(** a row below [n] whose entry in column [c] is not 0 *)
Fixpoint pivot (n : nat) (A : nat -> nat -> R) (c : nat) : option nat :=
  match n with
  | O => None
  | S m => if Req_EM_T (A m c) 0 then pivot m A c else Some m
  end.
(** row [i] once row [p] is gone and row [m] has taken its place *)
Definition moved (p m i : nat) : nat := if Nat.eqb i p then m else i.
Fixpoint eliminate (n : nat) (A : nat -> nat -> R) (b : nat -> R) : nat -> R :=
  match n with
  | O => fun _ => 0
  | S m =>
      match pivot (S m) A m with
      | None => fun _ => 0
      | Some p =>
          let f i := A (moved p m i) m / A p m in
          let x := eliminate m (fun i j => A (moved p m i) j - f i * A p j) (fun i => b (moved p m i) - f i * b p) in
          fun c => if Nat.ltb c m then x c else (b p - csum m (fun j => A p j * x j)) / A p m
      end
  end.
Definition gauss (so : unit) (es : list (nat * nat * R)) (J : list R) : unit * option (list R) :=
  (so, Some (map (eliminate (length J) (mat_at es) (fun r => nth r J 0)) (seq 0 (length J)))).

Definition sol (n : nat) (A : nat -> nat -> R) (b x : nat -> R) : Prop := forall r, (r < n)%nat -> csum n (fun c => A r c * x c) = b r.

Lemma pivot_some : forall n A c p, pivot n A c = Some p -> (p < n)%nat /\ A p c <> 0.
Proof.
  induction n as [|n IH]; cbn; intros A c p H; [discriminate|]. destruct (Req_EM_T (A n c) 0).
  - destruct (IH _ _ _ H). split; [lia|auto].
  - injection H as <-. split; [lia|auto].
Qed.
Lemma pivot_none : forall n A c r, pivot n A c = None -> (r < n)%nat -> A r c = 0.
Proof.
  induction n as [|n IH]; cbn; intros A c r H Hr; [lia|]. destruct (Req_EM_T (A n c) 0) as [E|]; [|discriminate].
  destruct (Nat.eq_dec r n) as [->|]; [exact E|]. apply IH; [exact H|lia].
Qed.
Lemma csum_scale : forall n k f, csum n (fun c => k * f c) = k * csum n f.
Proof. induction n; cbn; intros; [ring|]. rewrite IHn. ring. Qed.
Lemma csum_diff : forall n k f g, csum n (fun c => f c - k * g c) = csum n f - k * csum n g.
Proof. induction n; cbn; intros; [ring|]. rewrite IHn. ring. Qed.
Lemma moved_lt p m i : (p <= m)%nat -> (i < m)%nat -> (moved p m i <= m)%nat /\ moved p m i <> p.
Proof. intros Hp Hi. unfold moved. destruct (Nat.eqb_spec i p); lia. Qed.
Lemma moved_onto p m r : (p <= m)%nat -> (r <= m)%nat -> r <> p -> exists i, (i < m)%nat /\ moved p m i = r.
Proof.
  intros Hp Hr N. unfold moved. destruct (Nat.eq_dec r m) as [->|].
  - exists p. rewrite Nat.eqb_refl. split; [lia|auto].
  - exists r. destruct (Nat.eqb_spec r p); [contradiction|]. split; [lia|auto].
Qed.

Section Step.
Variables (m p : nat) (A : nat -> nat -> R) (b : nat -> R).
Hypothesis Hp : (p <= m)%nat.
Hypothesis HA : A p m <> 0.
Let f i := A (moved p m i) m / A p m.
Let A' i j := A (moved p m i) j - f i * A p j.
Let b' i := b (moved p m i) - f i * b p.
Lemma row_less x i : csum m (fun c => A' i c * x c) = csum m (fun c => A (moved p m i) c * x c) - f i * csum m (fun c => A p c * x c).
Proof. rewrite <- csum_diff. apply csum_ext. intros. unfold A'. ring. Qed.
Lemma step_down x : sol (S m) A b x -> sol m A' b' x.
Proof.
  intros H i Hi. rewrite row_less. unfold b'. destruct (moved_lt p m i Hp Hi) as [H1 H2].
  pose proof (H p ltac:(lia)) as E1. pose proof (H (moved p m i) ltac:(lia)) as E2. cbn [csum] in E1, E2. rewrite <- E1, <- E2. unfold f. field. exact HA.
Qed.
Lemma step_up x y : (forall c, (c < m)%nat -> y c = x c) -> y m = (b p - csum m (fun j => A p j * x j)) / A p m -> sol m A' b' x -> sol (S m) A b y.
Proof.
  intros E1 E2 H r Hr. cbn [csum]. rewrite (csum_ext m _ (fun c => A r c * x c)) by (intros c Hc; now rewrite E1). rewrite E2.
  destruct (Nat.eq_dec r p) as [->|N]; [field; exact HA|].
  destruct (moved_onto p m r Hp ltac:(lia) N) as [i [Hi <-]]. pose proof (H i Hi) as E. rewrite row_less in E. unfold b' in E.
  assert (Q : csum m (fun c => A (moved p m i) c * x c) = b (moved p m i) - f i * b p + f i * csum m (fun c => A p c * x c)) by lra.
  rewrite Q. unfold f. field. exact HA.
Qed.
End Step.

Lemma eliminate_solves : forall n A b, (exists x, sol n A b x) -> (forall x y, sol n A b x -> sol n A b y -> forall c, (c < n)%nat -> x c = y c) -> sol n A b (eliminate n A b).
Proof.
  induction n as [|m IH]; intros A b [x Hx] U; [intros r Hr; lia|].
  cbn [eliminate]. destruct (pivot (S m) A m) as [p|] eqn:P.
  - destruct (pivot_some _ _ _ _ P) as [Hp HA]. assert (Hp' : (p <= m)%nat) by lia.
    eapply (step_up m p A b Hp' HA); cbn beta zeta.
    + intros c Hc. apply Nat.ltb_lt in Hc. rewrite Hc. reflexivity.
    + rewrite Nat.ltb_irrefl. reflexivity.
    + apply IH; [exists x; exact (step_down m p A b Hp' HA x Hx)|]. intros y z Hy Hz c Hc.
      pose (up := fun (w : nat -> R) c => if Nat.ltb c m then w c else (b p - csum m (fun j => A p j * w j)) / A p m).
      assert (forall w, sol m (fun i j => A (moved p m i) j - A (moved p m i) m / A p m * A p j) (fun i => b (moved p m i) - A (moved p m i) m / A p m * b p) w -> sol (S m) A b (up w)) as UP.
      { intros w Hw. apply (step_up m p A b Hp' HA w); [| |exact Hw]; unfold up; [intros d Hd; apply Nat.ltb_lt in Hd; now rewrite Hd|now rewrite Nat.ltb_irrefl]. }
      pose proof (U _ _ (UP y Hy) (UP z Hz) c ltac:(lia)) as E. unfold up in E. apply Nat.ltb_lt in Hc. now rewrite Hc in E.
  - exfalso. pose (y := fun c => if Nat.eqb c m then x c + 1 else x c).
    assert (Hy : sol (S m) A b y).
    { intros r Hr. rewrite <- (Hx r Hr). apply csum_ext. intros c Hc. unfold y. destruct (Nat.eqb_spec c m) as [->|]; [|reflexivity].
      rewrite (pivot_none _ _ _ _ P Hr). ring. }
    pose proof (U _ _ Hx Hy m ltac:(lia)) as E. unfold y in E. rewrite Nat.eqb_refl in E. lra.
Qed.
(** *** on entries and vectors *)
Lemma csum_trim : forall k n f, (forall c, (n <= c)%nat -> f c = 0) -> csum (n + k) f = csum n f.
Proof. induction k; intros; [now rewrite Nat.add_0_r|]. rewrite Nat.add_succ_r. cbn [csum]. rewrite IHk, H by (auto || lia). ring. Qed.
Lemma mat_row_below es v r : mat_row es (vec v) r = csum (length v) (fun c => mat_at es r c * vec v c).
Proof.
  destruct (col_bound es) as [n Hn]. rewrite (mat_row_csum es (vec v) r (length v + n)) by (intros e He; specialize (Hn e He); lia).
  apply csum_trim. intros c Hc. unfold vec. rewrite nth_overflow by lia. ring.
Qed.
Lemma vec_map x n c : (c < n)%nat -> vec (map x (seq 0 n)) c = x c.
Proof. intros H. unfold vec. rewrite nth_indep with (d' := x 0%nat) by now rewrite map_length, seq_length. rewrite map_nth, seq_nth by exact H. reflexivity. Qed.
Lemma exact_sol es J v : length v = length J -> (exact_solution es J v <-> sol (length J) (mat_at es) (fun r => nth r J 0) (vec v)).
Proof.
  intros L. unfold exact_solution, sol. split; [intros [_ H]|intros H; split; [exact L|]]; intros r Hr; specialize (H r Hr); [rewrite <- L, <- mat_row_below|rewrite mat_row_below, L]; exact H.
Qed.
Lemma gauss_regular : solves_regular gauss.
Proof.
  intros so es J [v [Hv U]]. destruct Hv as [L Hv']. assert (Hv : exact_solution es J v) by (split; assumption). clear Hv'. unfold gauss.
  set (n := length J) in *. exists so, (map (eliminate n (mat_at es) (fun r => nth r J 0)) (seq 0 n)). split; [reflexivity|].
  assert (S1 : forall x, sol n (mat_at es) (fun r => nth r J 0) x -> exact_solution es J (map x (seq 0 n))).
  { intros x Hx. apply exact_sol; [now rewrite map_length, seq_length|]. fold n. intros r Hr. rewrite <- (Hx r Hr). apply csum_ext. intros c Hc. now rewrite vec_map. }
  apply S1, eliminate_solves.
  - exists (vec v). apply exact_sol; assumption.
  - intros x y Hx Hy c Hc. pose proof (U _ (S1 x Hx)) as E1. pose proof (U _ (S1 y Hy)) as E2. rewrite <- (vec_map x n c Hc), <- (vec_map y n c Hc). now rewrite E1, E2.
Qed.
