(** Property theorems C12 and C60. *)
From Coq Require Import List Bool Arith Reals ZArith Lra Lia Permutation.
From Verif Require Import Residual SpecResidual ResidualProofs.
Import ListNotations.

(** C12 *)
Theorem C12_residual_details_correct : forall (M : Type) (cs : list (M * nat * R)) n rd,
  mk_residual_details cs n = Some rd ->
  length (rd_residuals rd) = n /\
  (forall i, i < n -> nth i (rd_residuals rd) 0%R = row_sum cs i) /\
  (forall i, i < n -> (Rabs (row_sum cs i) <= rd_max rd)%R) /\
  rd_max_idx rd < n /\ Rabs (row_sum cs (rd_max_idx rd)) = rd_max rd /\
  (forall i, i < rd_max_idx rd -> (Rabs (row_sum cs i) < rd_max rd)%R).
Proof. exact (@residual_details_correct). Qed.
Print Assumptions C12_residual_details_correct.

Theorem C12_residual_details_defined : forall (M : Type) (cs : list (M * nat * R)) n,
  (exists rd, mk_residual_details cs n = Some rd) <-> 1 <= n /\ (forall c, In c cs -> snd (fst c) < n).
Proof. exact (@residual_details_defined). Qed.
Print Assumptions C12_residual_details_defined.

Example C12_nonvacuous : exists rd,
  mk_residual_details [(tt, 1, 2%R); (tt, 0, (-3)%R); (tt, 1, (-5)%R)] 3 = Some rd /\
  rd_max rd = 3%R /\ rd_max_idx rd = 0.
Proof.
  destruct (proj2 (residual_details_defined [(tt, 1, 2%R); (tt, 0, (-3)%R); (tt, 1, (-5)%R)] 3)) as [rd H].
  { split; [lia|]. intros c [<-|[<-|[<-|[]]]]; simpl; lia. }
  exists rd. split; auto. destruct (residual_details_correct _ _ _ H) as [_ [_ [B [C [D E]]]]].
  assert (E0 : row_sum [(tt, 1, 2%R); (tt, 0, (-3)%R); (tt, 1, (-5)%R)] 0 = (-3)%R) by (simpl; lra).
  assert (E1 : row_sum [(tt, 1, 2%R); (tt, 0, (-3)%R); (tt, 1, (-5)%R)] 1 = (-3)%R) by (simpl; lra).
  assert (E2 : row_sum [(tt, 1, 2%R); (tt, 0, (-3)%R); (tt, 1, (-5)%R)] 2 = 0%R) by (simpl; lra).
  assert (A3 : Rabs (-3) = 3%R) by (rewrite Rabs_left; lra).
  assert (B0 := B 0 ltac:(lia)). rewrite E0, A3 in B0.
  destruct (rd_max_idx rd) as [|[|[|k]]] eqn:Ek; [| | |lia].
  - rewrite E0, A3 in D. auto.
  - rewrite E1, A3 in D. specialize (E 0 ltac:(lia)). rewrite E0, A3 in E. exfalso. lra.
  - rewrite E2, Rabs_R0 in D. exfalso. lra.
Qed.

(** C60 *)
Theorem C60_merge_adds : forall (K V : Type) (keqb : K -> K -> bool),
  (forall a b, keqb a b = true <-> a = b) ->
  forall (zero : V) (add : V -> V -> V),
  (forall a b, add a b = add b a) -> (forall a b c, add a (add b c) = add (add a b) c) ->
  (forall a, add zero a = a) ->
  forall inputs target x, Forall unique_keys inputs ->
  value_of keqb zero (merge_residuals keqb zero add target inputs) x
    = add (value_of keqb zero target x) (total_of keqb zero add inputs x) /\
  has_key keqb (merge_residuals keqb zero add target inputs) x
    = has_key keqb target x || existsb (fun d => has_key keqb d x) inputs.
Proof. exact (@merge_correct). Qed.
Print Assumptions C60_merge_adds.

Theorem C60_merge_order_irrelevant : forall (K V : Type) (keqb : K -> K -> bool),
  (forall a b, keqb a b = true <-> a = b) ->
  forall (zero : V) (add : V -> V -> V),
  (forall a b, add a b = add b a) -> (forall a b c, add a (add b c) = add (add a b) c) ->
  (forall a, add zero a = a) ->
  forall inputs inputs' target x, Forall unique_keys inputs -> Permutation inputs inputs' ->
  value_of keqb zero (merge_residuals keqb zero add target inputs) x
    = value_of keqb zero (merge_residuals keqb zero add target inputs') x /\
  has_key keqb (merge_residuals keqb zero add target inputs) x
    = has_key keqb (merge_residuals keqb zero add target inputs') x.
Proof. exact (@merge_order_irrelevant). Qed.
Print Assumptions C60_merge_order_irrelevant.

Example C60_nonvacuous :
  merge_residuals Nat.eqb 0%Z Z.add [(1, 5%Z)] [[(2, 3%Z); (1, 4%Z)]; [(2, (-3)%Z); (7, 1%Z)]]
    = [(1, 9%Z); (2, 0%Z); (7, 1%Z)] /\
  Forall unique_keys [[(2, 3%Z); (1, 4%Z)]; [(2, (-3)%Z); (7, 1%Z)]].
Proof.
  split; [reflexivity|]. repeat constructor; simpl; intuition lia.
Qed.
