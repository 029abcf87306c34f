(** Concrete instances for C39, C40 and C65: a bus with a constant current load of 1 and no supply. *)
From Coq Require Import String List Bool Arith ZArith Reals Lra Lia.
From Verif Require Import Expr Segment Collect SpecSystem Components SpecComponents ComponentsProofs ElementProofs ComponentsWitness SpecInfeasibility BilinearProofs InfeasibilityProofs.
Import ListNotations.
Local Open Scope R_scope.

Definition bus4 : nodes := {| n_Vr := Some 0%nat; n_Vi := Some 1%nat; n_Lr := Some 2%nat; n_Li := Some 3%nat |}.
Definition lone_load : list element := [(fst (two_terminal_details lh_Ic bus4 GROUND 4 true), [1; 0])].
Definition circuit_unknown (i : nat) : bool := (i <? 2)%nat || (4 <=? i)%nat.
Lemma lone_ok : forall N, (4 <= N)%nat -> forall e, In e lone_load -> linear_element e /\ separated circuit_unknown N e /\ before 4 e.
Proof.
  intros N HN e [<-|[]]. split; [|split].
  - constructor; [right; right; left; reflexivity|reflexivity|reflexivity].
  - split; intros x i Hx Hl; cbn in Hx.
    + do 4 (destruct Hx as [<-|Hx]; [vm_compute in Hl; first [discriminate | injection Hl as <-; split; [lia|reflexivity]]|]). destruct Hx.
    + do 4 (destruct Hx as [<-|Hx]; [vm_compute in Hl; first [discriminate | injection Hl as <-; split; [lia|reflexivity]]|]). destruct Hx.
  - intros x i Hl. unfold lone_load, two_terminal_details in Hl. cbn in Hl.
    repeat match type of Hl with (if ?c then _ else _) = _ => destruct c; [first [discriminate | injection Hl as <-; lia]|] end. discriminate.
Qed.
Lemma place_ok : forall k, (k <= 4)%nat -> places_ok circuit_unknown 8 k [(bus4, 4%nat)].
Proof.
  intros k Hk b n [E|[]]. injection E as <- <-. split.
  - intros j Hj. split; [lia|]. destruct j as [|[|[|[|]]]]; reflexivity || lia.
  - intros i [E|[E|[]]]; injection E as <-; split; try lia; reflexivity.
Qed.
Lemma lone_F : forall v tx r, F lone_load v tx r = hit (Some 2%nat) r.
Proof.
  intros. unfold lone_load. rewrite F_cons, F_nil. cbn [fst]. expand_rows. ring.
Qed.
Definition l2_point (i : nat) : R := nth i [0; 0; 2; 0; -1; 0; 0; 0] 0.
Lemma l2_solved : (forall r, (r < 8)%nat -> F (lone_load ++ l2_elements [(bus4, 4%nat)]) l2_point 0 r = 0) /\ total_L2 [(bus4, 4%nat)] l2_point = 1.
Proof.
  split.
  - intros r Hr. rewrite F_app, lone_F. unfold l2_elements. cbn [flat_map fst snd app]. rewrite app_nil_r, l2_rows. cbv zeta. unfold at_lambda, mult. cbn.
    do 8 (destruct r as [|r]; [cbn; lra|]). lia.
  - cbn. unfold l2_point. cbn. lra.
Qed.
Definition l1_point (i : nat) : R := nth i [0; 0; 1; 0; 0; -1/2; -1; -1/2] 0.
Lemma l1_solved : (forall r, (r < 8)%nat -> F (lone_load ++ l1_elements [(bus4, 4%nat)]) l1_point 0 r = 0) /\ total_net2 [(bus4, 4%nat)] l1_point = 1.
Proof.
  split.
  - intros r Hr. rewrite F_app, lone_F. unfold l1_elements. cbn [flat_map fst snd app]. rewrite app_nil_r, l1_rows. cbv zeta. unfold at_lambda, mult, l1_point. cbn.
    do 8 (destruct r as [|r]; [cbn; lra|]). lia.
  - cbn. unfold net_r, net_i, l1_point. cbn. lra.
Qed.
(** squared infeasibility current and its multipliers *)
Lemma gradient_instance : derivable_pt_lim (fun t => lagrangian (l2_elements [(bus4, 4%nat)]) (set_v (fun _ => 1) 4 t) 0) 1 3.
Proof.
  replace 3 with (F (l2_elements [(bus4, 4%nat)]) (fun _ => 1) 0 4).
  - apply (network_gradient (l2_elements [(bus4, 4%nat)]) (fun _ => 1) 0 4). intros e [<-|[]]. split; [|split; [reflexivity|]].
    + constructor; cbn; auto; try (intuition discriminate); try discriminate.
      * repeat (constructor; [cbn; intuition discriminate|]). constructor.
      * intros s Hs. cbn in *. intuition.
    + unfold defined_at. cbn. repeat split; try lia; intros; lia.
  - unfold l2_elements. cbn [flat_map fst snd app]. rewrite app_nil_r, l2_rows. cbv zeta. unfold at_lambda, mult. cbn. lra.
Qed.
