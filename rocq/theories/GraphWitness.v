(** Concrete networks for C45-C47. *)
From Coq Require Import List Bool Arith ZArith Reals Permutation Lia Lra.
From Verif Require Import Graph SpecGraph GraphProofs.
Import ListNotations.
Local Open Scope R_scope.

Definition bus (n p : nat) (v : Z) : gbus := {| gb_ground := false; gb_name := n; gb_phase := p; gb_virtual := false; gb_vnom := IZR v |}.
Definition line (f t : gbus) : gelem := {| ge_kind := KOther; ge_conns := [(f, t)] |}.
(** three places in a row, and an unrelated fourth *)
Definition row : gnetwork := {| gn_buses := [bus 0 0 100; bus 1 0 109; bus 2 0 91]; gn_elements := [line (bus 0 0 100) (bus 1 0 109); line (bus 1 0 109) (bus 2 0 91)] |}.
Definition apart : gnetwork := {| gn_buses := gn_buses row ++ [bus 3 0 100]; gn_elements := gn_elements row |}.
(** phase 1 of place 1 is connected to nothing *)
Definition lone_phase : gnetwork := with_bus row (bus 1 1 109).
(** two buses of the same name, nothing in between *)
Definition namesakes : gnetwork := {| gn_buses := [bus 7 0 100; bus 7 1 100]; gn_elements := [] |}.

Lemma row_ends : ends_ok row.
Proof.
  intros e f t He Hk Hc. destruct He as [<-|[<-|[]]]; destruct Hc as [[= <- <-]|[]]; split; right; match goal with |- place _ (gb_name ?b) => exists b end; (split; [cbn; auto 6|split; reflexivity]).
Qed.
Lemma apart_ends : ends_ok apart.
Proof.
  intros e f t He Hk Hc. destruct He as [<-|[<-|[]]]; destruct Hc as [[= <- <-]|[]]; split; right; match goal with |- place _ (gb_name ?b) => exists b end; (split; [cbn; auto 6|split; reflexivity]).
Qed.
Lemma row_islands : islands (build row) = [[0; 1; 2]%nat]. Proof. vm_compute. reflexivity. Qed.
Lemma apart_islands : islands (build apart) = [[0; 1; 2]%nat; [3%nat]]. Proof. vm_compute. reflexivity. Qed.
Lemma lone_islands : islands (build lone_phase) = [[0; 1; 2]%nat]. Proof. vm_compute. reflexivity. Qed.
Lemma namesakes_islands : islands (build namesakes) = [[7%nat]]. Proof. vm_compute. reflexivity. Qed.
Lemma lone_unconnected : unconnected lone_phase (bus 1 1 109).
Proof. intros e f t He Hc. destruct He as [<-|[<-|[]]]; destruct Hc as [[= <- <-]|[]]; split; intros X; apply (f_equal gb_phase) in X; discriminate X. Qed.

Ltac near := unfold far; match goal with |- context [Rlt_dec 10 (Rabs ?x)] => let Hf := fresh in destruct (Rlt_dec 10 (Rabs x)) as [Hf|Hf]; [exfalso; revert Hf; unfold Rabs; destruct (Rcase_abs _); lra|] end.
Ltac apart_ := unfold far; match goal with |- context [Rlt_dec 10 (Rabs ?x)] => let Hf := fresh in destruct (Rlt_dec 10 (Rabs x)) as [Hf|Hf]; [|exfalso; apply Hf; unfold Rabs; destruct (Rcase_abs _); lra] end.
Lemma row_regions : regions (build row) = [[0; 1; 2]%nat]. Proof. vm_compute. reflexivity. Qed.
Lemma row_bus0 : bus_list (build row) 0 = [bus 0 0 100]. Proof. reflexivity. Qed.
Lemma row_bus1 : bus_list (build row) 1 = [bus 1 0 109]. Proof. reflexivity. Qed.
Lemma row_bus2 : bus_list (build row) 2 = [bus 2 0 91]. Proof. reflexivity. Qed.
Lemma row_accepted : accepted (fun l => l) row = true.
Proof.
  unfold accepted, validate. rewrite row_islands, row_regions. cbn [length Nat.eqb andb forallb]. cbn [region_ok_from]. rewrite row_bus0, row_bus1, row_bus2.
  unfold bus; cbn [gb_vnom]. rewrite py_round_int. near. near. reflexivity.
Qed.
Lemma row_refused : accepted (@rev nat) row = false.
Proof.
  unfold accepted, validate. rewrite row_islands, row_regions. cbn [length Nat.eqb andb forallb rev app]. cbn [region_ok_from]. rewrite row_bus0, row_bus1, row_bus2.
  unfold bus; cbn [gb_vnom]. rewrite py_round_int. apart_. reflexivity.
Qed.
Lemma lone_accepted : accepted (fun l => l) lone_phase = true.
Proof.
  unfold accepted, validate. rewrite lone_islands. assert (regions (build lone_phase) = [[0; 1; 2]%nat]) as -> by (vm_compute; reflexivity). cbn [length Nat.eqb andb forallb]. cbn [region_ok_from].
  change (bus_list (build lone_phase) 0) with [bus 0 0 100]. change (bus_list (build lone_phase) 1) with [bus 1 0 109; bus 1 1 109]. change (bus_list (build lone_phase) 2) with [bus 2 0 91].
  unfold bus; cbn [gb_vnom]. rewrite py_round_int. near. near. reflexivity.
Qed.
Lemma namesakes_accepted visit : accepted visit namesakes = true.
Proof. unfold accepted, validate. rewrite namesakes_islands. assert (regions (build namesakes) = []) as -> by (vm_compute; reflexivity). reflexivity. Qed.
(** the second phase of a place is not looked at *)
Definition hidden : gnetwork := {| gn_buses := [bus 0 0 100; bus 1 0 100; bus 1 1 100000];
  gn_elements := [{| ge_kind := KOther; ge_conns := [(bus 0 0 100, bus 1 0 100); (bus 0 0 100, bus 1 1 100000)] |}] |}.
Lemma hidden_accepted : accepted (fun l => l) hidden = true.
Proof.
  unfold accepted, validate. assert (islands (build hidden) = [[0; 1]%nat]) as -> by (vm_compute; reflexivity). assert (regions (build hidden) = [[0; 1]%nat]) as -> by (vm_compute; reflexivity).
  cbn [length Nat.eqb andb forallb]. cbn [region_ok_from].
  change (bus_list (build hidden) 0) with [bus 0 0 100]. change (bus_list (build hidden) 1) with [bus 1 0 100; bus 1 1 100000].
  unfold bus; cbn [gb_vnom]. rewrite py_round_int. near. reflexivity.
Qed.
Lemma row_path : path (plain row) 0%nat 2%nat.
Proof.
  assert (forall u v, ~ linked_by (eq KTransformer) row u v) as NT by (intros u v [e [f [t [He [Ek _]]]]]; destruct He as [<-|[<-|[]]]; discriminate).
  econstructor; [econstructor; [constructor|]|]; split; try apply NT.
  - exists (line (bus 0 0 100) (bus 1 0 109)), (bus 0 0 100), (bus 1 0 109). repeat split; [left; reflexivity|discriminate|left; reflexivity|left; auto].
  - exists (line (bus 1 0 109) (bus 2 0 91)), (bus 1 0 109), (bus 2 0 91). repeat split; [right; left; reflexivity|discriminate|left; reflexivity|left; auto].
Qed.
Lemma row_first0 : first_bus row 0 (bus 0 0 100).
Proof. exists [], [bus 1 0 109; bus 2 0 91]. repeat split. intros c []. Qed.
Lemma row_first2 : first_bus row 2 (bus 2 0 91).
Proof. exists [bus 0 0 100; bus 1 0 109], []. repeat split. intros c [<-|[<-|[]]]; discriminate. Qed.
Lemma row_bound : Rabs (100 - 91) <= 20.
Proof. exact (accepted_voltages (fun l => l) row row_ends (fun l => Permutation_refl l) row_accepted 0 2 (bus 0 0 100) (bus 2 0 91) row_path row_first0 row_first2). Qed.
Lemma namesakes_close visit : (forall l, Permutation (visit l) l) -> validate visit (build namesakes) = true.
Proof.
  intros HV. apply close_validate; auto. { intros e f t []. } intros u v bu bv _ [l [r [E [_ _]]]] [l' [r' [E' _]]].
  assert (forall (l r : list gbus) b, gn_buses namesakes = l ++ b :: r -> gb_vnom b = 100) as X.
  { intros p q b Eq. assert (In b (gn_buses namesakes)) as Hb by (rewrite Eq; apply in_app_iff; right; left; auto). destruct Hb as [<-|[<-|[]]]; reflexivity. }
  rewrite (X l r bu E), (X l' r' bv E'). rewrite Rminus_diag_eq, Rabs_R0 by reflexivity; lra.
Qed.

Lemma hidden_gap : exists nw e f t, accepted (fun l => l) nw = true /\ In e (gn_elements nw) /\ ge_kind e = KOther /\ In (f, t) (ge_conns e) /\ gb_vnom t - gb_vnom f > 1000.
Proof.
  exists hidden. eexists. exists (bus 0 0 100), (bus 1 1 100000). split; [exact hidden_accepted|]. split; [left; reflexivity|]. split; [reflexivity|]. split; [right; left; reflexivity|].
  unfold bus; cbn [gb_vnom]. lra.
Qed.
