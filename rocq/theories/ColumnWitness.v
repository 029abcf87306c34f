(** The feeder of C142 for C155, and the same with the slack at a right angle. *)
From Coq Require Import Reals ZArith String List Bool Arith Lra Lia.
From Verif Require Import PyExc Collect SpecSystem Solver SpecSolver Devices Graph PowerFlow NewtonGauss ThreePhase RawParser Loader LoaderWitness SolverNet Command SpecCommand CommandWitness Results SpecResults Output SpecOutput Report SpecReport ReportWitness.
From Verif Require Import Components SpecComponents SpecUnbalanced Network SpecNetwork NetworkAssign SpecKirchhoff KirchhoffNet KirchhoffWitness SpecNetInfeas SpecNetLeast SpecBalance BalanceProofs BalanceFinal BalanceWitness SpecColumn ColumnProofs ColumnFinal.
Import ListNotations.
Local Open Scope R_scope.

Lemma feeder_sources : sources_listed feeder.
Proof. split; [reflexivity|]. intros s [<-|[]]; discriminate. Qed.
Lemma feeder_zero : slacks_at_zero feeder.
Proof. intros s [<-|[]]; reflexivity. Qed.
Lemma feeder_solved old x : x * (1 - x) = 2 / 9 -> let a := assign_matrix old feeder in exists v, (forall q, (q < as_size a)%nat -> F (equations a) v 0 q = 0) /\ energised feeder (voltages a v).
Proof.
  intros E a. destruct (complete old feeder feeder_ok eq_refl (far x) (far_physical x E)) as (v & Hv & HF). exists v. split; [exact HF|].
  assert (N : x <> 0) by (intros ->; lra). pose proof (Hv {| bus_id := 8; bus_Vm := 1; bus_Va := 0 |} (or_intror (or_introl eq_refl))) as V8. cbn [bus_id far] in V8. fold a in V8.
  split; [intros l f t H _|intros g H; cbn in H; intuition discriminate]. destruct H as [H|[H|[H|[]]]]; try discriminate. injection H as <- <- <-. unfold across. rewrite V8. unfold Csub, C0. cbn. intros Q. injection Q. intros. apply N. lra.
Qed.

(** *** the slack at 90 degrees *)
Definition turned_slack : slack := {| Network.sl_bus := Some 4%nat; sl_V := 1; Network.sl_ang := PI / 2; sl_Pinit := 0; sl_Qinit := 0 |}.
Definition turned : network :=
  {| nw_three_phase := false; nw_buses := [{| bus_id := 4; bus_Vm := 1; bus_Va := 0 |}; {| bus_id := 8; bus_Vm := 1; bus_Va := 0 |}];
     nw_lines := [ELine {| ln_G := 1; ln_B := 0; ln_Bsh := 0 |} (Some 4%nat) (Some 8%nat)];
     nw_transformers := []; nw_slack := [turned_slack]; nw_switches := [];
     nw_generators := []; nw_loads := [ELoad far_load (Some 8%nat) None];
     nw_misc := []; nw_sources := []; nw_shunts := [];
     nw_regulators := []; nw_fuses := []; nw_capacitors := []; nw_optimization := None |}.
Lemma turned_ok : network_ok turned.
Proof.
  split.
  - cbn. repeat constructor; cbn; lia.
  - cbn. intros e H k Hk. assert (k = 4 \/ k = 8)%nat as [-> | ->]; [|auto|auto].
    repeat match type of H with _ \/ _ => destruct H as [<-|H]; [cbn in Hk; repeat match type of Hk with _ \/ _ => destruct Hk as [Hk|Hk] | False => destruct Hk end; try discriminate; injection Hk; auto|] | False => destruct H end.
Qed.
Definition upright (x : R) (b : bref) : C := match b with None => C0 | Some 4%nat => (0, 1) | Some 8%nat => (0, x) | _ => (5, 7) end.
Lemma polar2 : Cpolar 1 (PI / 2) = (0, 1).
Proof. unfold Cpolar. rewrite cos_PI2, sin_PI2. f_equal; lra. Qed.
Lemma turned_physical x : x * (1 - x) = 2 / 9 -> physical turned (upright x).
Proof.
  intros E. split; [reflexivity|].
  set (nz := fun (H : x = 0) => ltac:(subst x; lra) : False).
  exists [(ELine {| ln_G := 1; ln_B := 0; ln_Bsh := 0 |} (Some 4%nat) (Some 8%nat),
     [(Some 4%nat, Cadd (Cmul (1, 0) (across (upright x) (Some 4%nat) (Some 8%nat))) (Cmul (0, 0) (0, 1)));
      (Some 8%nat, Csub (Cmul (0, 0) (0, x)) (Cmul (1, 0) (across (upright x) (Some 4%nat) (Some 8%nat))))], []);
    (ESlack turned_slack, [(Some 4%nat, (0, x - 1))], re_im (Csub (upright x (Some 4%nat)) (Cpolar 1 (PI / 2))));
    (ELoad far_load (Some 8%nat) None, [(Some 8%nat, Cadd (0, 1 - x) (Cadd (0, 0) C0)); (None, Copp (Cadd (0, 1 - x) (Cadd (0, 0) C0)))], [])].
  split; [split; [reflexivity|]|split].
  - repeat apply Forall_cons; cbn [fst snd]; try apply Forall_nil.
    + exact (is_line (upright x) {| ln_G := 1; ln_B := 0; ln_Bsh := 0 |} (Some 4%nat) (Some 8%nat) _ eq_refl).
    + apply (is_slack (upright x) turned_slack).
    + apply (is_load (upright x) far_load (Some 8%nat) None (0, 1 - x) C0).
      * right. split.
        { unfold across, upright, Csub, C0; cbn. intros H; injection H; intros. apply nz; lra. }
        { unfold power, across, upright, Csub, Cmul, Cconj, far_load; cbn. f_equal; nra. }
      * left. split; reflexivity.
  - unfold misses; cbn [flat_map app snd re_im fst upright]. rewrite polar2. unfold Csub; cbn. repeat constructor; cbn; lra.
  - intros b [<-|[<-|[]]]; unfold net_current; cbn [flat_map app snd fst bus_id drawn fold_right Nat.eqb]; unfold across, upright, Cadd, Csub, Cmul, Copp, C0; cbn; f_equal; lra.
Qed.
(** the column P of the power file says that more is taken than delivered *)
Lemma turned_column old r : exists v, let a := assign_matrix old turned in let gens := map (fun g => gen_res v (snd g)) (gens_of a r turned) in let slacks := map (fun s => slack_res v (snd s)) (slacks_of a r turned) in
  network_ok turned /\ nw_optimization turned = None /\ energised turned (voltages a v) /\ sources_listed turned /\ constant_power turned /\ (forall e, In e (elements turned) -> passive e) /\
  (forall q, (q < as_size a)%nat -> F (equations a) v 0 q = 0) /\ 0 < column_P gens slacks + fst (described turned).
Proof.
  destruct (complete old turned turned_ok eq_refl (upright (2 / 3)) (turned_physical (2 / 3) ltac:(lra))) as (v & Hv & HF). exists v. cbv zeta. set (a := assign_matrix old turned).
  pose proof (Hv {| bus_id := 4; bus_Vm := 1; bus_Va := 0 |} (or_introl eq_refl)) as V4. pose proof (Hv {| bus_id := 8; bus_Vm := 1; bus_Va := 0 |} (or_intror (or_introl eq_refl))) as V8. cbn [bus_id upright] in V4, V8. fold a in V4, V8.
  assert (EN : energised turned (voltages a v)).
  { split; [intros l f t H _|intros g H; cbn in H; intuition discriminate]. destruct H as [H|[H|[H|[]]]]; try discriminate. injection H as <- <- <-. unfold across. rewrite V8. unfold Csub, C0. cbn. intros Q. injection Q. intros. lra. }
  assert (SL : sources_listed turned) by (split; [reflexivity|]; intros s [<-|[]]; discriminate).
  split; [exact turned_ok|]. split; [reflexivity|]. split; [exact EN|]. split; [exact SL|]. split; [|split; [|split; [exact HF|]]].
  - intros l f t [H|[H|[H|[]]]]; try discriminate. injection H as <- <- <-. split; reflexivity.
  - intros e [<-|[<-|[<-|[]]]]; cbn; auto. lra.
  - destruct (column_rows old r turned v turned_ok eq_refl EN SL) as (ac & aS & aG & A & G & O & F1 & F2 & _). fold a in A, G, O, F1, F2.
    assert (Z : sum (map gr_P (map (fun s => slack_res v (snd s)) (slacks_of a r turned))) = 0).
    { assert (AS : Forall (fun x => In (fst (fst x)) (elements turned)) aS).
      { destruct A as [A _]. rewrite <- A. apply Forall_forall. intros x Hx. apply in_map_iff. exists x. split; [reflexivity|]. assert (I : In x (only is_source ac)) by (rewrite O; apply in_or_app; now left). unfold only in I. apply filter_In in I. tauto. }
      clear O G A. revert AS. induction F1 as [|x g xs gs (s & I & E & P & _) F1 IH]; intros AS; [reflexivity|]. inversion AS as [|? ? A1 A2]. subst. unfold sum in *. cbn [map fold_right]. rewrite (IH A2), P.
      rewrite E in A1. cbn [fst] in A1. destruct A1 as [A1|[A1|[A1|[]]]]; try discriminate. injection A1 as <-. cbn [Network.sl_bus turned_slack]. rewrite V4. cbn. ring. }
    unfold column_P. rewrite map_app, sum_app, Z. unfold described, gens_of, stampers_of, Cadd, C0. cbn. lra.
Qed.

(** *** a file *)
Lemma home_near old nw' : scaled 0 home_nw nw' -> let nwd := with_devices nw' [] in let a := assign_matrix old nwd in
  energised nwd (voltages a (vec home_point)) /\ constant_power nwd /\ forall q, (q < as_size a)%nat -> F (equations a) (vec home_point) 0 q = 0.
Proof.
  intros SC. destruct (home_scaled _ _ SC) as (d & -> & D1 & D2 & D3 & D4 & D5). change (with_devices (with_loads home_nw [ELoad d (Some 0%nat) None]) []) with (with_loads home_nw [ELoad d (Some 0%nat) None]).
  destruct (home_assigned old d D1 D2 D3 D4 D5) as [EQ SZ]. cbv zeta in *. rewrite EQ, SZ. split; [|split].
  - split; [intros l f t H H0|intros g H; cbn in H; intuition discriminate]. destruct H as [H|[H|[]]]; try discriminate. injection H as <- <- <-. exfalso. apply H0. rewrite D1, !Rmult_0_l. reflexivity.
  - intros l f t [H|[H|[]]]; try discriminate. injection H as <- <- <-. rewrite D2, D3, D4, D5. split; reflexivity.
  - exact (proj1 home_solution).
Qed.
Lemma home_column nm old nan later outputs fuel : exists it rd,
  reports (command unit feed_tools home_desk nm gauss nan old (fun l => l) later outputs fuel (home_options (Some 0)) tt) (PFDone true home_point it 0 rd [] tt) /\
  names_plain no_label (Three home_net) /\ forall nw', scaled 0 home_nw nw' -> let nwd := with_devices nw' [] in let a := assign_matrix old nwd in
  energised nwd (voltages a (vec home_point)) /\ constant_power nwd /\ forall q, (q < as_size a)%nat -> Rabs (F (equations a) (vec home_point) 0 q) < 1 / 1000.
Proof.
  destruct (home_run nm old nan later outputs fuel) as (it & rd & H & _). exists it, rd. split; [exact H|]. split; [exact home_plain_names|].
  intros nw' SC. destruct (home_near old nw' SC) as (A & B & C). split; [exact A|]. split; [exact B|]. intros q Hq. rewrite (C q Hq), Rabs_R0. lra.
Qed.
