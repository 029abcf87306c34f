(** Two buses for C159: a regulator between nominal voltages 100 and 4000, and the same as a voltage source between 100 and 91. *)
From Coq Require Import String List Bool Arith ZArith Reals Permutation Lia Lra.
From Verif Require Import SpecSystem Components SpecComponents Network SpecNetwork Solver Devices Graph SpecGraph PowerFlow SpecPowerFlow PowerFlowWitness SpecLevel LevelProofs.
Import ListNotations.
Local Open Scope R_scope.

Definition pair_net (three : bool) : network :=
  {| nw_three_phase := three; nw_buses := [{| bus_id := 1; bus_Vm := 1; bus_Va := 0 |}; {| bus_id := 2; bus_Vm := 1; bus_Va := 0 |}];
     nw_lines := []; nw_transformers := []; nw_slack := []; nw_switches := []; nw_generators := []; nw_loads := []; nw_misc := [];
     nw_sources := if three then [] else [EVs 1 0 (Some 1%nat) (Some 2%nat)]; nw_shunts := [];
     nw_regulators := if three then [EReg 2 (Some 1%nat) (Some 2%nat) None] else []; nw_fuses := []; nw_capacitors := []; nw_optimization := None |}.
Definition pair_details (high : R) : details_of :=
  {| of_bus := fun k => {| gb_ground := false; gb_name := k; gb_phase := 0; gb_virtual := false; gb_vnom := if Nat.eqb k 2 then high else 100 |};
     of_fuse := fun _ => (1, GOOD); of_cap := fun _ => (C_MANUAL, 0, 0) |}.
Lemma pair_ok three : network_ok (pair_net three).
Proof.
  split; [cbn; repeat constructor; cbn; lia|]. destruct three; cbn; intros e H k Hk; in_cases H; cbn in Hk; repeat match type of Hk with _ \/ _ => destruct Hk as [Hk|Hk] | False => destruct Hk end; try discriminate; injection Hk as <-; auto.
Qed.
Lemma pair_sorted three : sorted (pair_net three).
Proof. split; cbn; intros e []. Qed.
Lemma pair_proper three high : proper (pair_details high) (pair_net three).
Proof. split; [reflexivity|]. split; reflexivity. Qed.
Lemma pair_unlevel high u v : ~ held_by (fun e => ~ steps e) (pair_details high) (pair_net true) u v.
Proof.
  intros [e [i [j [N [[H|[_ [k [H _]]]] _]]]]]; [|destruct k; discriminate]. cbn in H. destruct H as [<-|[]]. apply N. right; right. eauto.
Qed.
Lemma pair_close high u v b c : path (held_by (fun e => ~ steps e) (pair_details high) (pair_net true)) u v ->
  first_at (pair_details high) (pair_net true) u b -> first_at (pair_details high) (pair_net true) v c -> Rabs (nominal (pair_details high) b - nominal (pair_details high) c) <= 19 / 2.
Proof.
  intros P. destruct P as [|v w P H]; [|exfalso; exact (pair_unlevel _ _ _ H)]. intros [l [r [_ [Nb _]]]] [l' [r' [_ [Nc _]]]].
  unfold name_of_bus in *. cbn in Nb, Nc. unfold nominal. cbn. rewrite Nb, Nc. rewrite Rminus_diag_eq, Rabs_R0 by reflexivity. lra.
Qed.
Lemma pair_level high : level (pair_details high) (pair_net false) 1 2.
Proof.
  split.
  - exists (EVs 1 0 (Some 1%nat) (Some 2%nat)), 1%nat, 2%nat. split; [intros [[? [? [? [? [? E]]]]]|[[? [? [? [? [? [? [? E]]]]]]]|[? [? [? [? E]]]]]]; discriminate|].
    split; [left; cbn; auto|]. split; [constructor|]. left; split; reflexivity.
  - intros [e [i [j [N [[H|[T _]] _]]]]]; [|discriminate]. cbn in H. destruct H as [<-|[]].
    destruct N as [[? [? [? [? [? E]]]]]|[[? [? [? [? [? [? [? E]]]]]]]|[? [? [? [? E]]]]]]; discriminate.
Qed.
Lemma pair_first high : first_at (pair_details high) (pair_net false) 1 {| bus_id := 1; bus_Vm := 1; bus_Va := 0 |} /\
  first_at (pair_details high) (pair_net false) 2 {| bus_id := 2; bus_Vm := 1; bus_Va := 0 |}.
Proof.
  split; [exists [], [{| bus_id := 2; bus_Vm := 1; bus_Va := 0 |}]|exists [{| bus_id := 1; bus_Vm := 1; bus_Va := 0 |}], []]; (split; [reflexivity|]); (split; [reflexivity|]); cbn.
  - intros c [].
  - intros c [<-|[]]. discriminate.
Qed.
Lemma pair_one high nan cfg old so n : execute (pair_details high) zeros nan cfg old (fun l => l) (pair_net false) so <> PFIslands n.
Proof.
  unfold execute. replace (length (islands (build (graph_of (pair_details high) (pair_net false))))) with 1%nat by (vm_compute; reflexivity). cbn [Nat.eqb negb].
  destruct (negb (validate _ _)); [discriminate|]. destruct (device_run _ _ _ _ _ _ _) as [ok v [[it tx] res] ds so'|]; discriminate.
Qed.
