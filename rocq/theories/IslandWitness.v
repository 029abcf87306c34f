(** Concrete networks for C48. *)
From Coq Require Import List Bool Arith.
From Verif Require Import SpecGraph Island SpecIsland IslandProofs.
Import ListNotations.

Definition gnd : ibus := {| ib_ground := true; ib_num := 0; ib_name := 999; ib_virtual := false |}.
Definition bus_at (num name : nat) (v : bool) : ibus := {| ib_ground := false; ib_num := num; ib_name := name; ib_virtual := v |}.
Definition b0 := bus_at 0 10 false. Definition b1 := bus_at 1 11 false. Definition b2 := bus_at 2 12 false.
Definition b3 := bus_at 3 20 false. Definition b4 := bus_at 4 21 false. Definition b5 := bus_at 5 22 false.
Definition v6 := bus_at 6 30 true. Definition v7 := bus_at 7 31 true. Definition v8 := bus_at 8 32 true. Definition v9 := bus_at 9 33 true.
Definition two_islands : inet :=
  {| in_buses := [b0; b1; b2; b3; b4; b5; v6; v7; v8; v9];
     in_lines := [{| ie_id := 1; ie_conns := [(b0, b1)]; ie_inner := [] |}; {| ie_id := 2; ie_conns := [(b3, b4)]; ie_inner := [] |}];
     in_xfs := [{| ie_id := 3; ie_conns := [(b1, b2); (b1, gnd)]; ie_inner := [v6] |}; {| ie_id := 4; ie_conns := [(b4, b5)]; ie_inner := [v7] |}];
     in_switches := [{| ie_id := 5; ie_conns := []; ie_inner := [] |}];
     in_slack := [{| is_id := 6; is_bus := b0 |}; {| is_id := 7; is_bus := b3 |}];
     in_gens := [];
     in_loads := [{| iv_id := 8; iv_from := b1; iv_to := b2; iv_inner := []; iv_live := true |}; {| iv_id := 9; iv_from := b1; iv_to := gnd; iv_inner := []; iv_live := true |};
                  {| iv_id := 10; iv_from := b4; iv_to := b5; iv_inner := []; iv_live := true |}];
     in_fuses := [{| iv_id := 11; iv_from := b0; iv_to := b2; iv_inner := [v8]; iv_live := true |}; {| iv_id := 12; iv_from := b3; iv_to := b5; iv_inner := [v9]; iv_live := false |}];
     in_regs := []; in_caps := [{| iv_id := 13; iv_from := b2; iv_to := gnd; iv_inner := []; iv_live := true |}] |}.
Ltac in_cases := repeat match goal with H : _ \/ _ |- _ => destruct H as [H|H] | H : False |- _ => destruct H end.
Lemma two_islands_wf : wf two_islands.
Proof.
  constructor.
  - cbn. repeat constructor; cbn; intuition discriminate.
  - cbn. intros b H. in_cases; subst; reflexivity.
  - cbn. intros f t H. unfold end_ok, proper; cbn. in_cases; injection H as <- <-; cbn; split; tauto.
  - cbn. intros d H. unfold end_ok, proper; cbn. in_cases; subst d; cbn; split; tauto.
  - cbn. intros d H. unfold proper; cbn. in_cases; subst d; cbn; split; auto; tauto.
  - cbn. intros e b H H'. in_cases; subst e; cbn in H'; in_cases; subst; split; auto 12; reflexivity.
  - cbn. intros e b H H'. in_cases; subst e; cbn in H'; in_cases; subst; split; auto 12; reflexivity.
Qed.
Lemma two_islands_selected : exists r, select_island 10 two_islands = Some r /\ map ib_num (in_buses r) = [0; 1; 2; 6; 8] /\ map ie_id (in_lines r) = [1] /\ map ie_id (in_xfs r) = [3] /\
  map ie_id (in_switches r) = [5] /\ map is_id (in_slack r) = [6] /\ map iv_id (in_loads r) = [8] /\ map iv_id (in_fuses r) = [11] /\ in_caps r = [].
Proof. eexists; split; [vm_compute; reflexivity|]. repeat split. Qed.
