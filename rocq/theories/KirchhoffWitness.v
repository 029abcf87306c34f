(** A concrete network for C142: a slack, a line and a constant power load. *)
From Coq Require Import String List Bool Arith ZArith Reals Lia Lra.
From Verif Require Import SpecSystem Components SpecComponents SpecUnbalanced Network SpecNetwork SpecKirchhoff KirchhoffProofs KirchhoffNet.
Import ListNotations.
Local Open Scope R_scope.

Definition far_load := {| ld_P := 2 / 9; ld_Q := 0; ld_Zr := 0; ld_Zi := 0; ld_IP := 0; ld_IQ := 0 |}.
Definition feeder : network :=
  {| nw_three_phase := false; nw_buses := [{| bus_id := 4; bus_Vm := 1; bus_Va := 0 |}; {| bus_id := 8; bus_Vm := 1; bus_Va := 0 |}];
     nw_lines := [ELine {| ln_G := 1; ln_B := 0; ln_Bsh := 0 |} (Some 4%nat) (Some 8%nat)];
     nw_transformers := []; nw_slack := [{| sl_bus := Some 4%nat; sl_V := 1; sl_ang := 0; sl_Pinit := 0; sl_Qinit := 0 |}]; nw_switches := [];
     nw_generators := []; nw_loads := [ELoad far_load (Some 8%nat) None];
     nw_misc := []; nw_sources := []; nw_shunts := [];
     nw_regulators := []; nw_fuses := []; nw_capacitors := []; nw_optimization := None |}.
Lemma feeder_ok : network_ok feeder.
Proof.
  split.
  - cbn. repeat constructor; cbn; lia.
  - cbn. intros e H k Hk. assert (k = 4 \/ k = 8)%nat as [-> | ->]; [|auto|auto].
    repeat match type of H with _ \/ _ => destruct H as [<-|H]; [cbn in Hk; repeat match type of Hk with _ \/ _ => destruct Hk as [Hk|Hk] | False => destruct Hk end; try discriminate; injection Hk; auto|] | False => destruct H end.
Qed.
(** voltages with x at the far bus *)
Definition far (x : R) (b : bref) : C :=
  match b with None => C0 | Some 4%nat => (1, 0) | Some 8%nat => (x, 0) | _ => (5, 7) end.
Lemma polar1 : Cpolar 1 0 = (1, 0).
Proof. unfold Cpolar. rewrite cos_0, sin_0. f_equal; lra. Qed.
Lemma far_physical x : x * (1 - x) = 2 / 9 -> physical feeder (far x).
Proof.
  intros E. split; [reflexivity|].
  set (nz := fun (H : x = 0) => ltac:(subst x; lra) : False).
  exists [(ELine {| ln_G := 1; ln_B := 0; ln_Bsh := 0 |} (Some 4%nat) (Some 8%nat),
     [(Some 4%nat, Cadd (Cmul (1, 0) (across (far x) (Some 4%nat) (Some 8%nat))) (Cmul (0, 0) (1, 0)));
      (Some 8%nat, Csub (Cmul (0, 0) (x, 0)) (Cmul (1, 0) (across (far x) (Some 4%nat) (Some 8%nat))))], []);
    (ESlack {| sl_bus := Some 4%nat; sl_V := 1; sl_ang := 0; sl_Pinit := 0; sl_Qinit := 0 |}, [(Some 4%nat, (x - 1, 0))],
     re_im (Csub (far x (Some 4%nat)) (Cpolar 1 0)));
    (ELoad far_load (Some 8%nat) None, [(Some 8%nat, Cadd (1 - x, 0) (Cadd (0, 0) C0)); (None, Copp (Cadd (1 - x, 0) (Cadd (0, 0) C0)))], [])].
  split; [split; [reflexivity|]|split].
  - repeat apply Forall_cons; cbn [fst snd]; try apply Forall_nil.
    + exact (is_line (far x) {| ln_G := 1; ln_B := 0; ln_Bsh := 0 |} (Some 4%nat) (Some 8%nat) _ eq_refl).
    + apply (is_slack (far x) {| sl_bus := Some 4%nat; sl_V := 1; sl_ang := 0; sl_Pinit := 0; sl_Qinit := 0 |}).
    + apply (is_load (far x) far_load (Some 8%nat) None (1 - x, 0) C0).
      * right. split.
        { unfold across, far, Csub, C0; cbn. intros H; injection H; intros. apply nz; lra. }
        { unfold power, across, far, Csub, Cmul, Cconj, far_load; cbn. f_equal; nra. }
      * left. split; reflexivity.
  - unfold misses; cbn [flat_map app snd re_im fst far]. rewrite polar1. unfold Csub; cbn. repeat constructor; cbn; lra.
  - intros b [<-|[<-|[]]]; unfold net_current; cbn [flat_map app snd fst bus_id drawn fold_right Nat.eqb]; unfold across, far, Cadd, Csub, Cmul, Copp, C0; cbn; f_equal; lra.
Qed.
Lemma far_both : physical feeder (far (1 / 3)) /\ physical feeder (far (2 / 3)).
Proof. split; apply far_physical; lra. Qed.
Lemma far_energised x : x <> 0 -> energised feeder (far x).
Proof.
  intros N. split; cbn; intros; [|intuition discriminate].
  destruct H as [H|[H|[H|[]]]]; try discriminate. injection H as <- <- <-.
  unfold across, far, Csub, C0; cbn. intros E; injection E; intros; apply N; lra.
Qed.
(** other voltages are not possible *)
Lemma far_only x : physical feeder (far x) -> x * (1 - x) = 2 / 9.
Proof.
  intros [_ [ac [[E A] [Z K]]]].
  destruct ac as [|[[e1 i1] m1] [|[[e2 i2] m2] [|[[e3 i3] m3] [|? ?]]]]; try discriminate.
  cbn in E. injection E as -> -> ->.
  inversion A as [|? ? B1 A1]; subst. inversion A1 as [|? ? B2 A2]; subst. inversion A2 as [|? ? B3 _]; subst. cbn [fst snd] in B1, B2, B3.
  specialize (K {| bus_id := 8; bus_Vm := 1; bus_Va := 0 |} (or_intror (or_introl eq_refl))).
  inversion B1; subst. inversion B2; subst. inversion B3; subst. clear A A1 A2 B1 B2 B3.
  unfold net_current in K. cbn [flat_map app snd fst bus_id drawn fold_right Nat.eqb sl_bus] in K.
  match goal with X : _ \/ _ /\ power _ _ = _ |- _ => destruct X as [[H _]|[_ H']] end.
  { unfold far_load, C0 in H; cbn in H. injection H; intros; lra. }
  match goal with X : _ \/ _ /\ Cmul _ _ = _ |- _ => destruct X as [[_ H8]|[H8 _]]; [|exfalso; apply H8; reflexivity] end.
  destruct Ip as [p q]. subst Iz. clear Z.
  unfold across, far, far_load, Cadd, Csub, Cmul, Copp, C0, power, Cconj in *; cbn in *.
  injection K; injection H'; intros. nra.
Qed.
