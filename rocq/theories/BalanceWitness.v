(** The feeder of C142 for C152: half of the solutions waste more than they deliver. *)
From Coq Require Import Reals List Bool Arith Lra Lia.
From Verif Require Import SpecSystem Components SpecComponents SpecUnbalanced Network SpecNetwork SpecKirchhoff KirchhoffNet KirchhoffWitness SpecNetInfeas SpecNetLeast SpecBalance BalanceProofs BalanceFinal.
Import ListNotations.
Local Open Scope R_scope.

Lemma feeder_passive : forall e, In e (elements feeder) -> passive e.
Proof. intros e [<-|[<-|[<-|[]]]]; cbn; auto. lra. Qed.
Lemma feeder_constant : constant_power feeder.
Proof. intros l f t [H|[H|[H|[]]]]; try discriminate. injection H as <- <- <-. split; reflexivity. Qed.
Lemma feeder_powers x : x * (1 - x) = 2 / 9 -> exists ac, accounts_for (far x) feeder ac /\ supplied (far x) ac = (1 - x, 0) /\ delivered (far x) ac = (2 / 9, 0) /\ lost (far x) ac = ((1 - x) * (1 - x), 0).
Proof.
  intros E. destruct (balance_physical feeder (far x) feeder_ok (far_physical x E)) as [ac [A [T B]]]. exists ac. split; [exact A|].
  assert (D : delivered (far x) ac = (2 / 9, 0)) by (rewrite (described_delivered _ _ _ A T feeder_constant); unfold described, Cadd, C0; cbn; f_equal; lra).
  assert (L : lost (far x) ac = ((1 - x) * (1 - x), 0)).
  { destruct A as [A _]. change (elements feeder) with [ELine {| ln_G := 1; ln_B := 0; ln_Bsh := 0 |} (Some 4%nat) (Some 8%nat); ESlack {| sl_bus := Some 4%nat; sl_V := 1; sl_ang := 0; sl_Pinit := 0; sl_Qinit := 0 |}; ELoad far_load (Some 8%nat) None] in A.
    destruct ac as [|[[e1 I1] m1] [|[[e2 I2] m2] [|[[e3 I3] m3] [|]]]]; try discriminate. cbn in A. injection A as -> -> ->.
    unfold lost. cbn [only filter is_carrier is_source is_demand negb andb fst snd]. rewrite total_cons. change (total (far x) []) with C0. rewrite Cadd_0r. cbn [fst snd].
    inversion T as [|? ? T1 _]; subst. cbn [fst snd] in T1. inversion T1. unfold over, sq, across, far, Cadd, Csub, Cscale, Cconj, Cnorm2. cbn. f_equal; ring. }
  split; [|split; [exact D|exact L]]. rewrite B, D, L. unfold Cadd. cbn. f_equal; nra.
Qed.
