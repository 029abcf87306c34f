(** Each record class reads exactly what its layout says: switched shunts, transformers, records not used. *)
From Coq Require Import Reals ZArith String Ascii List Bool Lia.
From Verif Require Import PyExc RawTransformers RawParser GlmText RawText SpecRawText RawFieldProofs RawRecordProofs.
Import ListNotations.
Local Open Scope string_scope.

Section Records.
Variable to_int : string -> option Z.
Variable to_float : string -> option R.

Lemma read_steps_iff : forall r ns out, read_steps to_int to_float r ns = Ok out <->
  Forall2 (fun n s => V Z to_int r n 0%Z (fst s) /\ V R to_float r (n + 1) 0%R (snd s)) ns out.
Proof.
  intros r ns out. unfold read_steps.
  assert (A : forall ns acc out, mfold (fun acc n => do s <- read_step to_int to_float r n; Ok (acc ++ [s])%list) ns acc = Ok out <->
    exists l, out = (acc ++ l)%list /\ Forall2 (fun n s => V Z to_int r n 0%Z (fst s) /\ V R to_float r (n + 1) 0%R (snd s)) ns l).
  { clear ns out. induction ns as [|n ns IH]; intros acc out; cbn [mfold].
    - split; [intros H; injection H as <-; exists []; rewrite app_nil_r; auto | intros (l & -> & H); inversion H; rewrite app_nil_r; reflexivity].
    - split.
      + intros H. unbind H. unbind E. injection E as <-. unfold read_step in E0. unbind E0. injection E0 as <-. read_hyps.
        apply IH in H as (l & -> & H). eexists. rewrite <- app_assoc. split; [reflexivity|]. constructor; [auto | exact H].
      + intros (l & -> & H). inversion H as [|? [z b] ? l' [H1 H2] H3]; subst. cbn [fst snd] in *.
        apply int_some in H1. apply float_some in H2. unfold read_step. rewrite H1. cbn [pbind]. rewrite H2. cbn [pbind].
        apply IH. exists l'. rewrite <- app_assoc. auto. }
  rewrite A. split; [intros (l & -> & H); exact H | intros H; exists out; auto].
Qed.
Ltac split_steps H :=
  repeat match type of H with Forall2 _ (_ :: _) _ => inversion H as [|? ? ? ? [? ?] H' ]; subst; clear H; rename H' into H end;
  inversion H; subst; clear H.
Lemma read_ss_iff : forall rev r k x, In rev [30; 32; 33; 34]%Z ->
  (read_ss to_int to_float rev r = Ok (k, x) <-> k = [KI (ss_bus x)] /\ ss_row to_int to_float rev r x).
Proof.
  intros rev r k x R. unfold read_ss, ss_row, int_in, float_in, text_in. cbv zeta.
  four R; cases_rev; split; [intros H | intros (-> & H) | intros H | intros (-> & H) | intros H | intros (-> & H) | intros H | intros (-> & H)].
  1,3,5,7: unbind H; injection H as <- <-; cbn [map Nat.sub] in *; repeat match goal with K : Ok _ = Ok _ |- _ => injection K as <- end;
    match goal with K : read_steps _ _ _ _ = Ok _ |- _ => apply read_steps_iff in K; split_steps K; cbn [fst snd Nat.add] in * end; read_hyps;
    cbn [ss_bus ss_modsw ss_stat ss_vhi ss_vlo ss_binit ss_steps];
    match goal with K : G _ _ (fill_row _ ?m) _ _ _ |- _ => filled m end;
    entries; positions; repeat (apply conj; [first [reflexivity | prove_goods | prove_V] |]);
    repeat (apply Forall2_cons; [cbn [fst snd]; match goal with K : G _ _ (fill_row _ ?m) _ _ _ |- _ => rewrite !(entry_fill _ _ _ _ m) by (vm_compute; lia) end;
                                 entries; positions; split; assumption|]); apply Forall2_nil.
  all: match goal with |- context [fill_row _ ?m] =>
      rewrite (accepts_fill _ _ _ _ m) in H by (vm_compute; lia); rewrite ?(entry_fill _ _ _ _ m) in H by (vm_compute; lia);
      destruct H as [A H]; repeat match type of H with _ /\ _ => let K := fresh "K" in destruct H as [K H] end;
      destruct x as [xb xm xs xh xl xi xx]; cbn [ss_bus ss_modsw ss_stat ss_vhi ss_vlo ss_binit ss_steps] in *;
      split_steps H;
      repeat match goal with K : entry _ _ true _ _ _ _ |- _ => rewrite (entry_fill _ _ _ _ m) in K by (vm_compute; lia) end
    end;
    entries; positions; split_goods A; cbn [map Nat.sub].
  all: repeat step; try (cbn [pbind]; repeat step).
  all: match goal with |- context [read_steps ?ti ?tf ?r ?ns] => eassert (S : read_steps ti tf r ns = Ok _) by
         (apply read_steps_iff; cbn [map Nat.sub]; repeat (apply Forall2_cons; [cbn [Nat.add]; split; eassumption|]); apply Forall2_nil); rewrite S; clear S; cbn [pbind] end.
  all: repeat step; subst; repeat match goal with p : (_ * _)%type |- _ => destruct p end; reflexivity.
Qed.
End Records.
