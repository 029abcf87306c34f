(** Proofs for C152. *)
From Coq Require Import Reals List Bool Arith Lra Lia.
From Verif Require Import SpecSystem Components SpecComponents SpecUnbalanced UnbalancedProofs Network SpecNetwork SpecKirchhoff KirchhoffNet SpecNetInfeas SpecNetLeast SpecBalance.
Import ListNotations.
Local Open Scope R_scope.

Ltac csplit := unfold over, sq, power, Cadd, Csub, Copp, Cmul, Cconj, Cscale, Cnorm2, C0 in *; apply injective_projections; cbn [fst snd] in *.
Ltac cring := csplit; ring.
(** *** sums *)
Lemma Cadd_0r c : Cadd c C0 = c. Proof. destruct c. cring. Qed.
Lemma Cadd_0l c : Cadd C0 c = c. Proof. destruct c. cring. Qed.
Lemma Csum_add g h n : Csum (fun i => Cadd (g i) (h i)) n = Cadd (Csum g n) (Csum h n).
Proof. unfold Csum. induction (seq 0 n) as [|i l IH]; cbn [fold_right]; [cring|]. rewrite IH. cring. Qed.
Lemma Csum_power x h n : power x (Csum h n) = Csum (fun i => power x (h i)) n.
Proof. unfold Csum. induction (seq 0 n) as [|i l IH]; cbn [fold_right]; [cring|]. rewrite <- IH. cring. Qed.
Lemma Rsum_add g h n : Rsum (fun i => g i + h i) n = Rsum g n + Rsum h n.
Proof. unfold Rsum. induction (seq 0 n) as [|i l IH]; cbn [fold_right]; [ring|]. rewrite IH. ring. Qed.
Lemma Rsum_opp g n : Rsum (fun i => - g i) n = - Rsum g n.
Proof. unfold Rsum. induction (seq 0 n) as [|i l IH]; cbn [fold_right]; [ring|]. rewrite IH. ring. Qed.
Lemma Rsum_swap (g : nat -> nat -> R) n m : Rsum (fun i => Rsum (g i) m) n = Rsum (fun j => Rsum (fun i => g i j) n) m.
Proof.
  unfold Rsum at 1. rewrite <- (Rsum_0 m) || idtac. unfold Rsum. induction (seq 0 n) as [|i l IH]; cbn [fold_right].
  - induction (seq 0 m) as [|j k IH]; cbn; [reflexivity|]. rewrite <- IH. ring.
  - rewrite IH. clear IH. induction (seq 0 m) as [|j k IH]; cbn; [ring|]. rewrite <- IH. ring.
Qed.
Lemma Rsum_same g h n : (forall i, (i < n)%nat -> g i = h i) -> Rsum g n = Rsum h n.
Proof.
  unfold Rsum. intros H. assert (G : forall i, In i (seq 0 n) -> g i = h i) by (intros i Hi; apply in_seq in Hi; apply H; lia). revert G. induction (seq 0 n) as [|i l IH]; intros G; cbn; [reflexivity|].
  rewrite (G i (or_introl eq_refl)), IH; [reflexivity|]. intros j Hj. apply G. now right.
Qed.
(** *** what the elements take *)
Lemma absorbed_app V I J : absorbed V (I ++ J) = Cadd (absorbed V I) (absorbed V J).
Proof. induction I as [|p I IH]; cbn [absorbed fold_right app]; [now rewrite Cadd_0l|]. fold (absorbed V (I ++ J)) (absorbed V I). rewrite IH. cring. Qed.
Lemma absorbed_flat V (g : nat -> currents) l : absorbed V (flat_map g l) = fold_right (fun i acc => Cadd (absorbed V (g i)) acc) C0 l.
Proof. induction l as [|i l IH]; cbn [flat_map fold_right]; [reflexivity|]. now rewrite absorbed_app, IH. Qed.
Lemma takes_eq V e S S' : takes V e S -> S = S' -> takes V e S'.
Proof. now intros H <-. Qed.
Lemma sub_zero a b : Csub a b = C0 -> a = b.
Proof. destruct a as [a a'], b as [b b']. unfold Csub, C0. cbn. intros E. injection E as E1 E2. f_equal; lra. Qed.
Lemma re_im_zero c : Forall (fun x => x = 0) (re_im c) -> c = C0.
Proof. destruct c as [x y]. unfold re_im. cbn. intros H. inversion H as [|? ? H1 H2]; subst. inversion H2; subst. reflexivity. Qed.
Lemma fold_Csum (h : nat -> C) n : fold_right (fun i acc => Cadd (h i) acc) C0 (seq 0 n) = Csum h n.
Proof. reflexivity. Qed.
Lemma unb_absorbed V (g b B : nat -> nat -> R) n (f t : nat -> bref) :
  absorbed V (flat_map (fun i => [(f i, Cadd (Csum (fun j => Cmul (g i j, b i j) (across V (f j) (t j))) n) (Csum (fun j => Cmul (0, B i j / 2) (V (f j))) n));
                                   (t i, Csub (Csum (fun j => Cmul (0, B i j / 2) (V (t j))) n) (Csum (fun j => Cmul (g i j, b i j) (across V (f j) (t j))) n))]) (seq 0 n))
  = Cadd (Csum (fun i => Csum (fun j => power (Csub (V (f i)) (V (t i))) (Cmul (g i j, b i j) (Csub (V (f j)) (V (t j))))) n) n)
         (Cadd (Csum (fun i => Csum (fun j => power (V (f i)) (Cmul (0, B i j / 2) (V (f j)))) n) n)
               (Csum (fun i => Csum (fun j => power (V (t i)) (Cmul (0, B i j / 2) (V (t j)))) n) n)).
Proof.
  rewrite absorbed_flat, fold_Csum, <- !Csum_add. apply UnbalancedProofs.Csum_ext. intros i _. cbn [absorbed fold_right fst snd]. rewrite Cadd_0r, <- !Csum_power.
  unfold across. set (x := Csum _ n). set (y := Csum _ n). set (z := Csum _ n). cring.
Qed.
Lemma behaves_takes V e I m : behaves V e I m -> Forall (fun x => x = 0) m -> takes V e (absorbed V I).
Proof.
  intros B Z. inversion B; subst; clear B.
  - eapply takes_eq; [apply t_line|]. unfold across. cbn. cring.
  - eapply takes_eq; [apply t_unb|]. symmetry. apply unb_absorbed.
  - apply Forall_app in Z as [Z1 Z2]. apply re_im_zero, sub_zero in Z1, Z2. eapply takes_eq; [apply t_xf with (Vs := Vs); exact Z1|]. cbn [absorbed fold_right fst snd].
    subst J. unfold across in Z1. clearbody k.
    transitivity (power (Csub Vs (V tp)) (Cmul (xf_G x, xf_B x) (Csub Vs (V tp)))); [cring|].
    transitivity (Cadd (power (Csub (V fp) (V fn)) I0) (Cadd (Copp (power (V tp) (Cmul (xf_G x, xf_B x) (Csub Vs (V tp))))) (power (V tn) (Cmul (Cconj k) I0)))); [|cring].
    rewrite Z1, Z2. cring.
  - apply Forall_app in Z as [Z1 Z2]. apply re_im_zero, sub_zero in Z1. apply re_im_zero in Z2. eapply takes_eq; [apply t_ct|]. cbn [absorbed fold_right fst snd].
    assert (E : V s2 = Copp (Cscale k (V pri))) by (destruct (V s2) as [x y]; destruct (V pri) as [x' y']; unfold Cadd, Cscale, Copp, C0 in *; cbn in *; injection Z2 as Q1 Q2; f_equal; lra).
    subst J0 J1 J2. unfold across. rewrite Z1, E. cring.
  - apply t_slack.
  - apply re_im_zero, sub_zero in Z. eapply takes_eq; [apply t_switch|]. cbn [absorbed fold_right fst snd]. rewrite Z. cring.
  - apply t_switch.
  - eapply takes_eq; [apply (t_gen V g Q)|]. cbn [absorbed fold_right fst snd]. rewrite <- H0. cring.
  - eapply takes_eq; [apply (t_load V l f t (power (across V f t) Iz))|].
    + destruct H0 as [[Q ->]|[Q E]]; [left|right]; (split; [exact Q|]); [cring|]. unfold power, sq. rewrite <- E. cring.
    + cbn [absorbed fold_right fst snd]. assert (E : power (across V f t) Ip = (ld_P l, ld_Q l)) by (destruct H as [[Q ->]|[_ Q]]; [rewrite Q; cring|exact Q]). rewrite <- E. subst I0. unfold across. cring.
  - apply re_im_zero, sub_zero in Z. eapply takes_eq; [apply (t_vs V vr vi f t I0)|]. cbn [absorbed fold_right fst snd]. rewrite Z. unfold across. cring.
  - eapply takes_eq; [apply t_shunt|]. cbn [absorbed fold_right fst snd]. cring.
  - apply Forall_app in Z as [Z1 Z2]. apply Forall_app in Z2 as [Z2 Z3]. apply re_im_zero, sub_zero in Z1, Z2, Z3. eapply takes_eq; [apply t_reg with (Vs := Vs); exact Z1|]. cbn [absorbed fold_right fst snd].
    transitivity (Csub (power Vs (Cscale ratio I0)) (power (V cur) J)); [|rewrite Z1, Z3; cring]. rewrite <- Z2. subst J. cring.
  - apply re_im_zero, sub_zero in Z. eapply takes_eq; [apply t_fuse|]. cbn [absorbed fold_right fst snd]. subst J. unfold across. rewrite Z. cring.
  - eapply takes_eq; [apply t_cap|]. cbn [absorbed fold_right fst snd]. subst I0. unfold across. cring.
  - apply t_cap_open.
Qed.
