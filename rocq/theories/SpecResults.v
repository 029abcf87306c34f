(** Specification side of C49-C51, C54, C66. *)
From Coq Require Import List Bool Arith Reals.
From Verif Require Import Components SpecComponents Results.
Import ListNotations.
Local Open Scope R_scope.

(** the complex power a load draws at voltage V (from its terminals), by C30 at homotopy factor 0 *)
Definition draws (l : load) (V S : C) : Prop := exists Ipq Iz,
  power V Ipq = (ld_P l, ld_Q l) /\ ((ld_Zr l, ld_Zi l) <> C0 -> Cmul (ld_Zr l, ld_Zi l) Iz = V) /\ ((ld_Zr l, ld_Zi l) = C0 -> Iz = C0) /\
  S = power V (Cadd Ipq (Cadd (ld_IP l, ld_IQ l) Iz)).
(** the load without its constant power part *)
Definition rest_of (l : load) : load := {| ld_P := 0; ld_Q := 0; ld_Zr := ld_Zr l; ld_Zi := ld_Zi l; ld_IP := ld_IP l; ld_IQ := ld_IQ l |}.

Definition at2 (v : nat -> R) (i : nat * nat) : C := (v (fst i), v (snd i)).
(** infeasibility current and the voltage of its bus *)
Definition inf_current (v : nat -> R) (i : rinf) : C := match i with RL2 _ c => at2 v c | RL1 _ p m => Csub (at2 v p) (at2 v m) end.
Definition inf_voltage (v : nat -> R) (i : rinf) : C := match i with RL2 b _ => at2 v b | RL1 b _ _ => at2 v b end.
(** both componentwise products are below the cut *)
Definition unseen (v : nat -> R) (i : rinf) : Prop :=
  fst (inf_voltage v i) * fst (inf_current v i) < 1 / 100000 /\ snd (inf_voltage v i) * snd (inf_current v i) < 1 / 100000.
Definition Cmod (z : C) : R := sqrt (Cnorm2 z).
Definition val2 (v : nat -> R) (i : option nat * option nat) : C := (val v (fst i), val v (snd i)).
(** complex power entering the primary winding *)
Definition xf_true (v : nat -> R) (x : rxf) : C := power (Csub (val2 v (rx_pp x)) (val2 v (rx_pn x))) (val2 v (rx_I x)).
Definition real (z : C) : Prop := snd z = 0.

(** over a rating, in terms of the numbers shown *)
Definition line_bad (v : nat -> R) (q : requip) : Prop := exists l i f t a,
  In l (rq_lines q) /\ nth_error (rl_ends l) i = Some (f, t) /\ nth_error (rl_amp l) i = Some (Some a) /\
  a < Cmod (Cmul (rl_Y l i i) (Csub (at2 v f) (at2 v t))).
Definition xf_bad (v : nat -> R) (q : requip) : Prop :=
  (exists x r, In (TXf x, Some r) (rq_xfmrs q) /\
     let V := Csub (val2 v (rx_pp x)) (val2 v (rx_pn x)) in let I := val2 v (rx_I x) in r < Cmod (fst V * fst I, snd V * snd I)) \/
  (exists c r, In (TCt c, Some r) (rq_xfmrs q) /\
     r < Cmod (Cadd (power (at2 v (rc_V1 c)) (at2 v (rc_I1 c))) (power (at2 v (rc_V2 c)) (at2 v (rc_I2 c))))).
Definition bus_bad (v : nat -> R) (q : requip) : Prop := exists i vn, In (i, vn) (rq_buses q) /\ 5 / 100 <= Rabs (Cmod (at2 v i) - vn) / vn.
(** phase voltages of a line *)
Definition end_volt (v : nat -> R) (sel : (nat * nat) * (nat * nat) -> nat * nat) (l : rline) (j : nat) : C := at2 v (sel (nth j (rl_ends l) ((0, 0), (0, 0))%nat)).
(** sum over all loads *)
Definition total (g : load -> R) (ls : list load) : R := fold_right (fun l acc => g l + acc) 0 ls.
