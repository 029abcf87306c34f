(** Specification side of C157: a result in the terms of the file. *)
From Coq Require Import String Reals ZArith List Bool Arith.
From Verif Require Import Components SpecComponents Devices Network SpecKirchhoff SpecPowerFlow ThreePhase RawTransformers RawParser SpecParts.
Import ListNotations.
Local Open Scope R_scope.

(** *** three phases *)
(** the same load with [f] times the constant power *)
Definition load_times (f : R) (l l' : tload) : Prop :=
  (tl_p l', tl_q l') = Cscale f (tl_p l, tl_q l) /\ tl_from l' = tl_from l /\ tl_to l' = tl_to l /\ tl_z l' = tl_z l /\ tl_ip l' = tl_ip l /\ tl_iq l' = tl_iq l.
(** the same capacitor, its switch in any position *)
Definition cap_again (c c' : tcap) : Prop := tc_bus c' = tc_bus c /\ tc_B c' = tc_B c /\ tc_mode c' = tc_mode c /\ tc_high c' = tc_high c /\ tc_low c' = tc_low c.
Definition net_again (f : R) (n n' : net) : Prop :=
  Forall2 (load_times f) (nt_loads n) (nt_loads n') /\ Forall2 cap_again (nt_caps n) (nt_caps n') /\
  nt_buses n' = nt_buses n /\ nt_map n' = nt_map n /\ nt_slack n' = nt_slack n /\ nt_xfmrs n' = nt_xfmrs n /\ nt_regs n' = nt_regs n /\
  nt_fuses n' = nt_fuses n /\ nt_switches n' = nt_switches n /\ nt_lines n' = nt_lines n.
(** the k-th bus of the file has its voltage at 2k and 2k+1 of the vector *)
Definition reads (n : net) (v : nat -> R) (V : bref -> C) : Prop :=
  V None = C0 /\ forall k b, nth_error (nt_buses n) k = Some b -> V (Some (tb_id b)) = (v (2 * k), v (2 * k + 1))%nat.
(** no constant power load sits at voltage 0 *)
Definition lit (n : net) (V : bref -> C) : Prop := forall l, In l (nt_loads n) -> (tl_p l, tl_q l) <> C0 -> Csub (V (tl_from l)) (V (tl_to l)) <> C0.
(** where the control leaves a capacitor: in the circuit above its band and out of it below, and never in a mode that is not implemented *)
Definition cap_left (V : bref -> C) (c : tcap) : Prop :=
  match tc_mode c with
  | C_MANUAL => True
  | C_VOLT => forall high low, tc_high c = Some high -> tc_low c = Some low ->
      (high < Cabs (V (Some (tc_bus c))) -> tc_switch c = CLOSED) /\ (Cabs (V (Some (tc_bus c))) < low -> tc_switch c = OPEN)
  | _ => False
  end.
(** the laws of all parts can hold with currents in the fuses within their limits *)
Definition held (n : net) (V : bref -> C) : Prop := exists ac : list (part * currents * list R),
  map (fun x => fst (fst x)) ac = parts n /\ Forall (fun x => lawful n V (fst (fst x)) (snd (fst x)) (snd x)) ac /\
  forall f I m, In (PFuse f, I, m) ac -> exists i, In (Some (tf_to f), Copp i) I /\ Cabs i <= tf_limit f.

(** *** RAW *)
Definition onet_again (f : R) (o o' : onet) : Prop :=
  Forall2 (fun x y => fst y = fst x /\ (ld_P (snd y), ld_Q (snd y)) = Cscale f (ld_P (snd x), ld_Q (snd x)) /\ ld_Zr (snd y) = ld_Zr (snd x) /\ ld_Zi (snd y) = ld_Zi (snd x) /\
                      ld_IP (snd y) = ld_IP (snd x) /\ ld_IQ (snd y) = ld_IQ (snd x)) (n_loads o) (n_loads o') /\
  n_buses o' = n_buses o /\ n_slack o' = n_slack o /\ n_gens o' = n_gens o /\ n_shunts o' = n_shunts o /\ n_lines o' = n_lines o /\ n_xfmrs o' = n_xfmrs o.
Definition reads_raw (o : onet) (v : nat -> R) (U : Z -> C) : Prop := forall k b, nth_error (n_buses o) k = Some b -> U (RawParser.ob_num b) = (v (2 * k), v (2 * k + 1))%nat.
