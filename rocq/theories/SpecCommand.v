(** Specification side of C151: what the command line does with a file. *)
From Coq Require Import Reals ZArith String List Bool Arith.
From Verif Require Import SpecSystem Components SpecComponents Network Devices PowerFlow ThreePhase RawParser Loader Command.
From Verif Require TimeSeries.
Import ListNotations.
Local Open Scope R_scope.

(** [scaled f nw nw']: the loads of [nw'] take [f] times the constant power of those of [nw]; all else is the same *)
Inductive scaled_load (f : R) : elem -> elem -> Prop :=
| a_load l l' b t : (ld_P l', ld_Q l') = Cscale f (ld_P l, ld_Q l) -> ld_Zr l' = ld_Zr l -> ld_Zi l' = ld_Zi l -> ld_IP l' = ld_IP l -> ld_IQ l' = ld_IQ l ->
    scaled_load f (ELoad l b t) (ELoad l' b t).
Definition scaled (f : R) (nw nw' : Network.network) : Prop :=
  Forall2 (scaled_load f) (nw_loads nw) (nw_loads nw') /\
  nw_three_phase nw' = nw_three_phase nw /\ nw_buses nw' = nw_buses nw /\ nw_lines nw' = nw_lines nw /\ nw_transformers nw' = nw_transformers nw /\
  nw_slack nw' = nw_slack nw /\ nw_switches nw' = nw_switches nw /\ nw_generators nw' = nw_generators nw /\ nw_misc nw' = nw_misc nw /\
  nw_sources nw' = nw_sources nw /\ nw_shunts nw' = nw_shunts nw /\ nw_regulators nw' = nw_regulators nw /\ nw_fuses nw' = nw_fuses nw /\
  nw_capacitors nw' = nw_capacitors nw /\ nw_optimization nw' = nw_optimization nw.

(** --load_factor, which is -1 if it is not given *)
Definition asks_factor (o : options) (f : R) : Prop := op_factor o = Some f \/ op_factor o = None /\ f = -1.
Definition asks_analysis (o : options) (opt : option bool) : Prop := op_infeasibility o = true /\ opt = Some false \/ op_infeasibility o = false /\ opt = None.
(** neither a load file nor an artificial swing bus, or a load file that is missing, or a positive sequence case *)
Definition no_series (o : options) (r : Loader.network) : Prop :=
  TimeSeries.ta_file (op_series o) = TimeSeries.NoFile /\ op_swing o = None \/ TimeSeries.ta_file (op_series o) = TimeSeries.Missing \/ exists n, r = Single n.
(** the command reports one result *)
Definition reports {So} (c : PyExc.pres (TimeSeries.outcome (TimeSeries.report (@pf_result So)))) (res : @pf_result So) : Prop :=
  exists st, c = PyExc.Ok (TimeSeries.Done st (TimeSeries.Single res)).

(** the file has no generators, no center tapped transformer with ratio 0, and no constant power is left after scaling *)
Definition linear_file (f : R) (r : Loader.network) : Prop :=
  match r with
  | Three n => (forall ph from pri s1 t1 s2 t2 c g b, In (TCT ph from pri s1 t1 s2 t2 c g b) (nt_xfmrs n) -> ct_ratio c <> 0) /\
               (f = 0 \/ forall l, In l (nt_loads n) -> (tl_p l, tl_q l) = C0)
  | Single o => n_gens o = [] /\ (f = 0 \/ forall l, In l (n_loads o) -> (ld_P (snd l), ld_Q (snd l)) = C0)
  end.
Definition no_devices (r : Loader.network) : Prop := match r with Three n => nt_fuses n = [] /\ nt_caps n = [] | Single _ => True end.
