(** Model of src/logic/powerflowresults.py, src/logic/network/loadfactor.py, the rating check
    src/logic/network/timeseriesprocessor.py:178-206 and the load factor of src/run_solver.py:30,46,66.

    Simplifications: printing and files are left out except for the numbers shown; exact reals; objects are represented by the
    indexes of their unknowns; a raised exception is [None]. *)
From Coq Require Import List Bool Arith Reals.
From Verif Require Import Components.
Import ListNotations.
Local Open Scope R_scope.

(** loadfactor.py:3-5 *)
Definition scale_load (fP fQ : R) (l : load) : load :=
  {| ld_P := ld_P l * fP; ld_Q := ld_Q l * fQ; ld_Zr := ld_Zr l; ld_Zi := ld_Zi l; ld_IP := ld_IP l; ld_IQ := ld_IQ l |}.
Definition modify_load_factor (fP fQ : R) (ls : list load) : list load := map (scale_load fP fQ) ls.
(** run_solver.py:30, 46, 66: the value of --load_factor, if given *)
Definition cli_loads (load_factor : option R) (ls : list load) : list load :=
  let f := match load_factor with Some f => f | None => -1 end in modify_load_factor f f ls.

(** *** results; a bus is the pair of its voltage indexes *)
Inductive gentype := PV | Slack | Inf.
Record gen_result := { gr_P : R; gr_Q : R; gr_type : gentype }.
Record rgen := { rg_P : R; rg_Q : nat (* get_Q_index *) }.
Record rslack := { rs_bus : nat * nat; rs_I : nat * nat (* get_slack_Ir_index, get_slack_Ii_index *) }.
Inductive rinf :=
| RL2 (bus current : nat * nat)
| RL1 (bus plus minus : nat * nat).
(** [rn_inf] is the list of currents if the optimization is one of the two infeasibility optimizations *)
Record rnetwork := { rn_gens : list rgen; rn_slacks : list rslack; rn_inf : option (list rinf) }.

Section Values.
Variable v : nat -> R.
(** lines 138-142 *)
Definition gen_res (g : rgen) : gen_result := {| gr_P := rg_P g; gr_Q := v (rg_Q g); gr_type := PV |}.
(** 150-157 *)
Definition slack_res (s : rslack) : gen_result :=
  {| gr_P := v (fst (rs_bus s)) * v (fst (rs_I s)); gr_Q := v (snd (rs_bus s)) * v (snd (rs_I s)); gr_type := Slack |}.
(** 172-186 *)
Definition clamp (x : R) : R := if Rlt_dec x (1 / 100000) then 0 else x.
Definition inf_res (i : rinf) : gen_result :=
  match i with
  | RL2 b c => {| gr_P := clamp (v (fst b) * v (fst c)); gr_Q := clamp (v (snd b) * v (snd c)); gr_type := Inf |}
  | RL1 b p m => {| gr_P := clamp (v (fst b) * (v (fst p) - v (fst m))); gr_Q := clamp (v (snd b) * (v (snd p) - v (snd m))); gr_type := Inf |}
  end.
(** PowerFlowResults.generator_results *)
Definition generator_results (n : rnetwork) : list gen_result :=
  map gen_res (rn_gens n) ++ map slack_res (rn_slacks n) ++ match rn_inf n with Some l => map inf_res l | None => [] end.
(** infeasibility_totals, 163-191 *)
Definition infeasibility_totals (n : rnetwork) : option (R * R) :=
  match rn_inf n with
  | None => None
  | Some l => Some (fold_left (fun t i => (fst t + gr_P (inf_res i), snd t + gr_Q (inf_res i))) l (0, 0))
  end.
(** report_infeasible, 238-249 *)
Definition small (x : R) : bool := if Rlt_dec (Rabs x) (1 / 100000) then true else false.
Definition report_infeasible (n : rnetwork) : list gen_result :=
  filter (fun g => match gr_type g with Inf => true | _ => false end)
    (filter (fun g => negb (small (gr_P g) && small (gr_Q g))) (generator_results n)).
(** the totals shown by display, 209-213 *)
Definition displayed_totals (n : rnetwork) : R * R :=
  (fold_left Rplus (map gr_P (report_infeasible n)) 0, fold_left Rplus (map gr_Q (report_infeasible n)) 0).

(** *** elements; [val] reads an unknown, 0 for ground (line 311) *)
Definition val (o : option nat) : R := match o with Some n => v n | None => 0 end.
(** TransformerResult, 307-319: primal indexes in the order of the segment *)
Record rxf := { rx_pp : option nat * option nat; rx_pn : option nat * option nat; rx_I : option nat * option nat }.
Definition xf_P (x : rxf) : R := (val (fst (rx_pp x)) - val (fst (rx_pn x))) * val (fst (rx_I x)).
Definition xf_Q (x : rxf) : R := (val (snd (rx_pp x)) - val (snd (rx_pn x))) * val (snd (rx_I x)).
(** CenterTapTransformerResult, 327-338 *)
Record rct := { rc_I1 : nat * nat; rc_V1 : nat * nat; rc_I2 : nat * nat; rc_V2 : nat * nat }.
Definition rct_P (c : rct) : R :=
  v (fst (rc_V1 c)) * v (fst (rc_I1 c)) + v (snd (rc_V1 c)) * v (snd (rc_I1 c)) +
  v (fst (rc_V2 c)) * v (fst (rc_I2 c)) + v (snd (rc_V2 c)) * v (snd (rc_I2 c)).
Definition rct_Q (c : rct) : R :=
  - v (fst (rc_V1 c)) * v (snd (rc_I1 c)) + v (snd (rc_V1 c)) * v (fst (rc_I1 c)) -
  v (fst (rc_V2 c)) * v (snd (rc_I2 c)) + v (snd (rc_V2 c)) * v (fst (rc_I2 c)).
(** LineResult, 348-360, with the diagonal entry of the admittance matrix (unbalanced_line.py:225-230) *)
Definition line_I (f t : nat * nat) (g b : R) : R * R :=
  ((v (fst f) - v (fst t)) * g - (v (snd f) - v (snd t)) * b, (v (fst f) - v (fst t)) * b + (v (snd f) - v (snd t)) * g).

(** *** timeseriesprocessor.py:178-206 *)
Record rline := { rl_ends : list ((nat * nat) * (nat * nat)); rl_Y : nat -> nat -> R * R; rl_amp : list (option R) }.
Inductive rtrans := TXf (x : rxf) | TCt (c : rct).
Record requip := { rq_lines : list rline; rq_xfmrs : list (rtrans * option R (* power_rating *)); rq_buses : list ((nat * nat) * R (* V_Nominal *)) }.
Definition modulus (z : R * R) : R := sqrt (fst z * fst z + snd z * snd z).
Definition above (x : R) (limit : option R) : bool := match limit with Some l => if Rlt_dec l x then true else false | None => false end.
(** lines 181-187; None: fewer ampacities than phases *)
Fixpoint line_over (l : rline) (idx : nat) (ends : list ((nat * nat) * (nat * nat))) : option bool :=
  match ends with
  | [] => Some false
  | (f, t) :: ends =>
      match nth_error (rl_amp l) idx with
      | None => None
      | Some amp => option_map (orb (above (modulus (line_I f t (fst (rl_Y l idx idx)) (snd (rl_Y l idx idx)))) amp)) (line_over l (S idx) ends)
      end
  end.
Definition xf_power (t : rtrans) : R * R := match t with TXf x => (xf_P x, xf_Q x) | TCt c => (rct_P c, rct_Q c) end.
(** 200-203 *)
Definition bus_over (b : (nat * nat) * R) : option bool :=
  let (i, vnom) := b in
  if Req_EM_T vnom 0 then None
  else Some (if Rle_dec (5 / 100) (Rabs (modulus (v (fst i), v (snd i)) - vnom) / vnom) then true else false).
Definition any {A} (f : A -> option bool) (l : list A) : option bool :=
  fold_right (fun x acc => match f x, acc with Some a, Some b => Some (a || b) | _, _ => None end) (Some false) l.
Definition violates (q : requip) : option bool :=
  match any (fun l => line_over l 0 (rl_ends l)) (rq_lines q), any bus_over (rq_buses q) with
  | Some a, Some c => Some (a || existsb (fun x => above (modulus (xf_power (fst x))) (snd x)) (rq_xfmrs q) || c)
  | _, _ => None
  end.
End Values.
