(** Specification side of C152: where the power goes in a circuit. *)
From Coq Require Import Reals List Bool Arith.
From Verif Require Import SpecSystem Components SpecComponents SpecUnbalanced Network SpecNetwork SpecKirchhoff SpecNetLeast.
Import ListNotations.
Local Open Scope R_scope.

(** complex power that flows from the buses into an element with these currents, and into all elements of an account *)
Definition absorbed (V : bref -> C) (I : currents) : C := fold_right (fun p acc => Cadd (power (V (fst p)) (snd p)) acc) C0 I.
Definition total (V : bref -> C) (ac : account) : C := fold_right (fun x acc => Cadd (absorbed V (snd (fst x))) acc) C0 ac.
Definition only (p : elem -> bool) (ac : account) : account := filter (fun x => p (fst (fst x))) ac.
(** what can feed power in, what is there to use it, and what only transports it *)
Definition is_source (e : elem) : bool := match e with ESlack _ | EGen _ | EVs _ _ _ _ => true | _ => false end.
Definition is_demand (e : elem) : bool := match e with ELoad _ _ _ => true | _ => false end.
Definition is_carrier (e : elem) : bool := negb (is_source e) && negb (is_demand e).
Definition supplied (V : bref -> C) (ac : account) : C := Copp (total V (only is_source ac)).
Definition delivered (V : bref -> C) (ac : account) : C := total V (only is_demand ac).
Definition lost (V : bref -> C) (ac : account) : C := total V (only is_carrier ac).

Section Takes.
Variable V : bref -> C.
Definition sq (c : C) : R := Cnorm2 c.
(** [takes e S]: element [e] takes the power [S]; admittance Y at voltage d takes |d|^2 conj(Y) *)
Definition over (Y d : C) : C := Cscale (sq d) (Cconj Y).
Inductive takes : elem -> C -> Prop :=
| t_line l f t : takes (ELine l f t) (Cadd (over (ln_G l, ln_B l) (across V f t)) (Cadd (over (0, ln_Bsh l) (V f)) (over (0, ln_Bsh l) (V t))))
| t_unb ph g b B : let n := length ph in let f i := V (fst (nth i ph (None, None))) in let t i := V (snd (nth i ph (None, None))) in
    let form (Y : nat -> nat -> C) (x : nat -> C) := Csum (fun i => Csum (fun j => power (x i) (Cmul (Y i j) (x j))) n) n in
    takes (EUnb ph g b B) (Cadd (form (fun i j => (g i j, b i j)) (fun i => Csub (f i) (t i)))
                                (Cadd (form (fun i j => (0, B i j / 2)) f) (form (fun i j => (0, B i j / 2)) t)))
| t_xf x fp fn tp tn Vs : across V fp fn = Cmul (Cpolar (xf_tr x) (xf_ang x)) (Csub Vs (V tn)) -> takes (EXf x fp fn tp tn) (over (xf_G x, xf_B x) (Csub Vs (V tp)))
| t_ct c from pri s1 t1 s2 t2 :
    takes (ECt c from pri s1 t1 s2 t2) (Cadd (over (ct_g0 c, ct_b0 c) (across V from pri)) (Cadd (over (ct_g1 c, ct_b1 c) (across V s1 t1)) (over (ct_g2 c, ct_b2 c) (across V s2 t2))))
| t_slack s S : takes (ESlack s) S
| t_switch c f t : takes (ESwitch c f t) C0
| t_gen g Q : takes (EGen g) (Copp (gen_P g, Q))
| t_load l f t Sz : ((ld_Zr l, ld_Zi l) = C0 /\ Sz = C0 \/ (ld_Zr l, ld_Zi l) <> C0 /\ Cmul (Cconj (ld_Zr l, ld_Zi l)) Sz = (sq (across V f t), 0)) ->
    takes (ELoad l f t) (Cadd (ld_P l, ld_Q l) (Cadd (power (across V f t) (ld_IP l, ld_IQ l)) Sz))
| t_vs vr vi f t I : takes (EVs vr vi f t) (power (vr, vi) I)
| t_shunt G B b : takes (EShunt G B b) (over (G / 100, B / 100) (V b))
| t_reg ratio f t cur Vs : V f = Cscale ratio Vs -> takes (EReg ratio f t cur) (over (10000, 0) (Csub Vs (V cur)))
| t_fuse f t m : takes (EFuse f t m) (over (10000, 10000) (across V f m))
| t_cap B f t : takes (ECap B true f t) (over (0, B) (across V f t))
| t_cap_open B f t : takes (ECap B false f t) C0.
End Takes.

(** no negative resistance *)
Definition nonnegative (n : nat) (g : nat -> nat -> R) : Prop := forall x : nat -> R, 0 <= Rsum (fun i => Rsum (fun j => g i j * (x i * x j)) n) n.
Definition passive (e : elem) : Prop :=
  match e with
  | ELine l _ _ => 0 <= ln_G l
  | EUnb ph g b B => nonnegative (length ph) g /\ symmetric (length ph) b /\ symmetric (length ph) B
  | EXf x _ _ _ _ => 0 <= xf_G x
  | ECt c _ _ _ _ _ _ => 0 <= ct_g0 c /\ 0 <= ct_g1 c /\ 0 <= ct_g2 c
  | EShunt G _ _ => 0 <= G
  | _ => True
  end.
(** sum over the buses of what the currents that are left over would feed in *)
Definition at_buses (nw : network) (V : bref -> C) (J : nat -> bus -> C) : C :=
  fold_right (fun x acc => Cadd (power (V (Some (bus_id (snd x)))) (J (fst x) (snd x))) acc) C0 (combine (seq 0 (length (nw_buses nw))) (nw_buses nw)).
Definition one_norm (c : C) : R := Rabs (fst c) + Rabs (snd c).
Definition all_voltages (nw : network) (V : bref -> C) : R := fold_right (fun b acc => one_norm (V (Some (bus_id b))) + acc) 0 (nw_buses nw).
(** what the loads and the generators are described with; loads with nothing but constant power *)
Definition demand (e : elem) : C := match e with ELoad l _ _ => (ld_P l, ld_Q l) | _ => C0 end.
Definition generation (e : elem) : R := match e with EGen g => gen_P g | _ => 0 end.
Definition described (nw : network) : C := fold_right (fun e acc => Cadd (demand e) acc) C0 (elements nw).
Definition generated (nw : network) : R := fold_right (fun e acc => generation e + acc) 0 (elements nw).
Definition constant_power (nw : network) : Prop := forall l f t, In (ELoad l f t) (elements nw) -> (ld_IP l, ld_IQ l) = C0 /\ (ld_Zr l, ld_Zi l) = C0.
(** sources that hold a voltage with any power *)
Definition is_feed (e : elem) : bool := match e with ESlack _ | EVs _ _ _ _ => true | _ => false end.
Definition fed (V : bref -> C) (ac : account) : C := Copp (total V (only is_feed ac)).
