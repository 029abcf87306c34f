(** Specification side of C142 and C143: the circuit laws of a network, independent of rows and indexes. *)
From Coq Require Import Reals List Bool Arith.
From Verif Require Import SpecSystem Components SpecComponents SpecUnbalanced Network SpecNetwork.
Import ListNotations.
Local Open Scope R_scope.

(** currents an element draws out of the buses it is connected to *)
Definition currents := list (bref * C).
Definition re_im (c : C) : list R := [fst c; snd c].

Section Laws.
(** complex voltages of the buses *)
Variable V : bref -> C.
Definition across (f t : bref) : C := Csub (V f) (V t).

(** [behaves e I m]: element [e] may draw the currents [I] if its voltage and current laws are missed by [m] (an empty list where
    the element has no law of its own; all zeros where the laws hold exactly) *)
Inductive behaves : elem -> currents -> list R -> Prop :=
(** pi model: series admittance and half of the charging at both ends *)
| is_line l f t I : I = Cmul (ln_G l, ln_B l) (across f t) ->
    behaves (ELine l f t) [(f, Cadd I (Cmul (0, ln_Bsh l) (V f))); (t, Csub (Cmul (0, ln_Bsh l) (V t)) I)] []
(** the same with admittance matrices *)
| is_unb ph g b B : let n := length ph in let f i := fst (nth i ph (None, None)) in let t i := snd (nth i ph (None, None)) in
    let I i := Csum (fun j => Cmul (g i j, b i j) (across (f j) (t j))) n in
    let charging e i := Csum (fun j => Cmul (0, B i j / 2) (V (e j))) n in
    behaves (EUnb ph g b B)
      (flat_map (fun i => [(f i, Cadd (I i) (charging f i)); (t i, Csub (charging t i) (I i))]) (seq 0 n)) []
(** ideal transformer with ratio k from the primary to an inner node at voltage Vs, then the winding admittance *)
| is_xf x fp fn tp tn I Vs : let k := Cpolar (xf_tr x) (xf_ang x) in let J := Cmul (xf_G x, xf_B x) (Csub Vs (V tp)) in
    behaves (EXf x fp fn tp tn) [(fp, I); (fn, Copp I); (tp, Copp J); (tn, Cmul (Cconj k) I)]
      (re_im (Csub (across fp fn) (Cmul k (Csub Vs (V tn)))) ++ re_im (Csub J (Cmul (Cconj k) I)))
(** three windings in series with an ideal center tapped transformer *)
| is_ct c from pri s1 t1 s2 t2 I1 I2 : let k := / ct_ratio c in
    let J0 := Cmul (ct_g0 c, ct_b0 c) (across from pri) in
    let J1 := Cmul (ct_g1 c, ct_b1 c) (across s1 t1) in let J2 := Cmul (ct_g2 c, ct_b2 c) (across s2 t2) in
    behaves (ECt c from pri s1 t1 s2 t2)
      [(from, J0); (pri, Csub (Cscale k (Csub I2 I1)) J0); (s1, Cadd I1 J1); (t1, Copp J1); (s2, Cadd I2 J2); (t2, Copp J2)]
      (re_im (Csub (V s1) (Cscale k (V pri))) ++ re_im (Cadd (V s2) (Cscale k (V pri))))
(** a slack holds its voltage with any current *)
| is_slack s I : behaves (ESlack s) [(sl_bus s, I)] (re_im (Csub (V (sl_bus s)) (Cpolar (sl_V s) (sl_ang s))))
| is_closed f t I : behaves (ESwitch true f t) [(f, I); (t, Copp I)] (re_im (across t f))
| is_open f t : behaves (ESwitch false f t) [] []
(** a generator injects its active power with any reactive power and holds the magnitude of its voltage *)
| is_gen g I Q : V (gen_bus g) <> C0 -> power (V (gen_bus g)) I = (gen_P g, Q) ->
    behaves (EGen g) [(gen_bus g, Copp I)] [gen_Vset g * gen_Vset g - Cnorm2 (V (gen_bus g))]
(** constant power, constant current and constant impedance in parallel *)
| is_load l f t Ip Iz :
    ((ld_P l, ld_Q l) = C0 /\ Ip = C0 \/ across f t <> C0 /\ power (across f t) Ip = (ld_P l, ld_Q l)) ->
    ((ld_Zr l, ld_Zi l) = C0 /\ Iz = C0 \/ (ld_Zr l, ld_Zi l) <> C0 /\ Cmul (ld_Zr l, ld_Zi l) Iz = across f t) ->
    let I := Cadd Ip (Cadd (ld_IP l, ld_IQ l) Iz) in
    behaves (ELoad l f t) [(f, I); (t, Copp I)] []
| is_vs vr vi f t I : behaves (EVs vr vi f t) [(f, I); (t, Copp I)] (re_im (Csub (vr, vi) (across f t)))
| is_shunt G B b : behaves (EShunt G B b) [(b, Cmul (G / 100, B / 100) (V b))] []
(** real ratio, inner node at voltage Vs, 1e-4 of resistance, current sensor at the current node *)
| is_reg ratio f t cur I Vs M : let J := Cscale 10000 (Csub Vs (V cur)) in
    behaves (EReg ratio f t cur) [(f, I); (cur, Csub M J); (t, Copp M)]
      (re_im (Csub (V f) (Cscale ratio Vs)) ++ re_im (Csub J (Cscale ratio I)) ++ re_im (across t cur))
| is_fuse f t m I : let J := Cmul (10000, 10000) (across f m) in
    behaves (EFuse f t m) [(f, J); (m, Csub I J); (t, Copp I)] (re_im (across t m))
| is_cap B f t : let I := Cmul (0, B) (across f t) in behaves (ECap B true f t) [(f, I); (t, Copp I)] []
| is_cap_open B f t : behaves (ECap B false f t) [] [].
End Laws.

(** one entry per element: the element, its currents and by how much its laws are missed *)
Definition account := list (elem * currents * list R).
Definition accounts_for (V : bref -> C) (nw : network) (ac : account) : Prop :=
  map (fun x => fst (fst x)) ac = elements nw /\ Forall (fun x => behaves V (fst (fst x)) (snd (fst x)) (snd x)) ac.
(** current drawn from bus [k] by all elements together *)
Definition drawn (k : nat) (I : currents) : C :=
  fold_right (fun p acc => match fst p with Some j => if Nat.eqb j k then Cadd (snd p) acc else acc | None => acc end) C0 I.
Definition net_current (k : nat) (ac : account) : C := drawn k (flat_map (fun x => snd (fst x)) ac).
Definition misses (ac : account) : list R := flat_map snd ac.

(** voltages [V] are possible in the network: all laws of elements hold and at every bus the currents cancel *)
Definition physical (nw : network) (V : bref -> C) : Prop :=
  V None = C0 /\ exists ac, accounts_for V nw ac /\ Forall (fun x => x = 0) (misses ac) /\
  forall b, In b (nw_buses nw) -> net_current (bus_id b) ac = C0.
(** the same up to a tolerance in every real equation *)
Definition nearly_physical (eps : R) (nw : network) (V : bref -> C) : Prop :=
  V None = C0 /\ exists ac, accounts_for V nw ac /\ Forall (fun x => Rabs x < eps) (misses ac) /\
  forall b, In b (nw_buses nw) -> Rabs (fst (net_current (bus_id b) ac)) < eps /\ Rabs (snd (net_current (bus_id b) ac)) < eps.

(** no constant power load and no generator sits at voltage 0 *)
Definition energised (nw : network) (V : bref -> C) : Prop :=
  (forall l f t, In (ELoad l f t) (elements nw) -> (ld_P l, ld_Q l) <> C0 -> across V f t <> C0) /\
  (forall g, In (EGen g) (elements nw) -> V (gen_bus g) <> C0).

(** the voltages and the equations of the assembled system *)
Definition voltages (a : assigned) (v : nat -> R) (b : bref) : C := volt v (at_ref (as_table a) b).
Definition equations (a : assigned) : list element := flat_map present (all_stampers a).
(** an account gives all rows of the system *)
Definition gives_rows (nw : network) (a : assigned) (ac : account) (v : nat -> R) : Prop :=
  let n := length (nw_buses nw) in
  (forall k b, nth_error (nw_buses nw) k = Some b ->
     (F (equations a) v 0 (2 * k), F (equations a) v 0 (2 * k + 1)) = net_current (bus_id b) ac) /\
  (forall j x, nth_error (misses ac) j = Some x -> F (equations a) v 0 (2 * n + j) = x) /\
  as_size a = (2 * n + length (misses ac))%nat.
