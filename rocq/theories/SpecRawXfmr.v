(** What a transformer record of a RAW file says about the physical transformer: winding voltages in kV
    and the series impedance in ohms seen from the second winding. *)
From Coq Require Import Reals ZArith List.
From Verif Require Import Components RawTransformers.
Local Open Scope R_scope.

(** the nominal winding voltage: the record's own, or the base voltage of the bus when not given *)
Definition nominal (nomv base nom : R) : Prop := (0 < nomv -> nom = nomv) /\ (nomv <= 0 -> nom = base).
(** code 2: kV; code 3: per unit of the nominal winding voltage; otherwise per unit of the bus base voltage *)
Definition winding_kv (cw : Z) (windv nom base kv : R) : Prop :=
  (cw = 2%Z -> kv = windv) /\ (cw = 3%Z -> kv = windv * nom) /\ (cw <> 2%Z -> cw <> 3%Z -> kv = windv * base).
(** code 1: per unit on the system base; code 2: per unit on the winding base; code 3: load loss in
    watts at the rated current (kA) and magnitude in per unit on the winding base *)
Definition ohms (cz : Z) (z : zpair) (U sbase R X : R) : Prop :=
  (cz = 1%Z /\ R = z_r z * (U * U / sbase) /\ X = z_x z * (U * U / sbase)) \/
  (cz = 2%Z /\ z_base z <> 0 /\ R = z_r z * (U * U / z_base z) /\ X = z_x z * (U * U / z_base z)) \/
  (cz = 3%Z /\ 0 < z_base z /\ 0 <= X /\
     (let rated := z_base z / U in z_r z = 1000000 * (R * (rated * rated))) /\
     (let m := z_x z * (U * U / z_base z) in R * R + X * X = m * m)).

Record physical := { p_ui : R; p_uj : R; p_R : R; p_X : R }.
Definition describes (sbase : R) (bi bj : raw_bus) (t : raw_x2) (p : physical) : Prop :=
  (exists n1, nominal (w_nom (t_w1 t)) (b_baskv bi) n1 /\ winding_kv (t_cw t) (w_v (t_w1 t)) n1 (b_baskv bi) (p_ui p)) /\
  (exists n2, nominal (t_nomv2 t) (b_baskv bj) n2 /\ winding_kv (t_cw t) (t_windv2 t) n2 (b_baskv bj) (p_uj p)) /\
  ohms (t_cz t) (t_z t) (p_uj p) sbase (p_R p) (p_X p).

(** the tap data of a controlling transformer must be usable *)
Definition taps_usable (t : raw_x2) : Prop :=
  w_cod (t_w1 t) = 1%Z \/ w_cod (t_w1 t) = 2%Z ->
  (t_cw t = 3%Z \/ w_v (t_w1 t) <> 0) /\ w_ntp (t_w1 t) <> 1.

(** magnetising admittance: given directly, or (code 2) as no-load loss in watts and exciting current in
    per unit on the winding base, the susceptance being inductive *)
Definition exciting (t : raw_x2) (sbase G B : R) : Prop :=
  (t_cm t <> 2%Z -> G = t_mag1 t /\ B = t_mag2 t) /\
  (t_cm t = 2%Z ->
     let y := t_mag2 t * z_base (t_z t) / sbase in
     let g := t_mag1 t / (1000000 * sbase) in
     (g < y - 1 / 1000000 -> G = g /\ B <= 0 /\ G * G + B * B = y * y) /\
     (y - 1 / 1000000 <= g -> G = 0 /\ B = 0)).

(** ratio of one winding of a three-winding transformer, in per unit of its bus base voltage: the stated
    winding voltage, moved into the range of the tap changer when the winding controls its tap *)
Definition controls_tap (w : winding) : Prop := w_cod w = 1%Z \/ w_cod w = 2%Z.
Definition star_ratio (cw : Z) (w : winding) (base tr : R) : Prop :=
  forall nom kv, (w_nom w = 0 -> nom = base) -> (w_nom w <> 0 -> nom = w_nom w) -> winding_kv cw (w_v w) nom base kv ->
  let t := kv / base in let lo := w_rmi w * (t / w_v w) in let hi := w_rma w * (t / w_v w) in
  (~ controls_tap w -> tr = t) /\
  (controls_tap w -> w_v w <> 0 /\ (lo <= hi -> lo <= tr <= hi /\ (lo <= t <= hi -> tr = t) /\ (t < lo -> tr = lo) /\ (hi < t -> tr = hi))).
