(** Model of src/logic/network/parsers/raw/parse_transformers.py: how the two- and three-winding
    records of a RAW file become [Transformer] elements.
    Simplifications: floats are reals; winding, status and control codes are integers; the control
    attributes (tap steps, voltage and flow targets, 76-133 and 296-326) are never read by anything
    else, so of those lines only the divisions that can raise are kept.  Exceptions are values. *)
From Coq Require Import Reals ZArith List Bool.
From Verif Require Import Components.
From Verif Require Export PyExc.
Import ListNotations.
Local Open Scope R_scope.
Set Implicit Arguments.

(** what the transformer code reads of Bus_data, data_classes.py:46-64 *)
Record raw_bus := { b_num : Z; b_baskv : R; b_ide : Z; b_vm : R; b_va : R (* degrees *) }.
(** search_case_data['buses'][n], parser.py:111: a dictionary keyed by bus number *)
Definition bus_data (bs : list raw_bus) (n : Z) : pres raw_bus :=
  match find (fun b => Z.eqb (b_num b) n) bs with Some b => Ok b | None => Err KeyError end.
(** membership in the dictionary filled by Bus_data.integrate, data_classes.py:68-71, parser.py:118-121:
    it holds the buses whose type is not 4 *)
Definition online (bs : list raw_bus) (n : Z) : bool :=
  existsb (fun b => Z.eqb (b_num b) n && negb (Z.eqb (b_ide b) 4)) bs.
(** all_bus_key[n] *)
Definition bus_key (bs : list raw_bus) (n : Z) : pres Z :=
  if online bs n then Ok n else Err KeyError.

(** a [Transformer] element: the buses it is attached to, its electrical data (Components.v), the
    magnetising admittance handed to the constructor and the rating *)
Record xfmr := { x_from : Z; x_to : Z; x_dev : transformer; x_gmag : R; x_bmag : R; x_rating : R }.

(** one winding's columns of a transformer record *)
Record winding := { w_v : R; w_nom : R; w_ang : R; w_rata : R; w_ratb : R; w_ratc : R;
                    w_cod : Z; w_rma : R; w_rmi : R; w_ntp : R }.
(** one impedance triple (r, x, sbase) *)
Record zpair := { z_r : R; z_x : R; z_base : R }.

(** *** TwoWindingXfmrs, 16-184 *)
Record raw_x2 := { t_i : Z; t_j : Z; t_cw : Z; t_cz : Z; t_cm : Z; t_mag1 : R; t_mag2 : R; t_stat : Z;
                   t_z : zpair; t_w1 : winding; t_windv2 : R; t_nomv2 : R }.

(** one side's turns in per unit of the bus base voltage, 54-70 (two windings) and 277-294 (three);
    [vnom] is already replaced by the base voltage when the record leaves it at 0 *)
Definition turns (cw : Z) (windv vnom base : R) : pres R :=
  if Z.eqb cw 1 then Ok windv
  else if Z.eqb cw 2 then pdiv windv base
  else if Z.eqb cw 3 then pdiv (windv * vnom) base
  else Ok windv.

(** the divisions of the tap limit computation, 80-107 *)
Definition tap_checks2 (t : raw_x2) : pres unit :=
  let w := t_w1 t in
  if (Z.eqb (w_cod w) 1 || Z.eqb (w_cod w) 2)%bool then
    check negb (reqb (w_v w) 0) || Z.eqb (t_cw t) 3 else ZeroDivisionError;
    guard (negb (reqb (w_ntp w - 1) 0)) ZeroDivisionError
  else Ok tt.

(** series impedance on the system base, 136-155 and 328-346 *)
Definition loss (cz : Z) (z : zpair) (tj2 sbase : R) : pres (R * R) :=
  if Z.eqb cz 1 then Ok (z_r z * tj2, z_x z * tj2)
  else if Z.eqb cz 2 then
    do r <- pdiv (z_r z * tj2 * sbase) (z_base z);
    do x <- pdiv (z_x z * tj2 * sbase) (z_base z);
    Ok (r, x)
  else if Z.eqb cz 3 then
    do rpu <- pdiv (z_r z) (1000000 * z_base z);
    do k <- pdiv sbase (z_base z);
    do s <- psqrt (z_x z * z_x z - rpu * rpu);
    Ok (rpu * (k * tj2), s * (k * tj2))
  else Err AttributeError.

(** magnetising admittance, 157-176 and 357-375 *)
Definition magnetising (cm : Z) (mag1 mag2 sbase zbase : R) : pres (R * R) :=
  if Z.eqb cm 2 then
    do g <- pdiv mag1 (1000000 * sbase);
    do sl <- pdiv (mag2 * zbase) sbase;
    if rltb (g - sl) (- (1 / 1000000)) then
      do b <- psqrt (sl * sl - g * g); Ok (g, - b)
    else Ok (0, 0)
  else Ok (mag1, mag2).

Definition max3 (a b c : R) : R := Rmax (Rmax a b) c.
Definition ratings3 (sbase a b c : R) : pres R :=
  do ra <- pdiv a sbase; do rb <- pdiv b sbase; do rc <- pdiv c sbase; Ok (max3 ra rb rc).

(** the numbers computed by __init__, 18-176 *)
Record x2_data := { d_tr : R; d_r : R; d_x : R; d_g : R; d_b : R; d_rating : R }.
Definition two_winding_data (bs : list raw_bus) (sbase : R) (t : raw_x2) : pres x2_data :=
  let w := t_w1 t in
  do rating <- ratings3 sbase (w_rata w) (w_ratb w) (w_ratc w);
  do bi <- bus_data bs (t_i t);
  do bj <- bus_data bs (t_j t);
  let nom1 := if rltb 0 (w_nom w) then w_nom w else b_baskv bi in
  let nom2 := if rltb 0 (t_nomv2 t) then t_nomv2 t else b_baskv bj in
  do ti <- turns (t_cw t) (w_v w) nom1 (b_baskv bi);
  do tj <- turns (t_cw t) (t_windv2 t) nom2 (b_baskv bj);
  do tr <- pdiv ti tj;
  do _u <- tap_checks2 t;
  do rx <- loss (t_cz t) (t_z t) (tj * tj) sbase;
  do gb <- magnetising (t_cm t) (t_mag1 t) (t_mag2 t) sbase (z_base (t_z t));
  Ok {| d_tr := tr; d_r := fst rx; d_x := snd rx; d_g := fst gb; d_b := snd gb; d_rating := rating |}.

(** Transformer.__init__ raises on r = x = 0, transformer.py:77-78 *)
Definition make_xfmr (bs : list raw_bus) (from to : Z) (r x tr ang g b rating : R) : pres xfmr :=
  do f <- bus_key bs from;
  do t <- bus_key bs to;
  match new_transformer r x tr ang with
  | Some d => Ok {| x_from := f; x_to := t; x_dev := d; x_gmag := g; x_bmag := b; x_rating := rating |}
  | None => Err ZeroDivisionError
  end.

(** integrate_2xfmrs, data_classes.py:394-397 and createXfmrObject, 178-184: [None] when out of service *)
Definition two_winding (bs : list raw_bus) (sbase : R) (t : raw_x2) : pres (option xfmr) :=
  do d <- two_winding_data bs sbase t;
  if Z.eqb (t_stat t) 0 then Ok None
  else do x <- make_xfmr bs (t_i t) (t_j t) (d_r d) (d_x d) (d_tr d) (w_ang (t_w1 t)) (d_g d) (d_b d) (d_rating d);
       Ok (Some x).

(** *** ThreeWindingXfmrs, 187-421 *)
Record raw_x3 := { h_i : Z; h_j : Z; h_k : Z; h_cw : Z; h_cz : Z; h_cm : Z; h_mag1 : R; h_mag2 : R; h_stat : Z;
                   h_z12 : zpair; h_z23 : zpair; h_z31 : zpair;
                   h_w1 : winding; h_w2 : winding; h_w3 : winding; h_vmstar : R; h_anstar : R }.

(** mWindingStatus, 206-220; [own] and the others are bus types *)
Definition winding_on (stat code own o1 o2 : Z) : bool :=
  (negb (Z.eqb stat code) && negb (Z.eqb own 4) && (negb (Z.eqb o1 4) || negb (Z.eqb o2 4)))%bool.

(** ratio of one winding, 271-326: limited to [rmi, rma] when the winding controls its tap *)
Definition ratio3 (cw : Z) (w : winding) (base : R) : pres R :=
  let nom := if reqb (w_nom w) 0 then base else w_nom w in
  do ti <- turns cw (w_v w) nom base;
  if (Z.eqb (w_cod w) 1 || Z.eqb (w_cod w) 2)%bool then
    do up <- pdiv (w_rma w * ti) (w_v w);
    do lo <- pdiv (w_rmi w * ti) (w_v w);
    check negb (reqb (w_ntp w - 1) 0) else ZeroDivisionError;
    Ok (Rmax lo (Rmin up ti))
  else Ok ti.

(** the numbers computed by __init__: service flags, ratios, star impedances, magnetising admittance *)
Record x3_data := { s_on1 : bool; s_on2 : bool; s_on3 : bool; s_tr1 : R; s_tr2 : R; s_tr3 : R;
                    s_z1 : R * R; s_z2 : R * R; s_z3 : R * R; s_g : R; s_b : R;
                    s_ratA : R; s_ratB : R; s_ratC : R }.
(** 349-354 *)
Definition star (a b c : R) : R := 1 / 2 * (a + b - c).
Definition star2 (a b c : R * R) : R * R := (star (fst a) (fst b) (fst c), star (snd a) (snd b) (snd c)).

Definition three_winding_data (bs : list raw_bus) (sbase : R) (t : raw_x3) : pres x3_data :=
  do bi <- bus_data bs (h_i t);
  do bj <- bus_data bs (h_j t);
  do bk <- bus_data bs (h_k t);
  let on1 := winding_on (h_stat t) 4 (b_ide bi) (b_ide bj) (b_ide bk) in
  let on2 := winding_on (h_stat t) 2 (b_ide bj) (b_ide bi) (b_ide bk) in
  let on3 := winding_on (h_stat t) 3 (b_ide bk) (b_ide bi) (b_ide bj) in
  let w1 := h_w1 t in let w2 := h_w2 t in let w3 := h_w3 t in
  do ratA <- ratings3 sbase (w_rata w1) (w_rata w2) (w_rata w3);
  do ratB <- ratings3 sbase (w_ratb w1) (w_ratb w2) (w_ratb w3);
  do ratC <- ratings3 sbase (w_ratc w1) (w_ratc w2) (w_ratc w3);
  do tr1 <- ratio3 (h_cw t) w1 (b_baskv bi);
  do z12 <- loss (h_cz t) (h_z12 t) 1 sbase;
  do tr2 <- ratio3 (h_cw t) w2 (b_baskv bj);
  do z23 <- loss (h_cz t) (h_z23 t) 1 sbase;
  do tr3 <- ratio3 (h_cw t) w3 (b_baskv bk);
  do z31 <- loss (h_cz t) (h_z31 t) 1 sbase;
  do gb <- (if on1 then magnetising (h_cm t) (h_mag1 t) (h_mag2 t) sbase (z_base (h_z12 t)) else Ok (0, 0));
  Ok {| s_on1 := on1; s_on2 := on2; s_on3 := on3; s_tr1 := tr1; s_tr2 := tr2; s_tr3 := tr3;
        s_z1 := star2 z12 z31 z23; s_z2 := star2 z23 z12 z31; s_z3 := star2 z23 z31 z12;
        s_g := fst gb; s_b := snd gb; s_ratA := ratA; s_ratB := ratB; s_ratC := ratC |}.

(** createXfmrObject, 377-421.  [star_node] is the number the star bus is looked up under; the caller
    passes -1, data_classes.py:487 *)
Definition star_leg (bs : list raw_bus) (on : bool) (from star_node : Z) (z : R * R) (tr ang g b rating : R) : pres (list xfmr) :=
  if on then do x <- make_xfmr bs from star_node (fst z) (snd z) tr ang g b rating; Ok [x] else Ok [].
Definition three_winding (bs : list raw_bus) (sbase : R) (star_node : Z) (t : raw_x3) : pres (list xfmr) :=
  do d <- three_winding_data bs sbase t;
  do l1 <- star_leg bs (s_on1 d) (h_i t) star_node (s_z1 d) (s_tr1 d) (w_ang (h_w1 t)) (s_g d) (s_b d) (s_ratA d);
  do l2 <- star_leg bs (s_on2 d) (h_j t) star_node (s_z2 d) (s_tr2 d) (w_ang (h_w2 t)) 0 0 (s_ratB d);
  do l3 <- star_leg bs (s_on3 d) (h_k t) star_node (s_z3 d) (s_tr3 d) (w_ang (h_w3 t)) 0 0 (s_ratC d);
  Ok (l1 ++ l2 ++ l3).
