(** Model of the remaining functions of src/ditto/readers/gridlabd/line_impedance.py: the series impedance of
    underground lines and the shunt admittances of overhead and underground lines.

    Simplifications.  As in LineImpedance.v floats are reals and None stands for inf and nan, which are not told apart:
    everything computed from them is None.  A fractional power of a negative Python float, a complex number, counts
    as None too.  Tape-shielded cables are left out: the reader never sets the attribute _shield_gmr asked for in
    lines 573 and 661.  np.log of a negative complex number without imaginary part has the imaginary part pi or
    -pi, depending on the sign of its zero: parameter [side]. *)
From Coq Require Import Reals ZArith String Ascii List Bool Arith.
From Verif Require Import PyExc Components UnbalancedLine GlmText LineImpedance.
Import ListNotations.
Local Open Scope R_scope.
Set Implicit Arguments.

Definition is_neutral (w : wire) : bool := String.eqb (w_phase w) "N".
(** an attribute the class does not have (wire.py), and one it initialises with None *)
Definition attribute A (x : option A) : pres A := match x with Some a => Ok a | None => Err AttributeError end.
Definition number A (x : option A) : pres A := match x with Some a => Ok a | None => Err TypeError end.

(** *** powers *)
(** x ** k of a Python float *)
Definition py_pow (x : R) (k : Z) : pres R :=
  if (reqb x 0 && Z.ltb k 0)%bool then Err ZeroDivisionError else Ok (powerRZ x k).
(** of a numpy number *)
Definition np_pow (x : R) (k : Z) : option R := if (reqb x 0 && Z.ltb k 0)%bool then None else Some (powerRZ x k).
(** x ** (1 / k), k not 0 *)
Definition np_root (x : R) (k : Z) : option R :=
  if Z.eqb k 1 then Some x
  else if reqb x 0 then (if Z.ltb 0 k then Some 0 else None)
  else if Z.eqb k (-1) then Some (/ x)
  else if rltb x 0 then None else Some (Rpower x (/ IZR k)).
Definition py_root (x : R) (k : Z) : pres (option R) :=
  if (reqb x 0 && Z.ltb k 0)%bool then Err ZeroDivisionError else Ok (np_root x k).

(** *** shunt admittance of underground lines, compute_underground_capacitance 558-595 *)
(** np.log of a Python float: finite, minus infinity or nan *)
Inductive log_value := Finite (x : R) | Minus_inf | Not_a_number.
Definition np_log (x : R) : log_value := if rltb 0 x then Finite (ln x) else if reqb x 0 then Minus_inf else Not_a_number.
(** 77.3619 * 1j * 1e-6 / V_p1 for V_p1 = l1 - (1 / k) * l2, where l1 is not minus infinity (else l2 raised) *)
Definition shunt_value (l1 l2 : log_value) (k : Z) : xnum :=
  match l1, l2 with
  | Finite a, Finite b => let v := a - 1 / IZR k * b in if reqb v 0 then None else Some (0, 773619 / 10000 / 1000000 / v)
  | Finite _, Minus_inf => Some (0, 0)
  | _, _ => None
  end.
(** one phase, 567-587 *)
Definition cable_shunt (w : wire) : pres xnum :=
  do od <- attribute (w_outer w);
  do nd <- number (w_cnd w);
  let rb := (od - nd) / 2 in
  do cd <- attribute (w_cdiam w);
  let rc := cd / 2 in
  let rs := nd / 2 in
  do q1 <- pdiv rb rc;
  do k <- number (w_k w);
  check negb (Z.eqb k 0) else ZeroDivisionError;
  do q2 <- pdiv (IZR k * rs) rb;
  Ok (shunt_value (np_log q1) (np_log q2) k).
(** 561-590: the matrix has three rows and columns, used in the order of the wires *)
Definition cap_step (ws : list wire) (m : matrix) (i : nat) : pres matrix :=
  do w <- wire_at ws i;
  if is_neutral w then Ok m
  else do y <- cable_shunt w; check Nat.ltb i 3 else IndexError; Ok (set_entry m i i y).
Definition halve (m : matrix) : matrix := scale (1 / 2) m.
Definition underground_cap (ws : list wire) : pres matrix :=
  do m <- mfold (cap_step ws) (seq 0 (List.length ws)) (zeros 3);
  Ok (halve m).

Section Inv.
Variable E : prims.

(** *** series impedance of underground lines, compute_underground_impedance 644-713 *)
(** a GMR: Python's None, or a number that may be nan *)
Definition gm := option (option R).
Record ug_data := { u_own : list R; u_cr : list (option R); u_nr : list (option R); u_cg : list gm; u_ng : list gm;
                    u_k : option Z }.
Definition no_data : ug_data := {| u_own := []; u_cr := []; u_nr := []; u_cg := []; u_ng := []; u_k := None |}.
(** one wire, 652-673 *)
Definition ug_scan (u : ug_data) (w : wire) : pres ug_data :=
  if is_neutral w
  then Ok {| u_own := (u_own u ++ [0])%list; u_cr := u_cr u; u_nr := (u_nr u ++ [w_res w])%list; u_cg := u_cg u;
             u_ng := (u_ng u ++ [option_map Some (w_gmr w)])%list; u_k := u_k u |}
  else do od <- attribute (w_outer w);
       do nd <- number (w_cnd w);
       let own := (od - nd) / (12 * 2) in
       do cr <- number (w_cres w);
       do k <- number (w_k w);
       check negb (Z.eqb k 0) else ZeroDivisionError;
       do cg <- number (w_cgmr w);
       do pw <- py_pow own (k - 1);
       do g <- py_root (cg * IZR k * pw) k;
       Ok {| u_own := (u_own u ++ [own])%list; u_cr := (u_cr u ++ [w_res w])%list;
             u_nr := (u_nr u ++ [Some (cr / IZR k)])%list; u_cg := (u_cg u ++ [option_map Some (w_gmr w)])%list;
             u_ng := (u_ng u ++ [Some g])%list; u_k := Some k |}.
(** 675-683: distance between conductor i and the neutral of j; k is that of the last phase *)
Definition to_neutral (d : dmat) (u : ug_data) (i j : nat) : pres (option R) :=
  if Nat.eqb i j then Ok (Some (nth i (u_own u) 0))
  else do x <- dist_at d i j;
       do k <- match u_k u with Some k => Ok k | None => Err UnboundLocalError end;
       do o <- py_pow (nth j (u_own u) 0) k;
       Ok (match np_pow x k with Some p => np_root (p - o) k | None => None end).
Definition rtable := list (list (option R)).
Definition rput (t : rtable) (i j : nat) (x : option R) : rtable := upd t i (upd (nth i t []) j x).
Definition rget (t : rtable) (i j : nat) : option R := nth j (nth i t []) (Some 0).
Definition rzeros (n : nat) : rtable := repeat (repeat (Some 0) n) n.
Definition neutral_dists (n : nat) (d : dmat) (u : ug_data) : pres rtable :=
  mfold (fun t ij => do x <- to_neutral d u (fst ij) (snd ij); Ok (rput t (fst ij) (snd ij) x))
        (list_prod (seq 0 n) (seq 0 n)) (rzeros n).
(** 690-699: nn is the number of phases *)
Definition dist_step (ws : list wire) (d : dmat) (cn : rtable) (nn : nat) (t : rtable) (ij : nat * nat) : pres rtable :=
  let (i, j) := ij in
  do wi <- wire_at ws i;
  do wj <- wire_at ws j;
  do t1 <- (if (is_neutral wi || is_neutral wj)%bool then Ok t else do x <- dist_at d i j; Ok (rput t i j (Some x)));
  let t2 := if is_neutral wi then t1 else rput t1 i (nn + j) (rget cn i j) in
  let t3 := if is_neutral wj then t2 else rput t2 (nn + i) j (rget cn j i) in
  do x <- dist_at d i j;
  Ok (rput t3 (nn + i) (nn + j) (Some x)).
(** calc_Zii and calc_Zij, 807-833, underground; in an array that has a None the numbers are Python floats *)
Definition with_log_ug (r : R) (l : option R) : xnum :=
  match l with Some t => Some (r, 12134 / 100000 * (t + 795153 / 100000)) | None => None end.
Definition has_none A (l : list (option A)) : bool := existsb (fun x => match x with None => true | Some _ => false end) l.
Definition zii_ug (py : bool) (r : option R) (g : gm) : pres xnum :=
  do r <- number r;
  do g <- number g;
  match g with
  | None => Ok None
  | Some g => check negb (py && reqb g 0)%bool else ZeroDivisionError; Ok (with_log_ug (r + 9327 / 100000) (log_inv g))
  end.
Definition zij_ug (d : option R) : xnum :=
  with_log_ug (9327 / 100000) (match d with Some d => log_inv d | None => None end).
(** 701-707 *)
Definition ug_cell (rs : list (option R)) (gs : list gm) (t : rtable) (m : matrix) (ij : nat * nat) : pres matrix :=
  let (i, j) := ij in
  if Nat.eqb i j then do z <- zii_ug (has_none gs) (nth i rs None) (nth i gs None); Ok (set_entry m i j z)
  else Ok (set_entry m i j (zij_ug (rget t i j))).
Definition underground_z (ws : list wire) (d : dmat) : pres matrix :=
  do u <- mfold ug_scan ws no_data;
  let n := List.length ws in
  do cn <- neutral_dists n d u;
  let rs := (u_cr u ++ u_nr u)%list in
  let gs := (u_cg u ++ u_ng u)%list in
  let size := List.length rs in
  do t <- mfold (dist_step ws d cn (List.length (u_cr u))) (list_prod (seq 0 n) (seq 0 n)) (rzeros size);
  do m <- mfold (ug_cell rs gs t) (list_prod (seq 0 size) (seq 0 size)) (zeros size);
  let lo := seq 0 (size / 2) in
  let hi := seq (size / 2) (size - size / 2) in
  kron E (block m lo lo) (block m lo hi) (block m hi lo) (block m hi hi).

(** *** shunt admittance of overhead lines, compute_overhead_capacitance 482-556; d is the table of 5 x 5 distances *)
Variable side : R.
(** S[i, j], 508-527, i and j being rows of the table: it depends on nothing else *)
Definition np_sqrt (x : R) : option R := if rltb x 0 then None else Some (sqrt x).
Definition image (d : dmat) (a b : nat) : option R :=
  let pe := at2 d a 4 in
  let pn := at2 d a 3 in
  let ne := at2 d 3 4 in
  if Nat.eqb a b then np_sqrt (0 * 0 + 2 * pe * (2 * pe))
  else if (Nat.eqb a 3 || Nat.eqb b 3)%bool
       then match np_sqrt (pn * pn - (pe - ne) * (pe - ne)) with
            | Some h => np_sqrt (h * h + (pe + ne) * (pe + ne))
            | None => None
            end
       else np_sqrt (at2 d a b * at2 d a b + 2 * pe * (2 * pe)).
(** 492-527: the rows used and the radii RD, None for the return in line 494 *)
Definition in_four (w : wire) : pres nat := do a <- index_of w; check Nat.ltb a 4 else IndexError; Ok a.
Fixpoint oc_scan (all todo : list wire) (rd : list R) : pres (option (list nat * list R)) :=
  match todo with
  | [] => Ok (Some ([], rd))
  | w :: todo =>
      match w_diam w with
      | None => Ok None
      | Some dm =>
          do a <- in_four w;
          do _ <- mfold (fun _ v => do _ <- in_four v; Ok tt) all tt;
          do x <- oc_scan all todo (upd rd a (dm / 2));
          Ok (match x with Some (l, rd) => Some (a :: l, rd) | None => None end)
      end
  end.
(** P_primitive, 529-536 *)
Definition np_clog (q : R) : xnum := if rltb 0 q then Some (ln q, 0) else Some (ln (- q), side).
Definition coefficient (d : dmat) (rd : list R) (idx : list nat) (i j : nat) : xnum :=
  let a := nth i idx 0%nat in
  let b := nth j idx 0%nat in
  let den := (if Nat.eqb i j then nth a rd 0 else 0) + at2 d a b in
  match image d a b with
  | None => None
  | Some s => if (reqb den 0 || reqb s 0)%bool then None
              else xmul (Some (1117689 / 100000, 0)) (np_clog (s / den))
  end.
(** Pnn ** -1 *)
Definition reciprocal (x : xnum) : xnum := match x with Some c => xinv (Some c) | None => None end.
(** 2 * math.pi * freq * 1e-6 * 1j * C / 2, 549-552 *)
Definition to_shunt (m : matrix) : matrix := map (map (xmul (Some (0, 2 * PI * 60 / 1000000 / 2)))) m.
Definition overhead_cap (ws : list wire) (d : dmat) : pres (option matrix) :=
  do x <- oc_scan ws ws (repeat 0 4);
  match x with
  | None => Ok None
  | Some (idx, rd) =>
      let n := List.length idx in
      let p := map (fun i => map (coefficient d rd idx i) (seq 0 n)) (seq 0 n) in
      let r := if existsb is_neutral ws
               then let c := (n - 1)%nat in
                    mat_sub (block p (seq 0 c) (seq 0 c))
                            (mat_mul (mat_mul (block p (seq 0 c) [c]) [[reciprocal (entry p c c)]]) (block p [c] (seq 0 c)))
               else p in
      match p_inv E r with
      | None => Err Raised
      | Some y => Ok (Some (to_shunt y))
      end
  end.

(** the parameters with these functions in the place of the three left open in LineImpedance.v *)
Definition with_cables : prims :=
  {| p_float := p_float E; p_complex := p_complex E; p_int := p_int E; p_polar := p_polar E; p_inv := p_inv E;
     p_ugz := underground_z; p_ocap := overhead_cap; p_ucap := underground_cap |}.
End Inv.
