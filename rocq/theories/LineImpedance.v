(** Model of src/ditto/readers/gridlabd/line_impedance.py: distances between conductors and series
    impedances of overhead and triplex lines.

    Simplifications.  Floats are reals; a matrix entry is a complex number or None for inf/nan, as in
    UnbalancedLine.v.  float(), np.linalg.inv, the impedance of underground lines and the two capacitance
    functions are the parameters collected in [prims].  Of compute_overhead_spacing and
    compute_underground_spacing the positions X and Y of the wires are left out, as nothing reads them; the
    exceptions their computation can raise are kept. *)
From Coq Require Import Reals ZArith String Ascii List Bool Arith.
From Verif Require Import PyExc Components UnbalancedLine GlmText.
Import ListNotations.
Local Open Scope R_scope.
Set Implicit Arguments.

(** *** strings *)
(** remove_nonnum.sub('', s), line 8 and read.py:30 *)
Definition numchar (c : ascii) : bool :=
  ((Nat.leb 48 (nat_of_ascii c) && Nat.leb (nat_of_ascii c) 57) || Ascii.eqb c ".")%bool.
Fixpoint digits (s : string) : string :=
  match s with EmptyString => EmptyString | String c r => if numchar c then String c (digits r) else digits r end.
(** s.find(sub) != -1 *)
Definition contains (sub s : string) : bool := match index 0 sub s with Some _ => true | None => false end.

(** *** wires, ditto/models/wire.py; the attributes set by the reader, None if not set *)
Record wire := { w_phase : string; w_diam : option R; w_gmr : option R; w_res : option R; w_ins : option R;
                 w_emerg : option R; w_outer : option R; w_cnd : option R; w_k : option Z; w_cdiam : option R;
                 w_cgmr : option R; w_cres : option R }.
Definition new_wire (p : string) : wire :=
  {| w_phase := p; w_diam := None; w_gmr := None; w_res := None; w_ins := None; w_emerg := None; w_outer := None;
     w_cnd := None; w_k := None; w_cdiam := None; w_cgmr := None; w_cres := None |}.

(** distances, a 5 x 5 table, -1 for not given *)
Definition dmat := list (list R).

Record prims := { p_float : string -> option R;              (* float(s), None: ValueError *)
                  p_complex : string -> option cnum;         (* complex(s) *)
                  p_int : string -> option Z;                (* int(s) *)
                  p_polar : cnum -> R * R;                   (* abs and phase angle *)
                  p_inv : matrix -> option matrix;           (* np.linalg.inv, None: LinAlgError *)
                  p_ugz : list wire -> dmat -> pres matrix;  (* compute_underground_impedance, 644-713 *)
                  p_ocap : list wire -> dmat -> pres (option matrix);  (* compute_overhead_capacitance, 482-556 *)
                  p_ucap : list wire -> pres matrix }.       (* compute_underground_capacitance, 558-595 *)

Section Lines.
Variable E : prims.

Definition fl (s : string) : pres R := match p_float E s with Some r => Ok r | None => Err ValueError end.
Definition cx (s : string) : pres cnum := match p_complex E s with Some c => Ok c | None => Err ValueError end.
Definition it (s : string) : pres Z := match p_int E s with Some z => Ok z | None => Err ValueError end.

(** *** spacing *)
(** lookup and rev_lookup, 10-13 *)
Definition lookup5 : list string := ["A"; "B"; "C"; "N"; "E"]%string.
Definition rev_lookup (p : string) : option nat :=
  if String.eqb p "A" then Some 0%nat else if String.eqb p "B" then Some 1%nat else if String.eqb p "C" then Some 2%nat
  else if String.eqb p "N" then Some 3%nat else if String.eqb p "E" then Some 4%nat else None.
Definition dname (i j : nat) : string := ("distance_" ++ nth i lookup5 "" ++ nth j lookup5 "")%string.
Definition at2 (d : dmat) (i j : nat) : R := nth j (nth i d []) (-1).
Fixpoint upd A (l : list A) (n : nat) (x : A) : list A :=
  match l, n with [], _ => [] | _ :: l, O => x :: l | a :: l, S n => a :: upd l n x end.
Definition put2 (d : dmat) (i j : nat) (x : R) : dmat := upd d i (upd (nth i d []) j x).
Definition no_dist : dmat := repeat (repeat (-1) 5) 5.
(** the pairs i < j of the double loop, 51-52 *)
Definition pairs5 : list (nat * nat) :=
  flat_map (fun i => map (fun j => (i, j)) (seq (S i) (4 - i))) (seq 0 5).
(** 61-64 *)
Definition put_pair (d : dmat) (i j : nat) (x : R) : dmat := put2 (put2 (put2 (put2 d i j x) j i x) i i 0) j j 0.
(** one pair of compute_overhead_spacing, 53-69; the state also holds the spacing object and the longest
    distance between two conductors (distance, from, to), -100 if none *)
Definition oh_state : Type := (gobj * dmat * (R * nat * nat))%type.
Definition oh_pair (s : oh_state) (ij : nat * nat) : pres oh_state :=
  let '(o, d, mx) := s in
  let (i, j) := ij in
  match dget (dname i j) (go_attrs o) with
  | None => Ok s
  | Some t =>
      let o' := gset_raw o (dname i j) (digits t) in
      do x <- fl (digits t);
      if reqb x 0 then Ok (o', d, mx)
      else let mx' := if (rltb (fst (fst mx)) x && Nat.ltb i 4 && Nat.ltb j 4)%bool then (x, i, j) else mx in
           Ok (o', put_pair d i j x, mx')
  end.
(** n_entries, 71-77 *)
Definition count_given (d : dmat) : nat := List.length (filter (fun x => negb (reqb x (-1))) (concat d)).
Definition has_earth (d : dmat) : bool := existsb (rltb (-1)) (nth 4 d []).
(** the branch for two conductors, 94-131: the only one that can raise *)
Definition oh_two (d : dmat) (mx : R * nat * nat) (phases : list string) : pres unit :=
  let '(m, a, b) := mx in
  mfold (fun _ p => match rev_lookup p with
                    | None => Err KeyError
                    | Some i => check (Nat.eqb i a || Nat.eqb i b)%bool else KeyError;
                                if has_earth d
                                then let h := at2 d a 4 - at2 d b 4 in
                                     check negb (rltb 1 (Rabs (h / m))) else ValueError; Ok tt
                                else Ok tt
                    end) phases tt.
(** compute_overhead_spacing, 45-295: the spacing object, whose texts are overwritten at 55, and the distances *)
Definition overhead_spacing (o : gobj) (phases : list string) : pres (gobj * dmat) :=
  do s <- mfold oh_pair pairs5 (o, no_dist, (-100, 5%nat, 5%nat));
  let '(o', d, mx) := s in
  let n := (Nat.sqrt (count_given d) - if has_earth d then 1 else 0)%nat in
  do _ <- (if Nat.eqb n 2 then oh_two d mx phases else Ok tt);
  Ok (o', d).

(** one pair of compute_underground_spacing, 298-314 *)
Definition ug_pair (outer : list R) (s : gobj * dmat) (ij : nat * nat) : pres (gobj * dmat) :=
  let (o, d) := s in
  let (i, j) := ij in
  match dget (dname i j) (go_attrs o) with
  | None => Ok s
  | Some t =>
      let o' := gset_raw o (dname i j) (digits t) in
      do x <- fl (digits t);
      do x' <- (if reqb x 0
                then let n := List.length outer in
                     check negb (Nat.eqb n 0) else ZeroDivisionError;
                     Ok ((nth (i mod n) outer 0 + nth (j mod n) outer 0) / 2)
                else Ok x);
      Ok (o', put_pair d i j x')
  end.
(** compute_underground_spacing, 297-480; what follows the loop raises nothing *)
Definition underground_spacing (outer : list R) (o : gobj) : pres (gobj * dmat) :=
  mfold (ug_pair outer) pairs5 (o, no_dist).

(** distances[:,~np.all(distances, axis=0, where=[-1])][~np.all(distances, axis=1, where=[-1]),:], read.py:940:
    the rows and columns in which there is a zero *)
Definition strip_dist (d : dmat) : dmat :=
  let n := List.length d in
  let cols := filter (fun j => existsb (fun i => reqb (at2 d i j) 0) (seq 0 n)) (seq 0 n) in
  let rows := filter (fun i => existsb (fun j => reqb (at2 d i j) 0) (seq 0 n)) (seq 0 n) in
  map (fun i => map (at2 d i) cols) rows.

(** *** Carson's equations *)
(** np.log(1 / x) for a numpy number *)
Definition log_inv (x : R) : option R := if rltb 0 x then Some (ln (1 / x)) else None.
Definition with_log (r : R) (l : option R) : xnum :=
  match l with Some t => Some (r, 12134 / 100000 * (t + 793402 / 100000)) | None => None end.
(** calc_Zii, 807-819, not underground; GMRi is a Python float, so 1 / 0.0 raises *)
Definition zii (r gmr : R) : pres xnum :=
  check negb (reqb gmr 0) else ZeroDivisionError; Ok (with_log (r + 953 / 10000) (log_inv gmr)).
(** calc_Zij, 821-833, not underground, Dij a numpy number *)
Definition zij (d : R) : xnum := with_log (953 / 10000) (log_inv d).
(** the same with a Python float *)
Definition zij_py (d : R) : pres xnum := check negb (reqb d 0) else ZeroDivisionError; Ok (zij d).

(** *** matrices *)
Definition c0 : xnum := Some (0, 0).
Definition set_entry (m : matrix) (i j : nat) (x : xnum) : matrix := upd m i (upd (nth i m []) j x).
Definition zeros (n : nat) : matrix := repeat (repeat c0 n) n.
Definition block (m : matrix) (rows cols : list nat) : matrix := map (fun i => map (entry m i) cols) rows.
Definition xneg (a : xnum) : xnum := match a with Some a => Some (- fst a, - snd a) | None => None end.
(** np.dot *)
Definition mat_mul (a b : matrix) : matrix :=
  map (fun row => map (fun j => fold_right xadd c0
                                  (map (fun k => xmul (nth k row c0) (entry b k j)) (seq 0 (List.length b))))
                      (seq 0 (List.length (hd [] b)))) a.
Fixpoint map2 A B C (f : A -> B -> C) (l : list A) (m : list B) : list C :=
  match l, m with a :: l, b :: m => f a b :: map2 f l m | _, _ => [] end.
Definition mat_sub (a b : matrix) : matrix := map2 (map2 (fun x y => xadd x (xneg y))) a b.
(** kron_reduction, 835-842 *)
Definition kron (z_ij z_in z_nj z_nn : matrix) : pres matrix :=
  match p_inv E z_nn with
  | None => Err Raised
  | Some y => Ok (mat_sub z_ij (mat_mul (mat_mul z_in y) z_nj))
  end.

(** *** overhead lines *)
Definition wire_at (ws : list wire) (i : nat) : pres wire := match nth_error ws i with Some w => Ok w | None => Err IndexError end.
Definition index_of (w : wire) : pres nat := match rev_lookup (w_phase w) with Some i => Ok i | None => Err KeyError end.
Definition dist_at (d : dmat) (i j : nat) : pres R :=
  match nth_error d i with
  | Some row => match nth_error row j with Some x => Ok x | None => Err IndexError end
  | None => Err IndexError
  end.
(** a wire's own impedance, 603-614 *)
Definition self_z (w : wire) : pres xnum :=
  match w_res w, w_gmr w with Some r, Some g => zii r g | _, _ => Ok c0 end.
(** one cell, 600-625; the table has four rows and columns *)
Definition oh_cell (ws : list wire) (d : dmat) (m : matrix) (ij : nat * nat) : pres matrix :=
  let (i, j) := ij in
  do wi <- wire_at ws i;
  do a <- index_of wi;
  if Nat.eqb i j
  then do z <- self_z wi; check Nat.ltb a 4 else IndexError; Ok (set_entry m a a z)
  else do x <- dist_at d i j;
       do wj <- wire_at ws j;
       do b <- index_of wj;
       check (Nat.ltb a 4 && Nat.ltb b 4)%bool else IndexError;
       Ok (set_entry m a b (zij x)).
Definition oh_matrix (ws : list wire) (d : dmat) : pres matrix :=
  let n := List.length ws in
  mfold (oh_cell ws d) (list_prod (seq 0 n) (seq 0 n)) (zeros 4).
(** np.delete of row and column *)
Definition drop_at A (n : nat) (l : list A) : list A := (firstn n l ++ skipn (S n) l)%list.
Definition delete_phase (m : matrix) (i : nat) : matrix := map (@drop_at xnum i) (drop_at i m).
(** compute_overhead_impedance, 597-642 *)
Definition overhead_z (ws : list wire) (d : dmat) (phases : list string) (neutral : bool) : pres matrix :=
  do m <- oh_matrix ws d;
  let abc := [0; 1; 2]%nat in
  do r <- (if neutral then kron (block m abc abc) (block m abc [3%nat]) (block m [3%nat] abc) (block m [3%nat] [3%nat])
           else Ok (block m abc abc));
  Ok (fold_left (fun m pi => if mem (fst pi) phases then m else delete_phase m (snd pi))
                [("C", 2); ("B", 1); ("A", 0)]%string%nat r).

(** *** triplex lines, compute_triplex_impedance 715-767 *)
Definition wire_map (w : wire) : pres nat :=
  if String.eqb (w_phase w) "1" then Ok 0%nat else if String.eqb (w_phase w) "2" then Ok 1%nat
  else if String.eqb (w_phase w) "N" then Ok 2%nat else Err KeyError.
(** 718-727: d12 and d1n of the first wire that has both data *)
Fixpoint tp_dist (ws : list wire) : option (R * R) :=
  match ws with
  | [] => None
  | w :: ws => match w_diam w, w_ins w with
               | Some d, Some t => Some ((d + 2 * t) / 12, (d + t) / 12)
               | _, _ => tp_dist ws
               end
  end.
Definition tp_cell (ws : list wire) (m : matrix) (ij : nat * nat) : pres matrix :=
  let (i, j) := ij in
  do wi <- wire_at ws i;
  do a <- wire_map wi;
  if Nat.eqb i j then do z <- self_z wi; Ok (set_entry m a a z)
  else do wj <- wire_at ws j;
       do b <- wire_map wj;
       match tp_dist ws with
       | None => Ok m
       | Some (d12, d1n) =>
           do z <- zij_py (if (String.eqb (w_phase wi) "N" || String.eqb (w_phase wj) "N")%bool then d1n else d12);
           Ok (set_entry m a b z)
       end.
Definition triplex_z (ws : list wire) : pres matrix :=
  let n := List.length ws in
  do m <- mfold (tp_cell ws) (list_prod (seq 0 n) (seq 0 n)) (zeros 3);
  kron (block m [0; 1]%nat [0; 1]%nat) (block m [0; 1]%nat [2%nat]) (block m [2%nat] [0; 1]%nat) (block m [2%nat] [2%nat]).

(** *** impedances given directly *)
(** hasattr(o, a): the attributes of an object are named with an underscore, base.py:24,36 *)
Definition py_hasattr (o : gobj) (a : string) : bool :=
  existsb (fun kv => String.eqb a ("_" ++ fst kv)%string) (go_attrs o).
(** line_direct_lookup, 15-25 *)
Definition direct_lookup : list (string * (nat * nat)) :=
  [("11", (0, 0)); ("12", (0, 1)); ("13", (0, 2)); ("21", (1, 0)); ("22", (1, 1)); ("23", (1, 2));
   ("31", (2, 0)); ("32", (2, 1)); ("33", (2, 2))]%string%nat.
(** try_load_direct_line_impedance 769-786 and _capacitance 788-805 (prefix z or c); comparing an array of
    more than one entry with None and testing the result is a ValueError *)
Definition direct_step (pre : string) (o : gobj) (acc : option matrix) (e : string * (nat * nat)) : pres (option matrix) :=
  let name := (pre ++ fst e)%string in
  if negb (py_hasattr o name) then Ok acc
  else match acc with
       | Some _ => Err ValueError
       | None => do t <- gget o name; do c <- cx t;
                 Ok (Some (set_entry (zeros 3) (fst (snd e)) (snd (snd e)) (Some c)))
       end.
Definition load_direct (pre : string) (o : gobj) : pres (option matrix) :=
  mfold (direct_step pre o) direct_lookup None.
(** convert_Z_matrix_per_mile_to_per_meter, read.py:213-216 *)
Definition per_meter (m : matrix) : matrix := scale (/ (1609344 / 1000)) m.
End Lines.
