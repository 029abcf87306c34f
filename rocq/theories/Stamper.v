(** Model of src/logic/stamping/matrixstamper.py: InputBuilder, StampSet, ResidualSet, MatrixStamper.
    Values are of an abstract type [T] with [zero] (np.zeros) and [nan] (what assigning None to a
    float array stores).  [K], [P], [RK] are the types of the three dictionary keys
    (expression key, parameters key, residual key). *)
From Coq Require Import List Bool Arith ZArith.
Import ListNotations.

Section Stamper.
Context {T K P RK M : Type}.
Variable zero nan : T.
Variable keqb : K -> K -> bool.
Variable peqb : P -> P -> bool.
Variable rkeqb : RK -> RK -> bool.

(** StampInput, matrixstamper.py:13-26.  Its string key is the text of the three lists; two inputs have the
    same key when the texts agree, modelled by [ieqb] below. *)
Record input := { in_consts : list T; in_primals : list (option nat); in_duals : list (option nat) }.
Variable ieqb : input -> input -> bool.

(** StampExpression, lines 36-69 (x_isJ: yth_variable == None) *)
Record expression := {
  x_key : K; x_pkey : P; x_nparams : nat; x_tx : option nat; x_linear : bool; x_isJ : bool;
  x_eval : list T -> T }.

(** StampInstance, lines 74-87 (the column is ignored for J entries) *)
Record stamp := { s_x : expression; s_in : input; s_row : nat; s_col : nat }.

(** ResidualInstance, lines 89-107, with the parameters of its segment (lsegment.parameters_key,
    len(parameters), tx_factor_index), which this code does not look at *)
Record resid := { r_key : RK; r_eval : list T -> T; r_row : nat; r_in : input;
                  r_pkey : P; r_nparams : nat; r_tx : option nat }.

(** StampCollection, lines 109-120 *)
Record coll := { c_model : M; c_stamps : list stamp; c_resids : list resid }.

(** insertion ordered dictionaries *)
Section Dict.
Context {A B : Type}.
Variable eqb : A -> A -> bool.
Fixpoint dget (d : list (A * B)) (k : A) : option B :=
  match d with [] => None | (k', b) :: r => if eqb k k' then Some b else dget r k end.
Fixpoint dset (d : list (A * B)) (k : A) (b : B) : list (A * B) :=
  match d with
  | [] => [(k, b)]
  | (k', b') :: r => if eqb k k' then (k', b) :: r else (k', b') :: dset r k b
  end.
End Dict.

(** InputBuilder before freezing, lines 246-266 *)
Record ibuilder := { ib_nargs : nat; ib_tx : option nat; ib_inputs : list input }.

Fixpoint find_input (l : list input) (i : input) : option nat :=
  match l with
  | [] => None
  | x :: r => if ieqb i x then Some 0 else option_map S (find_input r i)
  end.

(** add_input, lines 268-273 *)
Definition add_input (b : ibuilder) (i : input) : ibuilder * nat :=
  match find_input (ib_inputs b) i with
  | Some n => (b, n)
  | None => ({| ib_nargs := ib_nargs b; ib_tx := ib_tx b; ib_inputs := ib_inputs b ++ [i] |}, length (ib_inputs b))
  end.

(** StampSet, lines 326-341; the builder object is referred to by its key *)
Record stampset := { ss_x : expression; ss_builder : P; ss_items : list (nat * nat * nat) }.
(** ResidualSet, lines 357-367 *)
Record residset := { rs_eval : list T -> T; rs_builder : P; rs_items : list (M * nat * nat) }.

Inductive serror := NameError | KeyError | LengthMismatch.
Inductive sresult (A : Type) := SOk (a : A) | SErr (e : serror).
Arguments SOk {A}. Arguments SErr {A}.

Record building := {
  bd_builders : list (P * ibuilder);
  bd_sets : list (K * stampset);
  bd_rsets : list (RK * residset);
  bd_last : option P  (* the variable [stamp] left over from the last inner loop, read at line 414 *) }.

(** body of the loop over stamps, lines 398-405 *)
Definition add_stamp (bd : building) (s : stamp) : sresult building :=
  let x := s_x s in
  let bs := match dget peqb (bd_builders bd) (x_pkey x) with
            | Some _ => bd_builders bd
            | None => bd_builders bd ++ [(x_pkey x, {| ib_nargs := x_nparams x; ib_tx := x_tx x; ib_inputs := [] |})]
            end in
  let ss := match dget keqb (bd_sets bd) (x_key x) with
            | Some _ => bd_sets bd
            | None => bd_sets bd ++ [(x_key x, {| ss_x := x; ss_builder := x_pkey x; ss_items := [] |})]
            end in
  match dget keqb ss (x_key x) with
  | None => SErr KeyError
  | Some set =>
      match dget peqb bs (ss_builder set) with
      | None => SErr KeyError
      | Some b =>
          let (b', o) := add_input b (s_in s) in
          SOk {| bd_builders := dset peqb bs (ss_builder set) b';
                 bd_sets := dset keqb ss (x_key x)
                   {| ss_x := ss_x set; ss_builder := ss_builder set; ss_items := ss_items set ++ [(s_row s, s_col s, o)] |};
                 bd_rsets := bd_rsets bd;
                 bd_last := Some (x_pkey x) |}
      end
  end.

(** body of the loop over residuals, lines 407-417 *)
Definition add_resid (m : M) (bd : building) (r : resid) : sresult building :=
  let rs' := match dget rkeqb (bd_rsets bd) (r_key r) with
             | Some _ => SOk (bd_rsets bd)
             | None => match bd_last bd with
                       | None => SErr NameError
                       | Some p => match dget peqb (bd_builders bd) p with
                                   | None => SErr KeyError
                                   | Some _ => SOk (bd_rsets bd ++ [(r_key r, {| rs_eval := r_eval r; rs_builder := p; rs_items := [] |})])
                                   end
                       end
             end in
  match rs' with
  | SErr e => SErr e
  | SOk rs =>
      match dget rkeqb rs (r_key r) with
      | None => SErr KeyError
      | Some set =>
          match dget peqb (bd_builders bd) (rs_builder set) with
          | None => SErr KeyError
          | Some b =>
              let (b', o) := add_input b (r_in r) in
              SOk {| bd_builders := dset peqb (bd_builders bd) (rs_builder set) b';
                     bd_sets := bd_sets bd;
                     bd_rsets := dset rkeqb rs (r_key r)
                       {| rs_eval := rs_eval set; rs_builder := rs_builder set; rs_items := rs_items set ++ [(m, r_row r, o)] |};
                     bd_last := bd_last bd |}
          end
      end
  end.

Fixpoint fold_res {A B} (f : A -> B -> sresult A) (l : list B) (a : A) : sresult A :=
  match l with
  | [] => SOk a
  | x :: r => match f a x with SOk a' => fold_res f r a' | SErr e => SErr e end
  end.

Definition add_coll (bd : building) (c : coll) : sresult building :=
  match fold_res add_stamp (c_stamps c) bd with
  | SOk bd' => fold_res (add_resid (c_model c)) (c_resids c) bd'
  | SErr e => SErr e
  end.

(** Frozen InputBuilder.  The code stores args[argument][instance]; here the same table is stored
    instance by instance ([fb_args] : list of rows, one per instance). *)
Record fbuilder := { fb_tx : option nat; fb_args : list (list T); fb_fills : list (nat * nat * nat); fb_iter : Z }.

(** freeze_inputs, lines 275-307, for one input *)
Definition freeze_row (opt : bool) (i : input) : list T :=
  in_consts i ++ map (fun _ => zero) (in_primals i)
  ++ map (fun d => match d with None => zero | Some _ => if opt then zero else nan end) (in_duals i).

(** fills of a list of indexes starting at argument [a] of instance [j] *)
Fixpoint fills_from (l : list (option nat)) (a j : nat) : list (nat * nat * nat) :=
  match l with
  | [] => []
  | None :: r => fills_from r (S a) j
  | Some v :: r => (a, j, v) :: fills_from r (S a) j
  end.

Definition row_fills (opt : bool) (i : input) (j : nat) : list (nat * nat * nat) :=
  fills_from (in_primals i) (length (in_consts i)) j
  ++ (if opt then fills_from (in_duals i) (length (in_consts i) + length (in_primals i)) j else []).

Fixpoint all_fills (opt : bool) (l : list input) (j : nat) : list (nat * nat * nat) :=
  match l with [] => [] | i :: r => row_fills opt i j ++ all_fills opt r (S j) end.

Definition input_len (i : input) : nat := length (in_consts i) + length (in_primals i) + length (in_duals i).

Definition freeze (opt : bool) (b : ibuilder) : sresult fbuilder :=
  if forallb (fun i => input_len i =? ib_nargs b) (ib_inputs b) then
    SOk {| fb_tx := ib_tx b; fb_args := map (freeze_row opt) (ib_inputs b);
           fb_fills := all_fills opt (ib_inputs b) 0; fb_iter := (-1)%Z |}
  else SErr LengthMismatch.

Fixpoint set_at {A} (l : list A) (n : nat) (x : A) : list A :=
  match l, n with
  | [], _ => []
  | _ :: r, O => x :: r
  | y :: r, S n => y :: set_at r n x
  end.

Definition set2 (m : list (list T)) (j a : nat) (x : T) : list (list T) :=
  match nth_error m j with
  | Some row => set_at m j (set_at row a x)
  | None => m
  end.

(** update_vprev, lines 309-316 *)
Definition update_vprev (b : fbuilder) (v : nat -> T) (k : Z) : fbuilder :=
  if Z.eqb k (fb_iter b) then b
  else {| fb_tx := fb_tx b;
          fb_args := fold_left (fun m f => set2 m (snd (fst f)) (fst (fst f)) (v (snd f))) (fb_fills b) (fb_args b);
          fb_fills := fb_fills b; fb_iter := k |}.

(** update_txfactor, lines 318-320 *)
Definition update_tx (b : fbuilder) (tx : T) : fbuilder :=
  match fb_tx b with
  | None => b
  | Some n => {| fb_tx := fb_tx b; fb_args := map (fun row => set_at row n tx) (fb_args b);
                 fb_fills := fb_fills b; fb_iter := fb_iter b |}
  end.

(** MatrixStamper, lines 379-435 *)
Record mstamper := {
  ms_builders : list (P * fbuilder);
  ms_linear : list stampset;
  ms_nonlinear : list stampset;
  ms_rsets : list residset }.

Fixpoint freeze_all (opt : bool) (l : list (P * ibuilder)) : sresult (list (P * fbuilder)) :=
  match l with
  | [] => SOk []
  | (p, b) :: r => match freeze opt b with
                   | SErr e => SErr e
                   | SOk fb => match freeze_all opt r with SErr e => SErr e | SOk fr => SOk ((p, fb) :: fr) end
                   end
  end.

Definition build_stamper (opt : bool) (cs : list coll) : sresult mstamper :=
  match fold_res add_coll cs {| bd_builders := []; bd_sets := []; bd_rsets := []; bd_last := None |} with
  | SErr e => SErr e
  | SOk bd =>
      match freeze_all opt (bd_builders bd) with
      | SErr e => SErr e
      | SOk fbs =>
          SOk {| ms_builders := fbs;
                 ms_linear := filter (fun s => x_linear (ss_x s)) (map snd (bd_sets bd));
                 ms_nonlinear := filter (fun s => negb (x_linear (ss_x s))) (map snd (bd_sets bd));
                 ms_rsets := map snd (bd_rsets bd) |}
      end
  end.

(** What a stamping pass does to Y and J, in order. *)
Inductive event := EvY (r c : nat) (x : T) | EvJ (r : nat) (x : T).

(** args of one instance, as seen by the vectorised evaluation *)
Definition args_of (bs : list (P * fbuilder)) (p : P) (o : nat) : list T :=
  match dget peqb bs p with Some b => nth o (fb_args b) [] | None => [] end.

(** StampSet.stamp, lines 343-355 *)
Definition emit_set (bs : list (P * fbuilder)) (s : stampset) : list event :=
  map (fun it : nat * nat * nat =>
         let x := x_eval (ss_x s) (args_of bs (ss_builder s) (snd it)) in
         if x_isJ (ss_x s) then EvJ (fst (fst it)) x else EvY (fst (fst it)) (snd (fst it)) x)
      (ss_items s).

(** ResidualSet.calc_residuals, lines 369-377 *)
Definition emit_rset (bs : list (P * fbuilder)) (s : residset) : list (M * nat * T) :=
  map (fun it : M * nat * nat => (fst (fst it), snd (fst it), rs_eval s (args_of bs (rs_builder s) (snd it)))) (rs_items s).

Definition on_builders (f : fbuilder -> fbuilder) (ms : mstamper) : mstamper :=
  {| ms_builders := map (fun pb => (fst pb, f (snd pb))) (ms_builders ms);
     ms_linear := ms_linear ms; ms_nonlinear := ms_nonlinear ms; ms_rsets := ms_rsets ms |}.

(** stamp_linear, lines 437-442 *)
Definition stamp_linear (ms : mstamper) (tx : T) : mstamper * list event :=
  let ms' := on_builders (fun b => update_tx b tx) ms in
  (ms', flat_map (emit_set (ms_builders ms')) (ms_linear ms')).

(** stamp_nonlinear, lines 444-449 *)
Definition stamp_nonlinear (ms : mstamper) (v : nat -> T) (k : Z) : mstamper * list event :=
  let ms' := on_builders (fun b => update_vprev b v k) ms in
  (ms', flat_map (emit_set (ms_builders ms')) (ms_nonlinear ms')).

(** calc_residuals, lines 451-467 (the contributions given to ResidualDetails) *)
Definition calc_residuals (ms : mstamper) (tx : T) (v : nat -> T) (k : Z) : mstamper * list (M * nat * T) :=
  let ms' := on_builders (fun b => update_tx b tx) (on_builders (fun b => update_vprev b v k) ms) in
  (ms', flat_map (emit_rset (ms_builders ms')) (ms_rsets ms')).
End Stamper.
Arguments SOk {A}. Arguments SErr {A}.
