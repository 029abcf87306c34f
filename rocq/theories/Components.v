(** Model of the network elements: src/models/components/{load,line,shunt,capacitor,fuse,regulator,transformer,
    center_tap_transformer,generator,slack,voltagesource,switch}.py and src/models/optimization/*.py, together with
    build_two_terminal_stamp_details (src/logic/stamping/lagrangestampdetails.py:42-65).

    Conventions and simplifications:
    - numbers are exact reals; a division by zero in a constructor is [None] (python raises);
    - buses are represented by the matrix indexes they were given; [None] is SKIP (ground, or no multipliers);
    - assign_nodes and get_stamps are combined: given the next free index, a component yields its stampers
      (with constants, in the order of get_stamps) and the next free index afterwards;
    - names of the multipliers of equalities are lambda_0, ... as counted within one segment (the code uses
      one global counter, the numbers differ but are only used inside the segment). *)
From Coq Require Import String List Bool Arith ZArith Reals.
From Verif Require Import Expr Segment Collect SpecSystem.
Import ListNotations.
Local Open Scope string_scope.
Local Open Scope list_scope.

(** the matrix indexes of a bus, bus.py:32-36, 76-85 *)
Record nodes := { n_Vr : option nat; n_Vi : option nat; n_Lr : option nat; n_Li : option nat }.
(** GROUND, bus.py:90-94 *)
Definition GROUND : nodes := {| n_Vr := None; n_Vi := None; n_Lr := None; n_Li := None |}.

(** the segment of a two-terminal definition (accepted ones only, see [tt_segment]) *)
Definition seg_of (t : two_terminal) : segment :=
  {| sg_lagrange := tt_lagrange t; sg_constants := tt_constants t; sg_primals := tt_variables t;
     sg_duals := [Lr_from; Li_from; Lr_to; Li_to] ++ map fst (tt_equalities t) |}.
Definition terminals : list sym := [Vr_from; Vi_from; Vr_to; Vi_to].

(** *** segments *)
Definition dVr : expr := Sub (Sym Vr_from) (Sym Vr_to).
Definition dVi : expr := Sub (Sym Vi_from) (Sym Vi_to).
Definition two (vars consts : list sym) (kr ki : expr) (eqs : list (sym * expr)) : two_terminal :=
  {| tt_variables := vars; tt_constants := consts; tt_kcl_r_from := kr; tt_kcl_i_from := ki; tt_kcl_to := None;
     tt_equalities := eqs; tt_objective := None |}.

(** load.py:17-26 *)
Definition tt_pq : two_terminal :=
  two terminals ["P"; "Q"]
    (Div (Add (Mul (Sym "P") dVr) (Mul (Sym "Q") dVi)) (Add (Pow dVr 2) (Pow dVi 2)))
    (Div (Sub (Mul (Sym "P") dVi) (Mul (Sym "Q") dVr)) (Add (Pow dVr 2) (Pow dVi 2))) [].
Definition lh_pq := seg_of tt_pq.
(** load.py:29-34 *)
Definition tt_Ic : two_terminal := two terminals ["IP"; "IQ"] (Sym "IP") (Sym "IQ") [].
Definition lh_Ic := seg_of tt_Ic.

(** line.py:17-23 and 30-36 *)
Definition branch_kcl_r (G B : expr) : expr :=
  Add (Sub (Sub (Mul G (Sym Vr_from)) (Mul G (Sym Vr_to))) (Mul B (Sym Vi_from))) (Mul B (Sym Vi_to)).
Definition branch_kcl_i (G B : expr) : expr :=
  Sub (Add (Sub (Mul G (Sym Vi_from)) (Mul G (Sym Vi_to))) (Mul B (Sym Vr_from))) (Mul B (Sym Vr_to)).
Definition TX_LARGE_G : Z := 20.
Definition TX_LARGE_B : Z := 20.
Definition line_G : expr := Add (Sym "G") (Mul (Mul (Const TX_LARGE_G) (Sym "G")) (Sym tx_factor)).
Definition line_B : expr := Add (Sym "B") (Mul (Mul (Const TX_LARGE_B) (Sym "B")) (Sym tx_factor)).
Definition tt_line : two_terminal := two terminals ["G"; "B"; tx_factor] (branch_kcl_r line_G line_B) (branch_kcl_i line_G line_B) [].
Definition line_lh := seg_of tt_line.
Definition shunt_G : expr := Mul (Sym "G") (Sub (Const 1) (Sym tx_factor)).
Definition shunt_B : expr := Mul (Sym "B") (Sub (Const 1) (Sym tx_factor)).
Definition tt_shunt : two_terminal := two terminals ["G"; "B"; tx_factor] (branch_kcl_r shunt_G shunt_B) (branch_kcl_i shunt_G shunt_B) [].
Definition shunt_lh := seg_of tt_shunt.

(** generator.py:9-20 *)
Definition tt_gen : two_terminal :=
  two (terminals ++ ["Q"]) ["P"; "V_set"]
    (Div (Add (Mul (Sym "P") dVr) (Mul (Sym "Q") dVi)) (Add (Pow dVr 2) (Pow dVi 2)))
    (Div (Sub (Mul (Sym "P") dVi) (Mul (Sym "Q") dVr)) (Add (Pow dVr 2) (Pow dVi 2)))
    [("lambda_0", Sub (Sub (Pow (Sym "V_set") 2) (Pow dVr 2)) (Pow dVi 2))].
Definition gen_lh := seg_of tt_gen.
(** slack.py:9-22 *)
Definition tt_slack : two_terminal :=
  two (terminals ++ ["I_Sr"; "I_Si"]) ["Vrset"; "Viset"] (Sym "I_Sr") (Sym "I_Si")
    [("lambda_0", Sub dVr (Sym "Vrset")); ("lambda_1", Sub dVi (Sym "Viset"))].
Definition slack_lh := seg_of tt_slack.
(** voltagesource.py:8-20 *)
Definition tt_vs : two_terminal :=
  two (terminals ++ ["Ir"; "Ii"]) ["Vr_set"; "Vi_set"] (Sym "Ir") (Sym "Ii")
    [("lambda_0", Sub (Sym "Vr_set") dVr); ("lambda_1", Sub (Sym "Vi_set") dVi)].
Definition vs_lh := seg_of tt_vs.

(** np.dot(duals, eqns) *)
Fixpoint edot (ds : list sym) (es : list expr) : expr :=
  match ds, es with
  | d :: ds, e :: es => Add (Mul (Sym d) e) (edot ds es)
  | _, _ => Const 0
  end.

(** transformer.py:12-52 *)
Definition xf_primals := ["Vr_pri_pos"; "Vi_pri_pos"; "Vr_pri_neg"; "Vi_pri_neg"; "Ir_prim"; "Ii_prim"; "Vr_sec_pos"; "Vi_sec_pos"; "Vr_sec_neg"; "Vi_sec_neg"].
Definition xf_duals := ["Lr_pri_pos"; "Li_pri_pos"; "Lr_pri_neg"; "Li_pri_neg"; "Lir_prim"; "Lii_prim"; "Lr_sec_pos"; "Li_sec_pos"; "Lr_sec_neg"; "Li_sec_neg"].
Definition scaled_tr : expr := Add (Sym "tr") (Mul (Sub (Const 1) (Sym "tr")) (Sym tx_factor)).
Definition scaled_angle : expr := Sub (Sym "ang") (Mul (Sym "ang") (Sym tx_factor)).
Definition scaled_trcos : expr := Mul scaled_tr (Cos scaled_angle).
Definition scaled_trsin : expr := Mul scaled_tr (Sin scaled_angle).
Definition sec_current_r : expr := Sub (Mul (Neg scaled_trcos) (Sym "Ir_prim")) (Mul scaled_trsin (Sym "Ii_prim")).
Definition sec_current_i : expr := Add (Mul (Neg scaled_trcos) (Sym "Ii_prim")) (Mul scaled_trsin (Sym "Ir_prim")).
Definition xf_Vr_pri : expr := Sub (Sym "Vr_pri_pos") (Sym "Vr_pri_neg").
Definition xf_Vi_pri : expr := Sub (Sym "Vi_pri_pos") (Sym "Vi_pri_neg").
Definition xf_Vr_sec : expr := Sub (Sym "Vr_sec_pos") (Sym "Vr_sec_neg").
Definition xf_Vi_sec : expr := Sub (Sym "Vi_sec_pos") (Sym "Vi_sec_neg").
Definition xf_eqns : list expr :=
  [ Sym "Ir_prim"; Sym "Ii_prim"; Neg (Sym "Ir_prim"); Neg (Sym "Ii_prim");
    Add (Sub xf_Vr_pri (Mul scaled_trcos xf_Vr_sec)) (Mul scaled_trsin xf_Vi_sec);
    Sub (Sub xf_Vi_pri (Mul scaled_trcos xf_Vi_sec)) (Mul scaled_trsin xf_Vr_sec);
    sec_current_r; sec_current_i; Neg sec_current_r; Neg sec_current_i ].
Definition xfrmr_lh : segment :=
  {| sg_lagrange := edot xf_duals xf_eqns; sg_constants := ["tr"; "ang"; tx_factor]; sg_primals := xf_primals; sg_duals := xf_duals |}.

(** center_tap_transformer.py:10-38 *)
Definition ct_primals := ["Vr_pri"; "Vi_pri"; "Ir_L1"; "Ii_L1"; "Vr_L1"; "Vi_L1"; "Ir_L2"; "Ii_L2"; "Vr_L2"; "Vi_L2"].
Definition ct_duals := ["Lr_pri"; "Li_pri"; "Lir_L1"; "Lii_L1"; "Lr_L1"; "Li_L1"; "Lir_L2"; "Lii_L2"; "Lr_L2"; "Li_L2"].
Definition ct_inv : expr := Div (Const 1) scaled_tr.
Definition ct_eqns : list expr :=
  [ Mul ct_inv (Add (Neg (Sym "Ir_L1")) (Sym "Ir_L2")); Mul ct_inv (Add (Neg (Sym "Ii_L1")) (Sym "Ii_L2"));
    Sub (Sym "Vr_L1") (Mul ct_inv (Sym "Vr_pri")); Sub (Sym "Vi_L1") (Mul ct_inv (Sym "Vi_pri"));
    Sym "Ir_L1"; Sym "Ii_L1";
    Add (Sym "Vr_L2") (Mul ct_inv (Sym "Vr_pri")); Add (Sym "Vi_L2") (Mul ct_inv (Sym "Vi_pri"));
    Sym "Ir_L2"; Sym "Ii_L2" ].
Definition center_tap_lh : segment :=
  {| sg_lagrange := edot ct_duals ct_eqns; sg_constants := ["tr"; tx_factor]; sg_primals := ct_primals; sg_duals := ct_duals |}.

(** L2infeasibility.py:34-40 *)
Definition l2_lh : segment :=
  {| sg_lagrange := Add (Add (Add (Pow (Sym "Iir") 2) (Pow (Sym "Iii") 2)) (Mul (Sym "Iir") (Sym "lambda_Vr"))) (Mul (Sym "Iii") (Sym "lambda_Vi"));
     sg_constants := []; sg_primals := ["Iir"; "Iii"]; sg_duals := ["lambda_Vr"; "lambda_Vi"] |}.
(** L1infeasibility.py:34-44 *)
Definition l1_lh : segment :=
  {| sg_lagrange :=
       Add (Add (Add (Add
        (Sub (Sub (Add (Add (Add (Sym "Iir_plus") (Sym "Iii_plus")) (Sym "Iir_minus")) (Sym "Iii_minus"))
                  (Mul (Sym "lambda_Vr") (Sub (Sym "Iir_plus") (Sym "Iir_minus"))))
             (Mul (Sym "lambda_Vi") (Sub (Sym "Iii_plus") (Sym "Iii_minus"))))
        (Mul (Sym "mu_Vr_plus") (Sym "Iir_plus"))) (Mul (Sym "mu_Vr_minus") (Sym "Iir_minus")))
        (Mul (Sym "mu_Vi_plus") (Sym "Iii_plus"))) (Mul (Sym "mu_Vi_minus") (Sym "Iii_minus"));
     sg_constants := [];
     sg_primals := ["Vr"; "Vi"; "Iir_plus"; "Iii_plus"; "Iir_minus"; "Iii_minus"];
     sg_duals := ["lambda_Vr"; "lambda_Vi"; "mu_Vr_plus"; "mu_Vi_plus"; "mu_Vr_minus"; "mu_Vi_minus"] |}.

(** *** index maps *)
(** the loops of lagrangestampdetails.py:54-63: names without an index get the next one, or SKIP *)
Definition fresh_or_skip (fresh : bool) (names : list sym) (m : list (sym * option nat)) (n : nat) : list (sym * option nat) * nat :=
  fold_left (fun (acc : list (sym * option nat) * nat) x =>
      let (m, n) := acc in
      match lookup m x with
      | Some _ => acc
      | None => if fresh then (m ++ [(x, Some n)], S n) else (m ++ [(x, None)], n)
      end) names (m, n).
Definition bus_map (f t : nodes) : list (sym * option nat) :=
  [ (Vr_from, n_Vr f); (Vi_from, n_Vi f); (Lr_from, n_Lr f); (Li_from, n_Li f);
    (Vr_to, n_Vr t); (Vi_to, n_Vi t); (Lr_to, n_Lr t); (Li_to, n_Li t) ].
(** build_two_terminal_stamp_details, lagrangestampdetails.py:42-65 *)
Definition two_terminal_details (s : segment) (f t : nodes) (n : nat) (opt : bool) : details * nat :=
  let (m1, n1) := fresh_or_skip true (sg_primals s) (bus_map f t) n in
  let (m2, n2) := fresh_or_skip opt (sg_duals s) m1 n1 in
  ({| sd_seg := s; sd_var := m2; sd_eqn := None; sd_opt := opt |}, n2).
(** build_line_stamper, line.py:57-82 (the dictionary is filled in another order, which does not matter) *)
Definition line_details (f t : nodes) (opt is_shunt : bool) : details :=
  {| sd_seg := if is_shunt then shunt_lh else line_lh; sd_var := bus_map f t; sd_eqn := None; sd_opt := opt |}.

Local Open Scope R_scope.
Definition stamper := (option details * list R)%type.
Definition present (l : list stamper) : list element :=
  flat_map (fun x => match fst x with Some d => [(d, snd x)] | None => [] end) l.

(** conductance and susceptance of r + jx, e.g. load.py:100-104, line.py:105-106 *)
Definition series_G (r x : R) : R := r / (r * r + x * x).
Definition series_B (r x : R) : R := - x / (r * r + x * x).

(** *** Load, load.py:52-133 *)
Record load := { ld_P : R; ld_Q : R; ld_Zr : R; ld_Zi : R; ld_IP : R; ld_IQ : R }.
Definition is0 (x : R) : bool := if Req_EM_T x 0 then true else false.
Definition both0 (x y : R) : bool := (is0 x && is0 y)%bool.
Definition ld_G (l : load) : R := if both0 (ld_Zr l) (ld_Zi l) then 0 else series_G (ld_Zr l) (ld_Zi l).
Definition ld_B (l : load) : R := if both0 (ld_Zr l) (ld_Zi l) then 0 else series_B (ld_Zr l) (ld_Zi l).
(** assign_nodes 109-123, get_stamps 125-130 *)
Definition load_stampers (l : load) (f t : nodes) (n : nat) (opt : bool) : list stamper * nat :=
  let (pq, n1) := if both0 (ld_P l) (ld_Q l) then (None, n)
                  else let (d, n') := two_terminal_details lh_pq f t n opt in (Some d, n') in
  let (ic, n2) := if both0 (ld_IP l) (ld_IQ l) then (None, n1)
                  else let (d, n') := two_terminal_details lh_Ic f t n1 opt in (Some d, n') in
  let z := if both0 (ld_Zr l) (ld_Zi l) then None else Some (line_details f t opt true) in
  ([(pq, [ld_P l; ld_Q l]); (ic, [ld_IP l; ld_IQ l]); (z, [ld_G l; ld_B l; 0])], n2).

(** *** Line, line.py:84-143 *)
Record line := { ln_G : R; ln_B : R; ln_Bsh : R }.
Definition new_line (r x b : R) : option line :=
  if both0 r x then None else Some {| ln_G := series_G r x; ln_B := series_B r x; ln_Bsh := b / 2 |}.
Definition line_stampers (l : line) (f t : nodes) (opt : bool) : list stamper :=
  [ (Some (line_details f t opt false), [ln_G l; ln_B l; 0]);
    (Some (line_details f GROUND opt true), [0; ln_Bsh l; 0]);
    (Some (line_details t GROUND opt true), [0; ln_Bsh l; 0]) ].

(** *** Shunt, shunt.py:45-60 *)
Definition shunt_stampers (G_MW B_MVAR : R) (b : nodes) (opt : bool) : list stamper :=
  [ (Some (line_details b GROUND opt true), [G_MW / 100; B_MVAR / 100; 0]) ].

(** *** Capacitor, capacitor.py:18-40; [None] when the nominal voltage is 0 *)
Definition capacitor_stampers (var vnom : R) (closed : bool) (f t : nodes) (opt : bool) : option (list stamper) :=
  if is0 vnom then None
  else Some (if closed then [ (Some (line_details f t opt true), [0; var / (vnom * vnom); 0]) ] else []).

(** *** VoltageSource and CurrentSensor, voltagesource.py:22-44 *)
Definition vs_stampers (vr vi : R) (f t : nodes) (n : nat) (opt : bool) : list stamper * nat :=
  let (d, n') := two_terminal_details vs_lh f t n opt in ([(Some d, [vr; vi])], n').

(** *** Switch, switch.py:8-40 *)
Definition switch_stampers (closed : bool) (f t : nodes) (n : nat) (opt : bool) : list stamper * nat :=
  if closed then vs_stampers 0 0 f t n opt else ([], n).

(** *** Fuse, fuse.py:12-47 (good fuses; a blown one raises, see Devices.v) *)
Definition fuse_stampers (f t interior : nodes) (n : nat) (opt : bool) : list stamper * nat :=
  let (s, n') := vs_stampers 0 0 interior t n opt in
  ((Some (line_details f interior opt false), [10000; 10000; 0]) :: s, n').

(** *** Generator, generator.py:22-70; the constructor negates P, the unknown Q is the power drawn *)
Definition gen_stampers (P Vset : R) (b : nodes) (n : nat) (opt : bool) : list stamper * nat :=
  let (d, n') := two_terminal_details gen_lh b GROUND n opt in ([(Some d, [- P; Vset])], n').
(** get_Q_index, generator.py:75-76 *)
Definition gen_Q_index (b : nodes) (n : nat) (opt : bool) : option (option nat) :=
  lookup (sd_var (fst (two_terminal_details gen_lh b GROUND n opt))) "Q".

(** *** Slack, slack.py:24-66 *)
Definition slack_stampers (Vset ang : R) (b : nodes) (n : nat) (opt : bool) : list stamper * nat :=
  let (d, n') := two_terminal_details slack_lh b GROUND n opt in
  ([(Some d, [Vset * cos ang; Vset * sin ang])], n').

(** *** Transformer, transformer.py:54-162 *)
Record transformer := { xf_tr : R; xf_ang : R (* radians *); xf_G : R; xf_B : R }.
Definition new_transformer (r x tr ang_deg : R) : option transformer :=
  if both0 r x then None
  else Some {| xf_tr := tr; xf_ang := ang_deg * PI / 180; xf_G := series_G r x; xf_B := series_B r x |}.
(** indexes taken at 85-99 *)
Definition xf_current (n : nat) (opt : bool) : nodes :=
  {| n_Vr := Some n; n_Vi := Some (S n);
     n_Lr := if opt then Some (n + 4)%nat else None; n_Li := if opt then Some (n + 5)%nat else None |}.
Definition xf_secondary (n : nat) (opt : bool) : nodes :=
  {| n_Vr := Some (n + 2)%nat; n_Vi := Some (n + 3)%nat;
     n_Lr := if opt then Some (n + 6)%nat else None; n_Li := if opt then Some (n + 7)%nat else None |}.
Definition xf_map (fp fn tn i s : nodes) : list (sym * option nat) :=
  [ ("Vr_pri_pos", n_Vr fp); ("Vi_pri_pos", n_Vi fp); ("Vr_pri_neg", n_Vr fn); ("Vi_pri_neg", n_Vi fn);
    ("Ir_prim", n_Vr i); ("Ii_prim", n_Vi i); ("Vr_sec_pos", n_Vr s); ("Vi_sec_pos", n_Vi s);
    ("Vr_sec_neg", n_Vr tn); ("Vi_sec_neg", n_Vi tn);
    ("Lr_pri_pos", n_Lr fp); ("Li_pri_pos", n_Li fp); ("Lr_pri_neg", n_Lr fn); ("Li_pri_neg", n_Li fn);
    ("Lir_prim", n_Lr i); ("Lii_prim", n_Li i); ("Lr_sec_pos", n_Lr s); ("Li_sec_pos", n_Li s);
    ("Lr_sec_neg", n_Lr tn); ("Li_sec_neg", n_Li tn) ].
(** the shunt stamper built at 145-150 is never used, 152-158 *)
Definition xf_stampers (x : transformer) (fp fn tp tn : nodes) (n : nat) (opt : bool) : list stamper * nat :=
  let i := xf_current n opt in
  let s := xf_secondary n opt in
  ([ (Some {| sd_seg := xfrmr_lh; sd_var := xf_map fp fn tn i s; sd_eqn := None; sd_opt := opt |}, [xf_tr x; xf_ang x; 0]);
     (Some (line_details s tp opt false), [xf_G x; xf_B x; 0]) ],
   (n + if opt then 8 else 4)%nat).

(** *** Regulator, regulator.py:52-71, 119-125: transformer to the current node, then a current sensor.
    The transformer has r = 1e-4, x = 0 and the ratio of the tap position (Devices.v). *)
Definition reg_stampers (ratio : R) (f t cur : nodes) (n : nat) (opt : bool) : list stamper * nat :=
  let (s1, n1) := xf_stampers {| xf_tr := ratio; xf_ang := 0; xf_G := series_G (1 / 10000) 0; xf_B := series_B (1 / 10000) 0 |} f GROUND cur GROUND n opt in
  let (s2, n2) := vs_stampers 0 0 cur t n1 opt in
  (s1 ++ s2, n2).

(** *** CenterTapTransformer, center_tap_transformer.py:58-153 *)
(** winding impedances out of per-unit, 76-92: a zero impedance gives admittance 0 *)
Definition coil_r (res vnom rating : R) : R := res * (vnom * vnom) / rating.
Definition coil_G (r x : R) : R := if both0 r x then 0 else series_G r x.
Definition coil_B (r x : R) : R := if both0 r x then 0 else series_B r x.
Record center_tap := { ct_ratio : R; ct_g0 : R; ct_b0 : R; ct_g1 : R; ct_b1 : R; ct_g2 : R; ct_b2 : R }.
Definition new_center_tap (ratio rating : R) (res rea vnom : nat -> R) : option center_tap :=
  if is0 rating then None
  else let r i := coil_r (res i) (vnom i) rating in let x i := coil_r (rea i) (vnom i) rating in
       Some {| ct_ratio := ratio; ct_g0 := coil_G (r 0%nat) (x 0%nat); ct_b0 := coil_B (r 0%nat) (x 0%nat);
               ct_g1 := coil_G (r 1%nat) (x 1%nat); ct_b1 := coil_B (r 1%nat) (x 1%nat);
               ct_g2 := coil_G (r 2%nat) (x 2%nat); ct_b2 := coil_B (r 2%nat) (x 2%nat) |}.
Definition ct_map (p l1 l2 i1 i2 : nodes) : list (sym * option nat) :=
  [ ("Vr_pri", n_Vr p); ("Vi_pri", n_Vi p); ("Ir_L1", n_Vr i1); ("Ii_L1", n_Vi i1); ("Ir_L2", n_Vr i2); ("Ii_L2", n_Vi i2);
    ("Vr_L1", n_Vr l1); ("Vi_L1", n_Vi l1); ("Vr_L2", n_Vr l2); ("Vi_L2", n_Vi l2);
    ("Lr_pri", n_Lr p); ("Li_pri", n_Li p); ("Lir_L1", n_Lr i1); ("Lii_L1", n_Li i1); ("Lir_L2", n_Lr i2); ("Lii_L2", n_Li i2);
    ("Lr_L1", n_Lr l1); ("Li_L1", n_Li l1); ("Lr_L2", n_Lr l2); ("Li_L2", n_Li l2) ].
Definition ct_current (j n : nat) (opt : bool) : nodes :=
  {| n_Vr := Some (n + 2 * j)%nat; n_Vi := Some (n + 2 * j + 1)%nat;
     n_Lr := if opt then Some (n + 4 + 2 * j)%nat else None; n_Li := if opt then Some (n + 4 + 2 * j + 1)%nat else None |}.
(** from, primary (interior), L1/L2 sending (interior) and terminal buses *)
Definition ct_stampers (c : center_tap) (from pri s1 t1 s2 t2 : nodes) (n : nat) (opt : bool) : list stamper * nat :=
  ([ (Some {| sd_seg := center_tap_lh; sd_var := ct_map pri s1 s2 (ct_current 0 n opt) (ct_current 1 n opt); sd_eqn := None; sd_opt := opt |}, [ct_ratio c; 0]);
     (Some (line_details from pri opt false), [ct_g0 c; ct_b0 c; 0]);
     (Some (line_details s1 t1 opt false), [ct_g1 c; ct_b1 c; 0]);
     (Some (line_details s2 t2 opt false), [ct_g2 c; ct_b2 c; 0]) ],
   (n + if opt then 8 else 4)%nat).

(** *** infeasibility currents, L2infeasibility.py:42-60 and L1infeasibility.py:46-77 (always with optimisation) *)
Definition l2_stampers (b : nodes) (n : nat) : list stamper * nat :=
  ([ (Some {| sd_seg := l2_lh;
              sd_var := [("Iir", Some n); ("Iii", Some (S n)); ("lambda_Vr", n_Lr b); ("lambda_Vi", n_Li b)];
              sd_eqn := None; sd_opt := true |}, []) ], (n + 2)%nat).
Definition l1_stampers (b : nodes) (n : nat) : list stamper * nat :=
  ([ (Some {| sd_seg := l1_lh;
              sd_var := [("Iir_plus", Some n); ("Iii_plus", Some (n + 1)%nat); ("Iir_minus", Some (n + 2)%nat); ("Iii_minus", Some (n + 3)%nat);
                         ("mu_Vr_plus", Some n); ("mu_Vi_plus", Some (n + 1)%nat); ("mu_Vr_minus", Some (n + 2)%nat); ("mu_Vi_minus", Some (n + 3)%nat);
                         ("lambda_Vr", n_Lr b); ("lambda_Vi", n_Li b); ("Vr", n_Vr b); ("Vi", n_Vi b)];
              sd_eqn := None; sd_opt := true |}, []) ], (n + 4)%nat).
