(** Model of parse_raw, src/logic/network/parsers/raw/parser.py:27-480, with the record classes of
    data_classes.py: from the tables of a RAW file to the elements of the network.
    The tables are the lists returned by the [get_*] methods of Data.py; reading
    the text is not modelled here.  Simplifications: names, areas, owners, ratings of lines and the 'all_case_data' and
    'search_case_data' copies that nothing reads are left out; floats are reals. *)
From Coq Require Import Reals ZArith List Bool.
From Verif Require Import Components RawTransformers.
Import ListNotations.
Local Open Scope R_scope.
Set Implicit Arguments.

(** *** Records, Data.py *)
Record raw_gen := { g_bus : Z; g_pg : R; g_qg : R; g_qt : R; g_qb : R; g_vs : R; g_stat : Z; g_wmod : Z; g_wpf : R }.
Record raw_ss := { ss_bus : Z; ss_modsw : Z; ss_stat : Z; ss_vhi : R; ss_vlo : R; ss_binit : R; ss_steps : list (Z * R) }.
Record raw_fs := { fs_bus : Z; fs_status : Z; fs_gl : R; fs_bl : R }.
Record raw_load := { rl_bus : Z; rl_status : Z; rl_pl : R; rl_ql : R; rl_ip : R; rl_iq : R; rl_yp : R; rl_yq : R }.
Record raw_branch := { br_i : Z; br_j : Z; br_r : R; br_x : R; br_b : R;
                       br_gi : R; br_bi : R; br_gj : R; br_bj : R; br_st : Z }.
Record raw_case := { rc_rev : Z; rc_sbase : R; rc_buses : list raw_bus; rc_gens : list raw_gen; rc_ss : list raw_ss;
                     rc_fs : list raw_fs; rc_loads : list raw_load; rc_branches : list raw_branch;
                     rc_x2 : list raw_x2; rc_x3 : list raw_x3 }.

(** *** Elements *)
(** Bus, bus.py:6-40: number, type and initial voltage in polar form (angle in radians) *)
Record obus := { ob_num : Z; ob_type : Z; ob_vm : R; ob_va : R }.
(** Slack, slack.py:26-50 *)
Record oslack := { sl_bus : Z; sl_vset : R; sl_ang : R; sl_pinit : R; sl_qinit : R }.
(** Generator, generator.py:25-62, which stores everything but the set point negated *)
Record ogen := { og_bus : Z; og_P : R; og_vset : R; og_qinit : R; og_qmax : R; og_qmin : R }.
Definition new_generator (bus : Z) (P vset qmax qmin qinit : R) : ogen :=
  {| og_bus := bus; og_P := - P; og_vset := vset; og_qinit := - qinit; og_qmax := - qmax; og_qmin := - qmin |}.
(** Shunt, shunt.py:45-49 *)
Record oshunt := { os_bus : Z; os_G : R; os_B : R }.
Definition new_shunt (bus : Z) (g_mw b_mvar : R) : oshunt := {| os_bus := bus; os_G := g_mw / 100; os_B := b_mvar / 100 |}.
Record onet := { n_buses : list obus; n_slack : list oslack; n_gens : list ogen; n_loads : list (Z * load);
                 n_shunts : list oshunt; n_lines : list (Z * Z * line); n_xfmrs : list xfmr }.

Definition memz (n : Z) (l : list Z) : bool := existsb (Z.eqb n) l.

(** almostEqual, parser.py:27-28 *)
Definition almost_equal (a b : R) : bool := rltb (Rabs (b - a)) (1 / 1000000).

(** compute_bmin_bmax, parser.py:31-50: the loop stops at the first empty block *)
Fixpoint bmin_bmax_loop (bmin bmax : R) (blocks : list R) : R * R :=
  match blocks with
  | [] => (bmin, bmax)
  | b :: rest =>
      if rltb 0 b then bmin_bmax_loop bmin (bmax + b) rest
      else if rltb b 0 then bmin_bmax_loop (bmin + b) bmax rest
      else (bmin, bmax)
  end.
Definition compute_bmin_bmax (steps : list (Z * R)) : R * R :=
  bmin_bmax_loop 0 0 (map (fun s => IZR (fst s) * snd s) steps).

(** *** Generator_data.__init__, data_classes.py:167-220 *)
Definition np_sign (x : R) : R := if rltb x 0 then -1 else if rltb 0 x then 1 else 0.
(** math.sqrt(math.pow(pg / wpf, 2) - math.pow(pg, 2)) *)
Definition wind_q (pg wpf : R) : pres R :=
  do a <- pdiv pg wpf; psqrt (a * a - pg * pg).
(** reactive limits and output after the constructor; with wmod 2 the computed limit goes to the
    attributes qT and qB, which nothing reads, 203-207 *)
Record gen_q := { q_qt : R; q_qb : R; q_qg : R }.
Definition gen_data (pg qg qt qb wpf : R) (wmod : Z) : pres gen_q :=
  do lim <- (if Z.eqb wmod 2 then do _q <- wind_q pg wpf; Ok (qt, qb)
             else if Z.eqb wmod 3 then
               do q <- wind_q pg wpf;
               let s := if rltb 0 wpf then np_sign pg * q else - np_sign pg * q in Ok (s, s)
             else Ok (qt, qb));
  let (t, b) := lim in
  Ok {| q_qt := t; q_qb := b; q_qg := if rltb (Rabs (t - b)) (1 / 1000000) then t else qg |}.
Definition gen_data_of (g : raw_gen) : pres gen_q :=
  gen_data (g_pg g) (g_qg g) (g_qt g) (g_qb g) (g_wpf g) (g_wmod g).

(** Load(bus, GROUND, P, Q, 0, IP, IQ) *)
Definition new_load (P Q IP IQ : R) : load := {| ld_P := P; ld_Q := Q; ld_Zr := 0; ld_Zi := 0; ld_IP := IP; ld_IQ := IQ |}.

(** *** buses, parser.py:97-121 *)
Definition new_bus (b : raw_bus) : obus :=
  {| ob_num := b_num b; ob_type := b_ide b; ob_vm := b_vm b; ob_va := b_va b * PI / 180 |}.
(** a revision outside 30, 32, 33, 34 leaves the variable b unbound, 99-106 *)
Definition known_rev (r : Z) : bool := memz r [30; 32; 33; 34]%Z.
Definition parse_buses (rev : Z) (bs : list raw_bus) : pres (list obus) :=
  mfold (fun acc b => check known_rev rev else NameError;
                      Ok (if Z.eqb (b_ide b) 4 then acc else acc ++ [new_bus b])) bs [].
(** the set offline_bus, 101-119 *)
Definition offline (bs : list raw_bus) (n : Z) : bool :=
  existsb (fun b => Z.eqb (b_num b) n && Z.eqb (b_ide b) 4) bs.
(** PV_list, 115-116 and data.raw.slack_buses, Data.py:389-391 *)
Definition pv_bus (bs : list raw_bus) (n : Z) : bool := existsb (fun b => Z.eqb (b_num b) n && Z.eqb (b_ide b) 2) bs.
Definition slack_bus (bs : list raw_bus) (n : Z) : bool := existsb (fun b => Z.eqb (b_num b) n && Z.eqb (b_ide b) 3) bs.

(** *** generators, parser.py:123-233 *)
Record gen_state := { gs_buses : list obus; gs_slack : list oslack; gs_sdic : list (Z * nat);
                      gs_gens : list ogen; gs_ctrl : list Z; gs_loads : list (Z * load) }.
Fixpoint update_nth A (n : nat) (f : A -> A) (l : list A) : list A :=
  match l, n with [], _ => [] | x :: l, O => f x :: l | x :: l, S n => x :: update_nth n f l end.
Definition zlookup A (n : Z) (l : list (Z * A)) : option A :=
  option_map snd (find (fun e => Z.eqb (fst e) n) l).
(** Slack.__init__ sets the type of its bus to 0, slack.py:42 *)
Definition set_slack_type (n : Z) (l : list obus) : list obus :=
  map (fun b => if Z.eqb (ob_num b) n then {| ob_num := ob_num b; ob_type := 0; ob_vm := ob_vm b; ob_va := ob_va b |} else b) l.
Definition add_pinit (dp : R) (s : oslack) : oslack :=
  {| sl_bus := sl_bus s; sl_vset := sl_vset s; sl_ang := sl_ang s; sl_pinit := sl_pinit s + dp; sl_qinit := sl_qinit s |}.

(** 153-174 *)
Definition slack_gen_step (bs : list raw_bus) (sbase : R) (st : gen_state) (g : raw_gen) : pres gen_state :=
  do b <- bus_data bs (g_bus g);
  if (negb (offline bs (g_bus g)) && Z.eqb (g_stat g) 1)%bool then
    match zlookup (g_bus g) (gs_sdic st) with
    | None =>
        do n <- bus_key bs (g_bus g);
        Ok {| gs_buses := set_slack_type n (gs_buses st);
              gs_slack := gs_slack st ++ [{| sl_bus := n; sl_vset := g_vs g; sl_ang := b_va b * PI / 180;
                                             sl_pinit := g_pg g / 100; sl_qinit := g_qg g / 100 |}];
              gs_sdic := gs_sdic st ++ [(g_bus g, length (gs_slack st))];
              gs_gens := gs_gens st; gs_ctrl := gs_ctrl st; gs_loads := gs_loads st |}
    | Some k =>
        do dp <- pdiv (g_pg g) sbase;
        Ok {| gs_buses := gs_buses st; gs_slack := update_nth k (add_pinit dp) (gs_slack st); gs_sdic := gs_sdic st;
              gs_gens := gs_gens st; gs_ctrl := gs_ctrl st; gs_loads := gs_loads st |}
    end
  else Ok st.

(** 178-230.  A second regulating generator on a bus reads the attribute Pmax, which Generator objects
    do not have, 202-203. *)
Definition conv_gen_step (bs : list raw_bus) (st : gen_state) (g : raw_gen) : pres gen_state :=
  do q <- gen_data_of g;
  if (pv_bus bs (g_bus g) && Z.eqb (g_stat g) 1)%bool then
    if (almost_equal (q_qt q) (q_qb q) && negb (Z.eqb (g_wmod g) 2))%bool then
      do n <- bus_key bs (g_bus g);
      Ok {| gs_buses := gs_buses st; gs_slack := gs_slack st; gs_sdic := gs_sdic st; gs_gens := gs_gens st; gs_ctrl := gs_ctrl st;
            gs_loads := gs_loads st ++ [(n, new_load (- g_pg g / 100) (- q_qg q / 100) 0 0)] |}
    else if (reqb (g_pg g) 0 && reqb (q_qt q) 0 && reqb (q_qb q) 0)%bool then Ok st
    else if memz (g_bus g) (gs_ctrl st) then Err AttributeError
    else
      do n <- bus_key bs (g_bus g);
      Ok {| gs_buses := gs_buses st; gs_slack := gs_slack st; gs_sdic := gs_sdic st;
            gs_gens := gs_gens st ++ [new_generator n (g_pg g / 100) (g_vs g) (q_qt q / 100) (q_qb q / 100) (q_qg q / 100)];
            gs_ctrl := gs_ctrl st ++ [g_bus g]; gs_loads := gs_loads st |}
  else Ok st.

Definition gen_step (bs : list raw_bus) (sbase : R) (st : gen_state) (g : raw_gen) : pres gen_state :=
  if slack_bus bs (g_bus g) then slack_gen_step bs sbase st g else conv_gen_step bs st g.

(** *** switched shunts, parser.py:235-319.  On a bus that already has a regulating generator the
    attribute RMPCT, which Generator objects do not have, is read, 279. *)
Record ss_state := { ws_gens : list ogen; ws_ctrl : list Z; ws_shunts : list oshunt }.
Definition ss_step (bs : list raw_bus) (st : ss_state) (s : raw_ss) : pres ss_state :=
  if (negb (offline bs (ss_bus s)) && Z.eqb (ss_stat s) 1)%bool then
    if Z.eqb (ss_modsw s) 2 then
      let (bmin, bmax) := compute_bmin_bmax (ss_steps s) in
      let v2 := ss_vhi s * ss_vhi s in
      if memz (ss_bus s) (ws_ctrl st) then Err AttributeError
      else
        do q <- gen_data 0 (ss_binit s * v2) (bmax * v2) (bmin * v2) 1 0;
        do n <- bus_key bs (ss_bus s);
        Ok {| ws_gens := ws_gens st ++ [new_generator n (0 / 100) ((ss_vhi s + ss_vlo s) / 2) (q_qt q / 100) (q_qb q / 100) (q_qg q / 100)];
              ws_ctrl := ws_ctrl st ++ [ss_bus s]; ws_shunts := ws_shunts st |}
    else
      do n <- bus_key bs (ss_bus s);
      Ok {| ws_gens := ws_gens st; ws_ctrl := ws_ctrl st; ws_shunts := ws_shunts st ++ [new_shunt n 0 (ss_binit s)] |}
  else Ok st.

(** *** fixed shunts, parser.py:321-334 *)
Definition fs_step (bs : list raw_bus) (acc : list oshunt) (f : raw_fs) : pres (list oshunt) :=
  if (negb (offline bs (fs_bus f)) && Z.eqb (fs_status f) 1 && (negb (reqb (fs_gl f) 0) || negb (reqb (fs_bl f) 0)))%bool then
    do n <- bus_key bs (fs_bus f); Ok (acc ++ [new_shunt n (fs_gl f) (fs_bl f)])
  else Ok acc.

(** *** loads, parser.py:336-346, Load_data.integrate, data_classes.py:93-95 *)
Definition load_step (bs : list raw_bus) (acc : list (Z * load)) (l : raw_load) : pres (list (Z * load)) :=
  if (negb (offline bs (rl_bus l)) && Z.eqb (rl_status l) 1)%bool then
    do n <- bus_key bs (rl_bus l);
    Ok (acc ++ [(n, new_load (rl_pl l / 100) (rl_ql l / 100) (rl_ip l) (rl_iq l))])
  else Ok acc.

(** *** branches, parser.py:354-375, Branch_data.integrate, data_classes.py:317-329.  A line shunt is
    a Shunt, whose bus attribute is called 'bus'; parser.py:371 reads 'Bus'. *)
Definition line_shunt (br : raw_branch) : bool :=
  negb (reqb (br_gi br) 0) || negb (reqb (br_bi br) 0) || negb (reqb (br_gj br) 0) || negb (reqb (br_bj br) 0).
Definition branch_step (bs : list raw_bus) (acc : list (Z * Z * line)) (br : raw_branch) : pres (list (Z * Z * line)) :=
  if (negb (offline bs (br_i br)) && negb (offline bs (br_j br)) && Z.eqb (br_st br) 1)%bool then
    do f <- bus_key bs (br_i br);
    do t <- bus_key bs (br_j br);
    match new_line (br_r br) (br_x br) (br_b br) with
    | None => Err ZeroDivisionError
    | Some ln => if line_shunt br then Err AttributeError else Ok (acc ++ [(f, t, ln)])
    end
  else Ok acc.

(** *** two-winding transformers, parser.py:379-414 *)
Definition x2_step (bs : list raw_bus) (sbase : R) (acc : list xfmr) (t : raw_x2) : pres (list xfmr) :=
  if (negb (offline bs (t_i t)) && negb (offline bs (t_j t)))%bool then
    do o <- two_winding bs sbase t;
    Ok (match o with Some x => acc ++ [x] | None => acc end)
  else Ok acc.

(** *** three-winding transformers, parser.py:416-475: the elements are looked up under star bus -1;
    a bus of its own is only appended afterwards (and 'to_bus' is not the attribute that is stamped) *)
Definition x3_step (bs : list raw_bus) (sbase : R) (acc : list obus * list xfmr * Z) (t : raw_x3) : pres (list obus * list xfmr * Z) :=
  let '(buses, xs, next) := acc in
  if Z.eqb (h_stat t) 0 then Ok acc
  else
    do l <- three_winding bs sbase (-1) t;
    match l with
    | [] => Ok acc
    | _ => Ok (buses ++ [{| ob_num := next; ob_type := 1; ob_vm := h_vmstar t; ob_va := h_anstar t |}], xs ++ l, (next + 1)%Z)
    end.
(** max([ele.Bus for ele in tempBus]), 420-422: ValueError on an empty list *)
Definition largest (l : list obus) : pres Z :=
  match l with [] => Err ValueError | b :: l => Ok (fold_left Z.max (map ob_num l) (ob_num b)) end.

(** *** parse_raw, parser.py:62-480 *)
Definition parse_raw (c : raw_case) : pres onet :=
  let bs := rc_buses c in
  let sbase := rc_sbase c in
  do b0 <- parse_buses (rc_rev c) bs;
  do gs <- mfold (gen_step bs sbase) (rc_gens c)
             {| gs_buses := b0; gs_slack := []; gs_sdic := []; gs_gens := []; gs_ctrl := []; gs_loads := [] |};
  do ws <- mfold (ss_step bs) (rc_ss c) {| ws_gens := gs_gens gs; ws_ctrl := gs_ctrl gs; ws_shunts := [] |};
  do shunts <- mfold (fs_step bs) (rc_fs c) (ws_shunts ws);
  do loads <- mfold (load_step bs) (rc_loads c) (gs_loads gs);
  do lines <- mfold (branch_step bs) (rc_branches c) [];
  do x2 <- mfold (x2_step bs sbase) (rc_x2 c) [];
  do top <- largest (gs_buses gs);
  do x3 <- mfold (x3_step bs sbase) (rc_x3 c) (gs_buses gs, x2, (1000000 + top)%Z);
  let '(buses, xs, _) := x3 in
  Ok {| n_buses := buses; n_slack := gs_slack gs; n_gens := ws_gens ws; n_loads := loads;
        n_shunts := shunts; n_lines := lines; n_xfmrs := xs |}.
