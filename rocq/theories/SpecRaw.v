(** What a RAW case means, stated without the parser's loops: which records contribute an element,
    which element, and which cases are acceptable at all. *)
From Coq Require Import Reals ZArith List.
From Verif Require Import Components RawTransformers RawParser.
Import ListNotations.
Local Open Scope R_scope.

(** [out] holds, in order, one element related by [R] for every record satisfying [P]. *)
Inductive collects {A B : Type} (P : A -> Prop) (R : A -> B -> Prop) : list A -> list B -> Prop :=
| col_nil : collects P R [] []
| col_take : forall a b l out, P a -> R a b -> collects P R l out -> collects P R (a :: l) (b :: out)
| col_skip : forall a l out, ~ P a -> collects P R l out -> collects P R (a :: l) out.

Section Case.
Variable c : raw_case.
Let bs := rc_buses c.

Definition bus_at (n : Z) (b : raw_bus) : Prop := In b bs /\ b_num b = n.
Definition has_type (n ty : Z) : Prop := exists b, bus_at n b /\ b_ide b = ty.
Definition exists_online (n : Z) : Prop := exists b, bus_at n b /\ b_ide b <> 4%Z.
Definition isolated (n : Z) : Prop := has_type n 4.

(** *** generators *)
(** the reactive limits of a machine: a machine with a fixed power factor (mode 3) has both limits at
    the reactive power belonging to its active power *)
Definition pf_power (pg wpf : R) : R := sqrt ((pg / wpf) * (pg / wpf) - pg * pg).
Definition sgn_is (x s : R) : Prop := (x < 0 /\ s = -1) \/ (x = 0 /\ s = 0) \/ (0 < x /\ s = 1).
Definition limits (g : raw_gen) (qt qb : R) : Prop :=
  (g_wmod g <> 3%Z -> qt = g_qt g /\ qb = g_qb g) /\
  (g_wmod g = 3%Z -> exists s, sgn_is (g_pg g) s /\ qb = qt /\
     (0 < g_wpf g -> qt = s * pf_power (g_pg g) (g_wpf g)) /\
     (g_wpf g <= 0 -> qt = - s * pf_power (g_pg g) (g_wpf g))).
Definition narrow (a b : R) : Prop := Rabs (a - b) < 1 / 1000000.
(** with a narrow band the output is the upper limit *)
Definition output_q (g : raw_gen) (qt qb qg : R) : Prop :=
  (narrow qt qb -> qg = qt) /\ (~ narrow qt qb -> qg = g_qg g).

Definition slack_on (g : raw_gen) : Prop := has_type (g_bus g) 3 /\ g_stat g = 1%Z.
Definition pv_on (g : raw_gen) : Prop := ~ has_type (g_bus g) 3 /\ has_type (g_bus g) 2 /\ g_stat g = 1%Z.
(** machines that cannot regulate and are turned into negative loads *)
Definition fixed_q (g : raw_gen) : Prop :=
  pv_on g /\ g_wmod g <> 2%Z /\ exists qt qb, limits g qt qb /\ narrow qt qb.
(** machines that hold the voltage of their bus *)
Definition regulates (g : raw_gen) : Prop :=
  pv_on g /\ ~ fixed_q g /\ ~ (g_pg g = 0 /\ exists qt qb, limits g qt qb /\ qt = 0 /\ qb = 0).
Definition gen_el (g : raw_gen) (o : ogen) : Prop :=
  exists qt qb qg, limits g qt qb /\ output_q g qt qb qg /\
    o = {| og_bus := g_bus g; og_P := - (g_pg g / 100); og_vset := g_vs g;
           og_qinit := - (qg / 100); og_qmax := - (qt / 100); og_qmin := - (qb / 100) |}.
Definition neg_load_el (g : raw_gen) (o : Z * load) : Prop :=
  exists qt qb, limits g qt qb /\
    o = (g_bus g, {| ld_P := - g_pg g / 100; ld_Q := - qt / 100; ld_Zr := 0; ld_Zi := 0; ld_IP := 0; ld_IQ := 0 |}).

(** the power factor of a wind machine must be usable, even when the machine is out of service *)
Definition wind_ok (g : raw_gen) : Prop :=
  ~ has_type (g_bus g) 3 -> g_wmod g = 2%Z \/ g_wmod g = 3%Z ->
  g_wpf g <> 0 /\ 0 <= (g_pg g / g_wpf g) * (g_pg g / g_wpf g) - g_pg g * g_pg g.

(** *** slack machines: the buses in order of first appearance; the machine met first sets voltage,
    angle and reactive power, the active powers are added up *)
Fixpoint firsts (seen : list Z) (l : list Z) : list Z :=
  match l with
  | [] => []
  | n :: l => if in_dec Z.eq_dec n seen then firsts seen l else n :: firsts (n :: seen) l
  end.
Fixpoint sum_pg (n : Z) (l : list raw_gen) : R :=
  match l with [] => 0 | g :: l => (if Z.eq_dec (g_bus g) n then g_pg g else 0) + sum_pg n l end.
Definition slack_el (on : list raw_gen) (s : oslack) : Prop :=
  exists l1 g l2 b, on = l1 ++ g :: l2 /\ g_bus g = sl_bus s /\ (forall h, In h l1 -> g_bus h <> sl_bus s) /\
    bus_at (sl_bus s) b /\ sl_vset s = g_vs g /\ sl_ang s = b_va b * PI / 180 /\ sl_qinit s = g_qg g / 100 /\
    sl_pinit s = g_pg g / 100 + sum_pg (sl_bus s) l2 / rc_sbase c.
Definition slacks_of (S : list oslack) : Prop :=
  exists on, collects slack_on eq (rc_gens c) on /\ map sl_bus S = firsts [] (map g_bus on) /\ Forall (slack_el on) S.
(** the system base is used only when a slack bus has a second machine *)
Definition slack_base_ok : Prop :=
  forall l1 g l2 h, rc_gens c = l1 ++ g :: l2 -> In h l2 -> slack_on g -> slack_on h -> g_bus h = g_bus g -> rc_sbase c <> 0.

(** *** shunts *)
Definition ss_on (s : raw_ss) : Prop := ~ isolated (ss_bus s) /\ ss_stat s = 1%Z.
Definition continuous (s : raw_ss) : Prop := ss_on s /\ ss_modsw s = 2%Z.
Definition stepped (s : raw_ss) : Prop := ss_on s /\ ss_modsw s <> 2%Z.
(** total of the positive (negative) blocks before the first empty one *)
Inductive blocks : list (Z * R) -> R -> R -> Prop :=
| bl_nil : blocks [] 0 0
| bl_zero : forall n b l, IZR n * b = 0 -> blocks ((n, b) :: l) 0 0
| bl_pos : forall n b l lo hi, 0 < IZR n * b -> blocks l lo hi -> blocks ((n, b) :: l) lo (IZR n * b + hi)
| bl_neg : forall n b l lo hi, IZR n * b < 0 -> blocks l lo hi -> blocks ((n, b) :: l) (IZR n * b + lo) hi.
Definition svc_el (s : raw_ss) (o : ogen) : Prop :=
  exists lo hi q, blocks (ss_steps s) lo hi /\
    (let k := ss_vhi s * ss_vhi s in
     (narrow (hi * k) (lo * k) -> q = hi * k) /\ (~ narrow (hi * k) (lo * k) -> q = ss_binit s * k) /\
     o = {| og_bus := ss_bus s; og_P := 0; og_vset := (ss_vhi s + ss_vlo s) / 2;
            og_qinit := - (q / 100); og_qmax := - (hi * k / 100); og_qmin := - (lo * k / 100) |}).
Definition stepped_el (s : raw_ss) (o : oshunt) : Prop :=
  o = {| os_bus := ss_bus s; os_G := 0; os_B := ss_binit s / 100 |}.
Definition fs_on (f : raw_fs) : Prop := ~ isolated (fs_bus f) /\ fs_status f = 1%Z /\ (fs_gl f <> 0 \/ fs_bl f <> 0).
Definition fs_el (f : raw_fs) (o : oshunt) : Prop :=
  o = {| os_bus := fs_bus f; os_G := fs_gl f / 100; os_B := fs_bl f / 100 |}.

(** *** loads and lines *)
Definition load_on (l : raw_load) : Prop := ~ isolated (rl_bus l) /\ rl_status l = 1%Z.
Definition load_el (l : raw_load) (o : Z * load) : Prop :=
  o = (rl_bus l, {| ld_P := rl_pl l / 100; ld_Q := rl_ql l / 100; ld_Zr := 0; ld_Zi := 0; ld_IP := rl_ip l; ld_IQ := rl_iq l |}).
Definition branch_on (b : raw_branch) : Prop := ~ isolated (br_i b) /\ ~ isolated (br_j b) /\ br_st b = 1%Z.
Definition branch_el (b : raw_branch) (o : Z * Z * line) : Prop :=
  let z2 := br_r b * br_r b + br_x b * br_x b in
  o = (br_i b, br_j b, {| ln_G := br_r b / z2; ln_B := - br_x b / z2; ln_Bsh := br_b b / 2 |}).
Definition branch_fine (b : raw_branch) : Prop :=
  exists_online (br_i b) /\ exists_online (br_j b) /\ (br_r b <> 0 \/ br_x b <> 0) /\
  br_gi b = 0 /\ br_bi b = 0 /\ br_gj b = 0 /\ br_bj b = 0.

(** *** buses *)
Definition bus_el (b : raw_bus) (o : obus) : Prop :=
  ob_num o = b_num b /\ ob_vm o = b_vm b /\ ob_va o = b_va b * PI / 180 /\
  ((exists g, In g (rc_gens c) /\ slack_on g /\ g_bus g = b_num b) -> ob_type o = 0%Z) /\
  (~ (exists g, In g (rc_gens c) /\ slack_on g /\ g_bus g = b_num b) -> ob_type o = b_ide b).

(** *** two-winding transformers: the element of a record, when there is one *)
Definition x2_considered (t : raw_x2) : Prop := ~ isolated (t_i t) /\ ~ isolated (t_j t).
Definition x2_on (t : raw_x2) : Prop := x2_considered t /\ t_stat t <> 0%Z.
Definition x2_el (t : raw_x2) (x : xfmr) : Prop := two_winding bs (rc_sbase c) t = Ok (Some x).
Definition x2_fine (t : raw_x2) : Prop := exists o, two_winding bs (rc_sbase c) t = Ok o.

(** *** three-winding transformers: a winding is in service when the record does not switch it off and
    its bus and at least one of the other two are not isolated *)
Definition winding_live (t : raw_x3) (off own o1 o2 : Z) : Prop :=
  h_stat t <> off /\ ~ isolated own /\ (~ isolated o1 \/ ~ isolated o2).
Definition live1 (t : raw_x3) : Prop := winding_live t 4 (h_i t) (h_j t) (h_k t).
Definition live2 (t : raw_x3) : Prop := winding_live t 2 (h_j t) (h_i t) (h_k t).
Definition live3 (t : raw_x3) : Prop := winding_live t 3 (h_k t) (h_i t) (h_j t).
(** a record that is read without an exception although nothing of it is in service *)
Definition x3_idle (t : raw_x3) : Prop :=
  (exists d, three_winding_data bs (rc_sbase c) t = Ok d) /\ ~ live1 t /\ ~ live2 t /\ ~ live3 t.

(** *** acceptable cases, and the network of an acceptable case *)
Definition raw_ok : Prop :=
  In (rc_rev c) [30; 32; 33; 34]%Z /\
  (exists b, In b bs /\ b_ide b <> 4%Z) /\
  Forall wind_ok (rc_gens c) /\ slack_base_ok /\
  (exists R S, collects regulates (fun g n => n = g_bus g) (rc_gens c) R /\
               collects continuous (fun s n => n = ss_bus s) (rc_ss c) S /\ NoDup (R ++ S)) /\
  Forall (fun s => ss_on s -> exists_online (ss_bus s)) (rc_ss c) /\
  Forall (fun f => fs_on f -> exists_online (fs_bus f)) (rc_fs c) /\
  Forall (fun l => load_on l -> exists_online (rl_bus l)) (rc_loads c) /\
  Forall (fun b => branch_on b -> branch_fine b) (rc_branches c) /\
  Forall (fun t => x2_considered t -> x2_fine t) (rc_x2 c) /\
  Forall (fun t => h_stat t <> 0%Z -> x3_idle t) (rc_x3 c).

Record raw_net (net : onet) : Prop := {
  rn_buses : collects (fun b => b_ide b <> 4%Z) bus_el bs (n_buses net);
  rn_slack : slacks_of (n_slack net);
  rn_gens : exists G S, n_gens net = G ++ S /\ collects regulates gen_el (rc_gens c) G /\ collects continuous svc_el (rc_ss c) S;
  rn_loads : exists G L, n_loads net = G ++ L /\ collects fixed_q neg_load_el (rc_gens c) G /\ collects load_on load_el (rc_loads c) L;
  rn_shunts : exists S F, n_shunts net = S ++ F /\ collects stepped stepped_el (rc_ss c) S /\ collects fs_on fs_el (rc_fs c) F;
  rn_lines : collects branch_on branch_el (rc_branches c) (n_lines net);
  rn_xfmrs : collects x2_on x2_el (rc_x2 c) (n_xfmrs net) }.
End Case.

(** the records of a table that satisfy [P], in order *)
Definition chosen {A : Type} (P : A -> Prop) (l on : list A) : Prop := collects P eq l on.
(** total of a column over the entries at bus [n] *)
Fixpoint sum_at {A : Type} (bus : A -> Z) (val : A -> R) (n : Z) (l : list A) : R :=
  match l with [] => 0 | a :: l => (if Z.eq_dec (bus a) n then val a else 0) + sum_at bus val n l end.

(** susceptance of a switched shunt with [k] of the [n] steps of each block switched on *)
Inductive reach : list (Z * R) -> R -> Prop :=
| re_nil : reach [] 0
| re_cons : forall n b k l t, (0 <= k <= n)%Z -> reach l t -> reach ((n, b) :: l) (IZR k * b + t).

(** every element of a network is attached to buses of the network *)
Definition attached (net : onet) (n : Z) : Prop := In n (map ob_num (n_buses net)).
Definition well_attached (net : onet) : Prop :=
  Forall (attached net) (map sl_bus (n_slack net)) /\ Forall (attached net) (map og_bus (n_gens net)) /\
  Forall (attached net) (map fst (n_loads net)) /\ Forall (attached net) (map os_bus (n_shunts net)) /\
  Forall (fun l : Z * Z * line => attached net (fst (fst l)) /\ attached net (snd (fst l))) (n_lines net) /\
  Forall (fun x => attached net (x_from x) /\ attached net (x_to x)) (n_xfmrs net).

(** a case with some columns or records replaced *)
Definition case_with_gens (c : raw_case) (gs : list raw_gen) : raw_case :=
  {| rc_rev := rc_rev c; rc_sbase := rc_sbase c; rc_buses := rc_buses c; rc_gens := gs; rc_ss := rc_ss c; rc_fs := rc_fs c;
     rc_loads := rc_loads c; rc_branches := rc_branches c; rc_x2 := rc_x2 c; rc_x3 := rc_x3 c |}.
Definition case_with_loads (c : raw_case) (ls : list raw_load) : raw_case :=
  {| rc_rev := rc_rev c; rc_sbase := rc_sbase c; rc_buses := rc_buses c; rc_gens := rc_gens c; rc_ss := rc_ss c; rc_fs := rc_fs c;
     rc_loads := ls; rc_branches := rc_branches c; rc_x2 := rc_x2 c; rc_x3 := rc_x3 c |}.
(** two loads that differ at most in their constant-admittance part *)
Definition same_but_admittance (a b : raw_load) : Prop :=
  rl_bus a = rl_bus b /\ rl_status a = rl_status b /\ rl_pl a = rl_pl b /\ rl_ql a = rl_ql b /\ rl_ip a = rl_ip b /\ rl_iq a = rl_iq b.
