(** From a file to a result. *)
From Coq Require Import Reals ZArith String List Bool Lia Lra Arith Permutation.
From Verif Require Import PyExc Components Devices UnbalancedLine Solver Network SpecNetwork NetStamper SpecNetStamper SpecKirchhoff Graph SpecGraph PowerFlow SpecPowerFlow PowerFlowRun
  ThreePhase SpecThreePhase SpecThreeElems ThreePhaseElemProofs RawParser SpecRaw RawText Loader SolverNet SpecSolverNet SolverNetProofs SolverRawProofs.
From Verif Require ThreePhaseBase LineImpedance.
Import ListNotations.
Local Open Scope R_scope.

Lemma from_three T W uri n : from_file T W uri = Ok (Three n) -> exists ms, parse_three (t_inv T) (t_cap T) ms = Ok n.
Proof.
  intros E. unfold from_file in E. apply ThreePhaseBase.bind_ok in E as ([f W'] & _ & E). cbn [fst snd] in E. cbv zeta in E. destruct (LineImpedance.contains ".glm"%string f).
  - unfold load_glm in E. apply ThreePhaseBase.bind_ok in E as ([objs sch] & _ & E). apply ThreePhaseBase.bind_ok in E as (ms & _ & E). apply ThreePhaseBase.bind_ok in E as (n' & P & E). injection E as <-. eauto.
  - destruct (LineImpedance.contains ".RAW"%string f); [|discriminate]. unfold load_RAW in E. destruct (w_file W' f); [|discriminate]. apply ThreePhaseBase.bind_ok in E as (o & _ & E). discriminate.
Qed.
Lemma from_single T W uri o : from_file T W uri = Ok (Single o) -> exists lines, load_raw (t_int T) (t_float T) lines = Ok o.
Proof.
  intros E. unfold from_file in E. apply ThreePhaseBase.bind_ok in E as ([f W'] & _ & E). cbn [fst snd] in E. cbv zeta in E. destruct (LineImpedance.contains ".glm"%string f).
  - unfold load_glm in E. apply ThreePhaseBase.bind_ok in E as ([objs sch] & _ & E). apply ThreePhaseBase.bind_ok in E as (ms & _ & E). apply ThreePhaseBase.bind_ok in E as (n' & P & E). discriminate.
  - destruct (LineImpedance.contains ".RAW"%string f); [|discriminate]. unfold load_RAW in E. destruct (w_file W' f) as [l|]; [|discriminate]. apply ThreePhaseBase.bind_ok in E as (o' & L & E). injection E as <-. eauto.
Qed.
Lemma loaded_network T W uri r opt nw : from_file T W uri = Ok r -> solver_network opt r = Ok nw ->
  network_ok nw /\ ends_on_buses nw /\ sorted nw /\ nw_optimization nw = opt /\ (nw_three_phase nw = true <-> exists n, r = Three n).
Proof.
  intros E N. destruct r as [n|o]; cbn [solver_network] in N.
  - apply from_three in E as (ms & P). pose proof (good_parse _ _ _ _ P) as G. split; [exact (dx_ok _ _ _ G N)|]. split; [exact (dx_ends _ _ _ N)|]. split; [exact (dx_sorted _ _ _ N)|].
    pose proof (dx_fields _ _ _ N) as (_ & T3 & _ & _ & _ & _ & _ & _ & _ & _ & _ & _ & _ & _ & O). split; [exact O|]. rewrite T3. split; eauto.
  - injection N as <-. split; [apply sx_ok|]. split; [apply sx_ends|]. split; [apply sx_sorted|]. split; [reflexivity|]. cbn. split; [discriminate|intros [n Q]; discriminate].
Qed.
Lemma loaded_lines T W uri n opt : from_file T W uri = Ok (Three n) ->
  ((exists nw, solver_network opt (Three n) = Ok nw) <-> forall l, In l (nt_lines n) -> connected n l).
Proof. intros _. exact (dx_lines opt n). Qed.
Lemma loaded_raw T W uri o : from_file T W uri = Ok (Single o) ->
  well_attached o /\ NoDup (map ob_num (n_buses o)) /\ (forall z, attached o z -> exists k, sx_ref o z = Some k /\ is_bus o z k) /\ (forall z k k', is_bus o z k -> is_bus o z k' -> k = k').
Proof.
  intros E. apply from_single in E as (lines & E). destruct (file_fit _ _ _ _ E) as [A B]. split; [exact A|]. split; [exact B|]. split; [exact (ref_of o)|]. intros z k k'. exact (is_bus_once o z k k' B).
Qed.

(** *** what the parts stand for *)
Lemma polar_back x y : fst (polar x y) * cos (snd (polar x y)) = x /\ fst (polar x y) * sin (snd (polar x y)) = y.
Proof.
  unfold polar. cbv zeta. cbn [fst snd]. set (m := sqrt (x * x + y * y)).
  assert (N : 0 <= x * x + y * y) by nra. assert (M : m * m = x * x + y * y) by (apply sqrt_sqrt; exact N). assert (P : 0 <= m) by apply sqrt_pos.
  destruct (Req_dec m 0) as [Z|Z].
  - assert (x = 0 /\ y = 0) as [-> ->] by (rewrite Z in M; split; nra). rewrite Z. lra.
  - assert (Q : 0 < m) by lra. assert (B : -1 <= x / m <= 1).
    { assert (- m <= x <= m) by (split; nra). split; apply (Rmult_le_reg_r m); try exact Q; unfold Rdiv; rewrite Rmult_assoc, Rinv_l by exact Z; lra. }
    assert (CX : m * (x / m) = x) by (field; exact Z).
    assert (SX : m * sqrt (1 - Rsqr (x / m)) = Rabs y).
    { rewrite <- (sqrt_square m P) at 1. rewrite <- sqrt_mult; [|nra|unfold Rsqr; nra]. rewrite <- sqrt_Rsqr_abs. f_equal. unfold Rsqr.
      replace (m * m * (1 - x / m * (x / m))) with (m * m - (m * (x / m)) * (m * (x / m))) by ring. rewrite CX, M. ring. }
    destruct (Rle_dec 0 y) as [L|L].
    + rewrite cos_acos, sin_acos by exact B. split; [exact CX|]. rewrite SX. apply Rabs_right. lra.
    + rewrite cos_neg, sin_neg, cos_acos, sin_acos by exact B. split; [exact CX|]. rewrite <- Ropp_mult_distr_r, SX. rewrite Rabs_left by lra. ring.
Qed.
Lemma dx_start n opt nw k b : dx_network opt n = Ok nw -> nth_error (nt_buses n) k = Some b ->
  exists c, nth_error (nw_buses nw) k = Some c /\ bus_id c = tb_id b /\ bus_Vm c * cos (bus_Va c) = tb_vr b /\ bus_Vm c * sin (bus_Va c) = tb_vi b.
Proof.
  intros E H. apply dx_fields in E as (_ & _ & B & _). rewrite B. exists (dx_bus b). split; [now apply map_nth_error|]. split; [reflexivity|]. apply polar_back.
Qed.
Lemma number_same (g : tbus -> string) n b c : In b (nt_buses n) -> In c (nt_buses n) ->
  (number_of (fun x => String.eqb (g x) (g b)) n = number_of (fun x => String.eqb (g x) (g c)) n <-> g b = g c).
Proof.
  intros Hb Hc. unfold number_of. destruct (place_in _ (fun x => String.eqb (g x) (g b)) _ b Hb (String.eqb_refl _)) as [i Ei].
  destruct (place_in _ (fun x => String.eqb (g x) (g c)) _ c Hc (String.eqb_refl _)) as [j Ej]. rewrite Ei, Ej. split.
  - intros <-. apply place_some in Ei as (x & Hx & Q), Ej as (y & Hy & Q'). rewrite Hx in Hy. injection Hy as <-. apply String.eqb_eq in Q, Q'. congruence.
  - intros Q. rewrite Q in Ei. congruence.
Qed.
Lemma places_same n i j b c : nth_error (nt_buses n) i = Some b -> nth_error (nt_buses n) j = Some c ->
  (gb_name (dx_place n i) = gb_name (dx_place n j) <-> tb_name b = tb_name c) /\ (gb_phase (dx_place n i) = gb_phase (dx_place n j) <-> tb_phase b = tb_phase c) /\
  gb_virtual (dx_place n i) = tb_virtual b /\ gb_vnom (dx_place n i) = tb_vnom b.
Proof.
  intros Hi Hj. unfold dx_place. rewrite Hi, Hj. cbn. split; [|split; [|split; reflexivity]].
  - apply (number_same tb_name); eapply nth_error_In; eassumption.
  - apply (number_same tb_phase); eapply nth_error_In; eassumption.
Qed.

(** *** the run *)
Section Run.
Variables (T : tools) (W : world) (nm : Z -> nat) (So : Type) (spsolve : So -> list (nat * nat * R) -> list R -> So * option (list R)) (nan : R)
  (cfg : pf_settings) (old : Network.table) (visit : list nat -> list nat) (opt : option bool) (uri : string) (so : So).
Lemma run_parts res : run_file T W nm spsolve nan cfg old visit opt uri so = Ok res ->
  exists r nw, from_file T W uri = Ok r /\ solver_network opt r = Ok nw /\ execute (solver_details nm r) spsolve nan cfg old visit nw so = res.
Proof. intros E. unfold run_file in E. apply ThreePhaseBase.bind_ok in E as (r & E1 & E). apply ThreePhaseBase.bind_ok in E as (nw & E2 & E). injection E as E. eauto 6. Qed.
Lemma run_success v it tx res ds so' : sized spsolve -> opt = None ->
  run_file T W nm spsolve nan cfg old visit opt uri so = Ok (PFDone true v it tx res ds so') ->
  exists r nw, from_file T W uri = Ok r /\ solver_network opt r = Ok nw /\
    let nw' := with_devices nw ds in let a' := assign_matrix old nw' in let V := voltages a' (vec v) in
    length v = as_size a' /\
    (exists u so0 es J, spsolve so0 es J = (so', Some v) /\ (energised nw' (voltages a' u) -> nearly_physical (set_tolerance (pf_nr cfg)) nw' (voltages a' u))) /\
    (pf_device_control cfg = true -> nw_three_phase nw = true ->
     capacitors_rest (solver_details nm r) V nw' /\
     (energised nw' V -> exists ac, accounts_for V nw' ac /\ gives_rows nw' a' ac (vec v) /\ fuses_rest (solver_details nm r) nw' ac)).
Proof.
  intros SZ ON E. apply run_parts in E as (r & nw & E1 & E2 & E). exists r, nw. split; [exact E1|]. split; [exact E2|].
  destruct (loaded_network _ _ _ _ _ _ E1 E2) as (OK & EN & SO & OP & _). cbv zeta.
  destruct (done_success _ _ _ _ _ _ _ _ _ _ _ _ _ _ _ E OK EN SZ eq_refl) as (L & u & lin & stale & J & so0 & S1 & _ & _ & _ & S2). split; [exact L|]. split.
  - exists u, so0, (lin ++ stale), J. split; [exact S1|]. apply S2. congruence.
  - intros D T3. destruct (done_devices _ _ _ _ _ _ _ _ _ _ _ _ _ _ _ E OK SO eq_refl D T3) as (D1 & D2). split; [exact D1|]. apply D2. congruence.
Qed.
Lemma run_execute r nw : from_file T W uri = Ok r -> solver_network opt r = Ok nw ->
  run_file T W nm spsolve nan cfg old visit opt uri so = Ok (execute (solver_details nm r) spsolve nan cfg old visit nw so).
Proof. intros E1 E2. unfold run_file. rewrite E1. cbn [pbind]. rewrite E2. reflexivity. Qed.
Lemma pieces_raw o : from_file T W uri = Ok (Single o) ->
  ((exists k, run_file T W nm spsolve nan cfg old visit opt uri so = Ok (PFIslands k)) <-> ~ one_piece (sx_details nm o) (sx_network opt o)).
Proof.
  intros E. rewrite (run_execute _ _ E (eq_refl : solver_network opt (Single o) = Ok (sx_network opt o))). cbn [solver_details].
  rewrite <- (islands_iff (sx_details nm o) spsolve nan cfg old visit (sx_network opt o) so (sx_ok opt o) (sx_sorted opt o) (sx_proper nm opt o)).
  split; intros [k Q]; exists k; congruence.
Qed.
Lemma pieces_glm n ms : from_file T W uri = Ok (Three n) -> parse_three (t_inv T) (t_cap T) ms = Ok n -> known_elements ms -> Forall plain_ends ms ->
  forall nw, solver_network opt (Three n) = Ok nw ->
  ((exists k, run_file T W nm spsolve nan cfg old visit opt uri so = Ok (PFIslands k)) <-> ~ one_piece (dx_details n) nw).
Proof.
  intros E P K PE nw EN. rewrite (run_execute _ _ E EN). cbn [solver_details]. destruct (loaded_network _ _ _ _ _ _ E EN) as (OK & _ & SO & _).
  rewrite <- (islands_iff (dx_details n) spsolve nan cfg old visit nw so OK SO (dx_proper _ _ _ _ K P PE opt nw EN)).
  split; intros [k Q]; exists k; congruence.
Qed.
Lemma line_without_bus n : from_file T W uri = Ok (Three n) ->
  ((exists e, run_file T W nm spsolve nan cfg old visit opt uri so = Err e) <-> exists l, In l (nt_lines n) /\ ~ connected n l).
Proof.
  intros E. unfold run_file. rewrite E. cbn [pbind solver_network solver_details]. pose proof (dx_lines opt n) as D. split.
  - intros [e Q]. destruct (dx_network opt n) as [nw|e'] eqn:EN; [discriminate|].
    assert (NA : ~ forall l, In l (nt_lines n) -> connected n l) by (intros A; apply D in A as [nw Q']; discriminate).
    clear - NA. induction (nt_lines n) as [|l ls IH]; [exfalso; apply NA; intros l []|]. destruct (Classical_Prop.classic (connected n l)) as [C|C]; [|exists l; split; [now left|exact C]].
    destruct IH as (l' & Hl & C'); [intros A; apply NA; intros x [<-|Hx]; auto|]. exists l'. split; [now right|exact C'].
  - intros (l & Hl & C). destruct (dx_network opt n) as [nw|e'] eqn:EN; [|eexists; reflexivity]. exfalso. apply C. apply (proj1 D); [eauto|exact Hl].
Qed.
End Run.
