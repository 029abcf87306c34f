(** Lemmas for C143: the stamps of every element of a network are well formed. *)
From Coq Require Import String List Bool Arith ZArith Reals Lia.
From Verif Require Import Expr Segment Stamper Collect SpecSystem Components SpecComponents UnbalancedLine Network SpecNetwork NetworkProofs NetworkKinds NetworkAssign SystemProofs StamperProofs NetStamper.
Import ListNotations.

Fixpoint nodupb (l : list sym) : bool := match l with [] => true | x :: r => negb (mem x r) && nodupb r end.
Fixpoint trigb (vars : list sym) (e : expr) : bool :=
  match e with
  | Const _ | Sym _ => true
  | Add a b | Mul a b => trigb vars a && trigb vars b
  | Pow a _ => trigb vars a
  | Sin a | Cos a => forallb (fun s => negb (mem s vars)) (fsyms a)
  end.
Definition seg_fine (s : segment) : bool :=
  nodupb (sg_parameters s) && negb (mem tx_factor (sg_variables s)) && forallb (fun x => mem x (sg_parameters s)) (fsyms (sg_lagrange s))
  && trigb (sg_variables s) (sg_lagrange s).
Definition is_some {A} (o : option A) : bool := match o with Some _ => true | None => false end.
Definition is_index (o : option (option nat)) : bool := match o with Some (Some _) => true | _ => false end.
Definition is_skip (o : option (option nat)) : bool := match o with Some None => true | _ => false end.
Definition has_row (d : details) : bool := existsb (fun x => is_index (row_index d x)) (first_orders d).
(** derivatives of a segment: row and column names *)
Definition cells_of (s : segment) (opt : bool) : list (sym * option sym) :=
  flat_map (fun x => map (fun ev => (x, ev_yth ev)) (dv_evals (gen_derivative s x))) (if opt then sg_variables s else sg_duals s).
Definition emits (cs : list (sym * option sym)) (d : details) : bool :=
  existsb (fun p => is_index (row_index d (fst p)) && match snd p with None => true | Some y => is_index (col_index d y) end) cs.
Definition known (cs : list (sym * option sym)) (d : details) : bool :=
  forallb (fun x => is_some (col_index d x)) (sg_variables (sd_seg d)) && forallb (fun x => is_some (row_index d x)) (first_orders d)
  && forallb (fun p => match snd p with None => true | Some y => is_some (col_index d y) end) cs.
Definition fine_with (cs : list (sym * option sym)) (opt : bool) (d : details) (n : nat) : bool :=
  seg_fine (sd_seg d) && Bool.eqb (sd_opt d) opt && Nat.eqb n (length (sg_constants (sd_seg d)))
  && (opt || forallb (fun x => is_skip (col_index d x)) (sg_duals (sd_seg d)))
  && (negb (has_row d) || emits cs d) && known cs d.
(** the constants only matter by their number *)
Definition dfine (opt : bool) (d : details) (n : nat) : bool := fine_with (cells_of (sd_seg d) (sd_opt d)) opt d n.
Definition fine (opt : bool) (e : element) : bool := dfine opt (fst e) (length (snd e)).

Definition shaped (opt : bool) (x : nodes) : Prop := x = GROUND \/ exists k, x = new_nodes k opt.
Definition bus_shaped (opt : bool) (x : nodes) : Prop := exists k, x = new_nodes k opt.
Ltac shapes :=
  repeat match goal with
  | H : shaped _ _ |- _ => destruct H as [-> | [? ->]]
  | H : bus_shaped _ _ |- _ => destruct H as [? ->]
  end.
Lemma fine_line f t opt sh a b c : shaped opt f -> shaped opt t -> fine opt (line_details f t opt sh, [a; b; c]) = true.
Proof. intros. shapes; destruct opt, sh; vm_compute; reflexivity. Qed.
Lemma fine_unb f t f' t' opt (d : bool) a b c : bus_shaped opt f -> bus_shaped opt t -> bus_shaped opt f' -> bus_shaped opt t' ->
  fine opt (unb_details (if d then line_lh else shunt_lh) f t f' t' opt, [a; b; c]) = true.
Proof. intros. shapes; destruct opt, d; vm_compute; reflexivity. Qed.
Lemma fine_unb_sh f f' opt a b c : bus_shaped opt f -> bus_shaped opt f' ->
  fine opt (unb_details shunt_lh f GROUND f' GROUND opt, [a; b; c]) = true.
Proof. intros. shapes; destruct opt; vm_compute; reflexivity. Qed.
Definition all_fine (opt : bool) (s : list stamper) : Prop := forall e, In e (present s) -> fine opt e = true.
Lemma fine_nil opt : all_fine opt []. Proof. intros e []. Qed.
Lemma fine_none opt c s : all_fine opt s -> all_fine opt ((None, c) :: s).
Proof. intros H; exact H. Qed.
Lemma fine_cons opt d c s : fine opt (d, c) = true -> all_fine opt s -> all_fine opt ((Some d, c) :: s).
Proof. intros H1 H2 e [<-|H]; auto. Qed.
Lemma fine_app opt a b : all_fine opt a -> all_fine opt b -> all_fine opt (a ++ b).
Proof. intros Ha Hb e; rewrite present_app, in_app_iff; intros [H|H]; auto. Qed.
Lemma fine_flat {A} opt (f : A -> list stamper) l : (forall x, In x l -> all_fine opt (f x)) -> all_fine opt (flat_map f l).
Proof. induction l as [|x l IH]; intros H; [apply fine_nil|]. simpl; apply fine_app; [apply H; left; auto|apply IH; intros; apply H; right; auto]. Qed.

(** derivatives computed once *)
Definition gen_cells := Eval vm_compute in (cells_of gen_lh false, cells_of gen_lh true).
Lemma gen_cells_eq o : cells_of gen_lh o = if o then snd gen_cells else fst gen_cells.
Proof. destruct o; [vm_cast_no_check (eq_refl (snd gen_cells))|vm_cast_no_check (eq_refl (fst gen_cells))]. Qed.
Definition pq_cells := Eval vm_compute in (cells_of lh_pq false, cells_of lh_pq true).
Lemma pq_cells_eq o : cells_of lh_pq o = if o then snd pq_cells else fst pq_cells.
Proof. destruct o; [vm_cast_no_check (eq_refl (snd pq_cells))|vm_cast_no_check (eq_refl (fst pq_cells))]. Qed.

Lemma dfine_vs f t n opt : shaped opt f -> shaped opt t -> dfine opt (fst (two_terminal_details vs_lh f t n opt)) 2 = true.
Proof. intros. shapes; destruct opt; vm_compute; reflexivity. Qed.
Lemma dfine_gen b n opt : shaped opt b -> dfine opt (fst (two_terminal_details gen_lh b GROUND n opt)) 2 = true.
Proof.
  intros H. unfold dfine. replace (sd_seg (fst (two_terminal_details gen_lh b GROUND n opt))) with gen_lh by (destruct opt; reflexivity).
  rewrite gen_cells_eq. shapes; destruct opt; vm_compute; reflexivity.
Qed.
Lemma dfine_slack b n opt : shaped opt b -> dfine opt (fst (two_terminal_details slack_lh b GROUND n opt)) 2 = true.
Proof. intros. shapes; destruct opt; vm_compute; reflexivity. Qed.
Lemma dfine_pq f t opt : shaped opt f -> shaped opt t -> dfine opt {| sd_seg := lh_pq; sd_var := bus_map f t; sd_eqn := None; sd_opt := opt |} 2 = true.
Proof. intros. unfold dfine. cbn [sd_seg]. rewrite pq_cells_eq. shapes; destruct opt; vm_compute; reflexivity. Qed.
Lemma dfine_ic f t opt : shaped opt f -> shaped opt t -> dfine opt {| sd_seg := lh_Ic; sd_var := bus_map f t; sd_eqn := None; sd_opt := opt |} 2 = true.
Proof. intros. shapes; destruct opt; vm_compute; reflexivity. Qed.
Lemma dfine_xf fp fn tn n opt : shaped opt fp -> shaped opt fn -> shaped opt tn ->
  dfine opt {| sd_seg := xfrmr_lh; sd_var := xf_map fp fn tn (xf_current n opt) (xf_secondary n opt); sd_eqn := None; sd_opt := opt |} 3 = true.
Proof. intros. shapes; destruct opt; vm_compute; reflexivity. Qed.
Lemma fine_series s t n opt a b c : (s = xf_secondary n opt) -> shaped opt t -> fine opt (line_details s t opt false, [a; b; c]) = true.
Proof. intros -> H. shapes; destruct opt; vm_compute; reflexivity. Qed.
Lemma dfine_ct p s1 s2 n opt : bus_shaped opt p -> shaped opt s1 -> shaped opt s2 ->
  dfine opt {| sd_seg := center_tap_lh; sd_var := ct_map p s1 s2 (ct_current 0 n opt) (ct_current 1 n opt); sd_eqn := None; sd_opt := opt |} 2 = true.
Proof. intros. shapes; destruct opt; vm_compute; reflexivity. Qed.

Lemma two_next s f t n opt : two_terminal_details s f t n opt = (fst (two_terminal_details s f t n opt), snd (two_terminal_details s f t n opt)).
Proof. now destruct (two_terminal_details s f t n opt). Qed.
Lemma fine_vs vr vi f t n opt : shaped opt f -> shaped opt t -> all_fine opt (fst (vs_stampers vr vi f t n opt)).
Proof. intros. unfold vs_stampers. rewrite two_next. cbn [fst]. apply fine_cons; [|apply fine_nil]. now apply dfine_vs. Qed.
Lemma fine_gen P v b n opt : shaped opt b -> all_fine opt (fst (gen_stampers P v b n opt)).
Proof. intros. unfold gen_stampers. rewrite two_next. cbn [fst]. apply fine_cons; [|apply fine_nil]. now apply dfine_gen. Qed.
Lemma fine_slack P v b n opt : shaped opt b -> all_fine opt (fst (slack_stampers P v b n opt)).
Proof. intros. unfold slack_stampers. rewrite two_next. cbn [fst]. apply fine_cons; [|apply fine_nil]. now apply dfine_slack. Qed.
Lemma fine_xf x fp fn tp tn n opt : shaped opt fp -> shaped opt fn -> shaped opt tp -> shaped opt tn -> all_fine opt (fst (xf_stampers x fp fn tp tn n opt)).
Proof.
  intros. unfold xf_stampers. cbn [fst]. apply fine_cons; [|apply fine_cons; [|apply fine_nil]].
  - now apply dfine_xf.
  - now apply fine_series with n.
Qed.
Lemma fine_ct c f p s1 t1 s2 t2 n opt : shaped opt f -> bus_shaped opt p -> shaped opt s1 -> shaped opt t1 -> shaped opt s2 -> shaped opt t2 ->
  all_fine opt (fst (ct_stampers c f p s1 t1 s2 t2 n opt)).
Proof.
  intros. unfold ct_stampers. cbn [fst]. apply fine_cons; [now apply dfine_ct|].
  repeat (apply fine_cons; [apply fine_line; auto; now right|]). apply fine_nil.
Qed.
Lemma fine_load l f t n opt : shaped opt f -> shaped opt t -> all_fine opt (fst (load_stampers l f t n opt)).
Proof.
  intros Hf Ht; unfold load_stampers; rewrite pq_next.
  destruct (both0 (ld_P l) (ld_Q l)); rewrite ic_next; destruct (both0 (ld_IP l) (ld_IQ l)); destruct (both0 (ld_Zr l) (ld_Zi l)); cbn [fst snd];
    repeat first [apply fine_none | apply fine_nil | apply fine_cons; [first [apply dfine_pq|apply dfine_ic|apply fine_line]; assumption|]].
Qed.
Lemma fine_l1 b n : bus_shaped true b -> all_fine true (fst (l1_stampers b n)).
Proof. intros H. shapes. intros e [<-|[]]; vm_compute; reflexivity. Qed.
Lemma fine_l2 b n : bus_shaped true b -> all_fine true (fst (l2_stampers b n)).
Proof. intros H. shapes. intros e [<-|[]]; vm_compute; reflexivity. Qed.
Lemma ground_shaped opt : shaped opt GROUND. Proof. now left. Qed.
Lemma bus_is_shaped opt x : bus_shaped opt x -> shaped opt x. Proof. now right. Qed.
