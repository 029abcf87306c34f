(** Property theorems C09-C11 (src/logic/stamping/matrixbuilder.py). *)
From Coq Require Import List Bool Arith ZArith Reals Lia.
From Verif Require Import Builder SpecBuilder BuilderProofs.
Import ListNotations.

(** A small history over Z used in the examples: two linear entries, then two iterations. *)
Definition zisz (z : Z) := Z.eqb z 0.
Definition hist_ok : list (@bop Z) :=
  [Stamp (0, 0, 5%Z); Stamp (1, 1, 7%Z); Stamp (0, 1, 3%Z); Stamp (2, 1, 0%Z); Clear 2; Stamp (1, 0, 4%Z); Stamp (1, 1, 1%Z)].
Definition hist_stale : list (@bop Z) :=
  [Stamp (0, 0, 5%Z); Stamp (0, 1, 3%Z); Stamp (1, 1, 2%Z); Clear 1; Stamp (1, 0, 4%Z)].

(** C09: reads always report the entries in use ... *)
Theorem C09_reads_report_entries_in_use : forall (V : Type) (isz isbad : V -> bool) debug ops b,
  valid_history isz ops -> b_run isz isbad debug b_init ops = BOk b ->
  b_get_usage b = length (in_use isz ops) /\
  (forall r, b_get_row b r = map (fun e => (snd (fst e), snd e)) (filter (fun e => fst (fst e) =? r) (in_use isz ops))) /\
  (forall c, b_get_col b c = map (fun e => (fst (fst e), snd e)) (filter (fun e => snd (fst e) =? c) (in_use isz ops))).
Proof. exact (@builder_usage). Qed.
Print Assumptions C09_reads_report_entries_in_use.

(** ... and what is solved is exactly the entries in use whenever the use is at its peak. *)
Theorem C09_matrix_is_entries_in_use : forall (V : Type) (isz isbad : V -> bool) debug ops b,
  valid_history isz ops -> b_run isz isbad debug b_init ops = BOk b ->
  length (in_use isz ops) = peak isz ops -> b_to_matrix debug b = BOk (in_use isz ops).
Proof. exact (@builder_exact). Qed.
Print Assumptions C09_matrix_is_entries_in_use.

(** outside debug mode a valid history never raises *)
Theorem C09_never_raises : forall (V : Type) (isz isbad : V -> bool) ops,
  valid_history isz ops -> exists b, b_run isz isbad false b_init ops = BOk b.
Proof. exact (@builder_total). Qed.
Print Assumptions C09_never_raises.

Example C09_nonvacuous :
  valid_history zisz hist_ok /\ length (in_use zisz hist_ok) = peak zisz hist_ok /\
  (exists b, b_run zisz (fun _ => false) true b_init hist_ok = BOk b) /\
  in_use zisz hist_ok = [(0, 0, 5%Z); (1, 1, 7%Z); (1, 0, 4%Z); (1, 1, 1%Z)].
Proof. vm_compute. repeat split; eauto; lia. Qed.

(** C10: in general the solved triples are the entries in use followed by stale entries, each being the
    last one stamped at its place; the solved matrix is right iff the stale part sums to zero everywhere. *)
Theorem C10_exact_surplus : forall (V : Type) (isz isbad : V -> bool) debug ops b es,
  valid_history isz ops -> b_run isz isbad debug b_init ops = BOk b ->
  b_to_matrix debug b = BOk es ->
  exists stale, es = in_use isz ops ++ stale /\
    length es = peak isz ops /\
    forall i, i < length stale -> nth_error stale i = last_at isz ops (length (in_use isz ops) + i).
Proof. exact (@builder_surplus). Qed.
Print Assumptions C10_exact_surplus.

Theorem C10_correct_iff_surplus_cancels : forall isbad ops b es,
  valid_history Rzerob ops -> b_run Rzerob isbad false b_init ops = BOk b ->
  b_to_matrix false b = BOk es ->
  ((forall r c, mat_at es r c = mat_at (in_use Rzerob ops) r c) <->
   (forall r c, mat_at (skipn (length (in_use Rzerob ops)) es) r c = 0%R)).
Proof. exact builder_stale_iff. Qed.
Print Assumptions C10_correct_iff_surplus_cancels.

Theorem C10_stale_entries_refuted : exists ops st es r c,
  valid_history Rzerob ops /\ b_run Rzerob (fun _ => false) false b_init ops = BOk st /\
  b_to_matrix false st = BOk es /\ mat_at es r c <> mat_at (in_use Rzerob ops) r c.
Proof. exact builder_stale_witness. Qed.
Print Assumptions C10_stale_entries_refuted.

Example C10_nonvacuous :
  valid_history zisz hist_stale /\
  (exists b, b_run zisz (fun _ => false) false b_init hist_stale = BOk b /\
     b_to_matrix false b = BOk [(0, 0, 5%Z); (1, 0, 4%Z); (1, 1, 2%Z)]) /\
  in_use zisz hist_stale = [(0, 0, 5%Z); (1, 0, 4%Z)] /\ last_at zisz hist_stale 2 = Some (1, 1, 2%Z).
Proof. vm_compute. repeat split; eauto; lia. Qed.

(** C11: in debug mode the result is exact or an exception, and it raises exactly when entries are left over. *)
Theorem C11_debug_never_stale : forall (V : Type) (isz isbad : V -> bool) debug ops b es, debug = true ->
  valid_history isz ops -> b_run isz isbad debug b_init ops = BOk b ->
  b_to_matrix debug b = BOk es -> es = in_use isz ops.
Proof. exact (@builder_debug). Qed.
Print Assumptions C11_debug_never_stale.

Theorem C11_debug_raises_iff_leftover : forall (V : Type) (isz isbad : V -> bool) debug ops b, debug = true ->
  valid_history isz ops -> b_run isz isbad debug b_init ops = BOk b ->
  (b_to_matrix debug b = BErr GarbageRemains <-> length (in_use isz ops) < peak isz ops).
Proof. exact (@builder_debug_raises_iff). Qed.
Print Assumptions C11_debug_raises_iff_leftover.

Example C11_nonvacuous :
  (exists b, b_run zisz (fun _ => false) true b_init hist_stale = BOk b /\ b_to_matrix true b = BErr GarbageRemains) /\
  (exists b es, b_run zisz (fun _ => false) true b_init hist_ok = BOk b /\ b_to_matrix true b = BOk es).
Proof. vm_compute. split; eauto. Qed.
