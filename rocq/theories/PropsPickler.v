(** Property theorems C14 and C15 (derivative cache). *)
From Coq Require Import List Bool Arith Lia.
From Verif Require Import Pickler PicklerProofs.
Import ListNotations.

(** C14: after any history of calls, torn or complete writes by other processes, failed writes, crashes,
    deletions and restarts, a call never answers with anything but the segment's own derivatives, and it
    does answer unless its own write fails or the process dies. *)
Theorem C14_cache_crash_tolerant : forall (Key Name D Byte : Type) (name_eqb : Name -> Name -> bool),
  (forall a b, name_eqb a b = true <-> a = b) ->
  forall (hash : Key -> Name) (gen : Key -> D) (enc : D -> list Byte) (dec : list Byte -> option D) (key_of : nat -> Key),
  (forall d, dec (enc d) = Some d) ->
  (forall d n, n < length (enc d) -> dec (firstn n (enc d)) = None) ->
  (forall a b, hash a = hash b -> a = b) ->
  forall es i o, let s := run name_eqb hash gen enc dec key_of start es in
  (forall d, snd (get_derivatives name_eqb hash gen enc dec s i (key_of i) o) = Returned d -> d = gen (key_of i)) /\
  (o = WriteOk -> snd (get_derivatives name_eqb hash gen enc dec s i (key_of i) o) = Returned (gen (key_of i))).
Proof. exact (@cache_correct). Qed.
Print Assumptions C14_cache_crash_tolerant.

(** and the answer is then remembered: later calls ignore the directory and do not write to it *)
Theorem C14_answer_remembered : forall (Key Name D Byte : Type) (name_eqb : Name -> Name -> bool),
  (forall a b, name_eqb a b = true <-> a = b) ->
  forall (hash : Key -> Name) (gen : Key -> D) (enc : D -> list Byte) (dec : list Byte -> option D) (key_of : nat -> Key),
  (forall d, dec (enc d) = Some d) ->
  (forall d n, n < length (enc d) -> dec (firstn n (enc d)) = None) ->
  (forall a b, hash a = hash b -> a = b) ->
  forall es i o, let s := run name_eqb hash gen enc dec key_of start es in
  let (s1, a) := get_derivatives name_eqb hash gen enc dec s i (key_of i) o in
  a <> Died -> forall f o',
    get_derivatives name_eqb hash gen enc dec {| st_fs := f; st_memo := st_memo s1 |} i (key_of i) o' =
     ({| st_fs := f; st_memo := st_memo s1 |}, Returned (gen (key_of i))).
Proof. exact (@cache_remembered). Qed.
Print Assumptions C14_answer_remembered.

(** a complete file is used again after a restart, without generating or writing anything *)
Theorem C14_survives_restart : forall (Key Name D Byte : Type) (name_eqb : Name -> Name -> bool),
  (forall a b, name_eqb a b = true <-> a = b) ->
  forall (hash : Key -> Name) (gen : Key -> D) (enc : D -> list Byte) (dec : list Byte -> option D) (key_of : nat -> Key),
  (forall d, dec (enc d) = Some d) ->
  forall i o, snd (get_derivatives name_eqb hash gen enc dec (run name_eqb hash gen enc dec key_of start [Get i WriteOk; Restart]) i (key_of i) o)
    = Returned (gen (key_of i)).
Proof. exact (@cache_survives). Qed.
Print Assumptions C14_survives_restart.
(** a call that does not answer leaves the bytes written so far in the segment's file, and all other files as they were *)
Theorem C14_torn_write : forall (Key Name D Byte : Type) (name_eqb : Name -> Name -> bool)
  (hash : Key -> Name) (gen : Key -> D) (enc : D -> list Byte) (dec : list Byte -> option D) (key_of : nat -> Key),
  forall es i o n, o = WriteFails n \/ o = Dies n -> let s := run name_eqb hash gen enc dec key_of start es in
  let g := get_derivatives name_eqb hash gen enc dec s i (key_of i) o in
  snd g = Raised \/ snd g = Died ->
  forall m, st_fs (fst g) m = if name_eqb (hash (key_of i)) m then Some (firstn n (enc (gen (key_of i)))) else st_fs s m.
Proof. exact (@cache_torn). Qed.
Print Assumptions C14_torn_write.

(** hypotheses are satisfiable, and a torn file left by another process is survived *)
Example C14_nonvacuous :
  (forall d, ex_dec (ex_enc d) = Some d) /\
  (forall d n, n < length (ex_enc d) -> ex_dec (firstn n (ex_enc d)) = None) /\
  snd (get_derivatives Nat.eqb (fun k => k) (fun k => k + 3) ex_enc ex_dec
        (run Nat.eqb (fun k => k) (fun k => k + 3) ex_enc ex_dec (fun i => i) start
           [OtherWrites 1 2; Get 0 (Dies 1); OtherWrites 2 100]) 1 1 WriteOk) = Returned 4.
Proof. split; [exact ex_dec_complete|]. split; [exact ex_dec_prefix|]. reflexivity. Qed.

(** C15: two segments whose truncated digests collide. *)
Theorem C15_collision_returns_other_model : forall (Key Name D Byte : Type) (name_eqb : Name -> Name -> bool),
  (forall a b, name_eqb a b = true <-> a = b) ->
  forall (hash : Key -> Name) (gen : Key -> D) (enc : D -> list Byte) (dec : list Byte -> option D) (key_of : nat -> Key),
  (forall d, dec (enc d) = Some d) ->
  forall i j, i <> j -> hash (key_of i) = hash (key_of j) ->
  snd (get_derivatives name_eqb hash gen enc dec (run name_eqb hash gen enc dec key_of start [Get i WriteOk]) j (key_of j) WriteOk)
    = Returned (gen (key_of i)).
Proof. exact (@cache_collision). Qed.
Print Assumptions C15_collision_returns_other_model.

Example C15_nonvacuous :
  snd (get_derivatives Nat.eqb (fun _ => 0) (fun k => k + 3) ex_enc ex_dec
        (run Nat.eqb (fun _ => 0) (fun k => k + 3) ex_enc ex_dec (fun i => i) start [Get 0 WriteOk]) 1 1 WriteOk) = Returned 3.
Proof. reflexivity. Qed.
