(** Model of src/logic/stamping/lagrangepickler.py and LagrangeSegment.get_derivatives
    (src/logic/stamping/lagrangesegment.py:168-192). *)
From Coq Require Import List Bool Arith.
Import ListNotations.

Section Pickler.
Context {Key Name D Byte : Type}.
Variable name_eqb : Name -> Name -> bool.
Variable hash : Key -> Name.              (* first ten hex digits of sha1, lagrangepickler.py:14-19 *)
Variable gen : Key -> D.                  (* what _generate_derivatives computes for a segment *)
Variable enc : D -> list Byte.            (* dill.dump *)
Variable dec : list Byte -> option D.     (* dill.load, None when it raises *)

(** file system: contents of the cache directory *)
Definition fs := Name -> option (list Byte).

Definition fs_write (f : fs) (n : Name) (c : list Byte) : fs :=
  fun m => if name_eqb n m then Some c else f m.
Definition fs_delete (f : fs) (n : Name) : fs :=
  fun m => if name_eqb n m then None else f m.

(** has_pickle, lagrangepickler.py:21-23 *)
Definition has_pickle (f : fs) (k : Key) : bool :=
  match f (hash k) with Some _ => true | None => false end.

(** try_unpickle, lagrangepickler.py:25-33 *)
Definition try_unpickle (f : fs) (k : Key) : option D :=
  match f (hash k) with Some c => dec c | None => None end.

(** How a write in try_pickle (lagrangepickler.py:35-37) can end: complete, an exception after n bytes
    (disk full), or the death of the process after n bytes. *)
Inductive outcome := WriteOk | WriteFails (n : nat) | Dies (n : nat).

Inductive answer := Returned (d : D) | Raised | Died.

(** State: the directory and the memo field _derivatives of every live segment object. *)
Record state := { st_fs : fs; st_memo : nat -> option D }.

Definition set_memo (m : nat -> option D) (i : nat) (d : D) : nat -> option D :=
  fun j => if i =? j then Some d else m j.

(** _generate_derivatives, lagrangesegment.py:182-192: the memo is set before the file is written *)
Definition generate (s : state) (i : nat) (k : Key) (o : outcome) : state * answer :=
  let d := gen k in
  let m := set_memo (st_memo s) i d in
  match o with
  | WriteOk => ({| st_fs := fs_write (st_fs s) (hash k) (enc d); st_memo := m |}, Returned d)
  | WriteFails n => ({| st_fs := fs_write (st_fs s) (hash k) (firstn n (enc d)); st_memo := m |}, Raised)
  | Dies n => ({| st_fs := fs_write (st_fs s) (hash k) (firstn n (enc d)); st_memo := fun _ => None |}, Died)
  end.

(** get_derivatives, lagrangesegment.py:168-180, on segment object [i] whose key is [k] *)
Definition get_derivatives (s : state) (i : nat) (k : Key) (o : outcome) : state * answer :=
  match st_memo s i with
  | Some d => (s, Returned d)
  | None =>
      if has_pickle (st_fs s) k then
        match try_unpickle (st_fs s) k with
        | Some d => ({| st_fs := st_fs s; st_memo := set_memo (st_memo s) i d |}, Returned d)
        | None => generate s i k o
        end
      else generate s i k o
  end.

(** What can happen: a call on object [i]; a partial or complete write by another process working on
    any segment; deletion of a file; restart of this process. *)
Inductive event :=
| Get (i : nat) (o : outcome)
| OtherWrites (k : Key) (n : nat)
| Delete (n : Name)
| Restart.

Variable key_of : nat -> Key.   (* the key of segment object i *)

Definition step (s : state) (e : event) : state :=
  match e with
  | Get i o => fst (get_derivatives s i (key_of i) o)
  | OtherWrites k n => {| st_fs := fs_write (st_fs s) (hash k) (firstn n (enc (gen k))); st_memo := st_memo s |}
  | Delete n => {| st_fs := fs_delete (st_fs s) n; st_memo := st_memo s |}
  | Restart => {| st_fs := st_fs s; st_memo := fun _ => None |}
  end.

Definition run (s : state) (es : list event) : state := fold_left step es s.

Definition start : state := {| st_fs := fun _ => None; st_memo := fun _ => None |}.
End Pickler.
