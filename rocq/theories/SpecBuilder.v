(** Specification side of C09-C11: a history of operations without any stored arrays. *)
From Coq Require Import List Bool Arith Reals.
From Verif Require Import Builder.
Import ListNotations.

Section Spec.
Context {V : Type}.
Variable isz : V -> bool.
Notation entry := (nat * nat * V)%type.

(** The entries in use after a history (newest operation last). *)
Definition use_step (u : list entry) (o : @bop V) : list entry :=
  match o with
  | Stamp e => if isz (snd e) then u else u ++ [e]
  | Clear k => firstn k u
  end.
Definition in_use (ops : list (@bop V)) : list entry := fold_left use_step ops [].

(** The largest number of entries ever in use. *)
Fixpoint peak_from (u : list entry) (ops : list (@bop V)) : nat :=
  match ops with
  | [] => length u
  | o :: r => Nat.max (length u) (peak_from (use_step u o) r)
  end.
Definition peak (ops : list (@bop V)) : nat := peak_from [] ops.

(** A clear never retains more than is in use. *)
Fixpoint valid_from (u : list entry) (ops : list (@bop V)) : Prop :=
  match ops with
  | [] => True
  | o :: r => (match o with Clear k => k <= length u | Stamp _ => True end) /\ valid_from (use_step u o) r
  end.
Definition valid_history (ops : list (@bop V)) : Prop := valid_from [] ops.

(** The entry most recently stamped while exactly [i] entries were in use. *)
Fixpoint last_at_from (u : list entry) (ops : list (@bop V)) (i : nat) (cur : option entry) : option entry :=
  match ops with
  | [] => cur
  | o :: r =>
      last_at_from (use_step u o) r i
        (match o with
         | Stamp e => if isz (snd e) then cur else if length u =? i then Some e else cur
         | Clear _ => cur
         end)
  end.
Definition last_at (ops : list (@bop V)) (i : nat) : option entry := last_at_from [] ops i None.
End Spec.

(** The matrix denoted by coordinate triples: duplicates are summed (csc_matrix). *)
Local Open Scope R_scope.
Fixpoint mat_at (es : list (nat * nat * R)) (r c : nat) : R :=
  match es with
  | [] => 0
  | (i, j, v) :: rest => (if (Nat.eqb i r && Nat.eqb j c)%bool then v else 0) + mat_at rest r c
  end.
