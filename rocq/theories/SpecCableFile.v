(** What a GridLAB-D file says about underground lines; written without the reader. *)
From Coq Require Import Reals ZArith String Ascii List Bool.
From Verif Require Import PyExc SpecComponents SpecUnbalanced Components UnbalancedLine GlmText SpecGlm LineImpedance ThreePhase SpecReader SpecLineZ SpecReader2 SpecCables.
Import ListNotations.
Local Open Scope R_scope.
Set Implicit Arguments.

(** an underground line with a conductor object of this name *)
Definition buried (objs : list (string * gobj)) (n : string) (o : gobj) : Prop :=
  go_class o = "underground_line"%string /\ exists c p, configured objs o c /\ In p line_phases /\ says c ("conductor_" ++ p) n.
(** a line of pre, or an earlier phase of the configuration c, has the conductor object n *)
Definition buried_before (objs pre : list (string * gobj)) (c : gobj) (p n : string) : Prop :=
  (exists m o, In (m, o) pre /\ buried objs n o) \/ (exists q, In q line_phases /\ before q p /\ says c ("conductor_" ++ q) n).
(** x without its fraction *)
Definition whole (x : R) (k : Z) : Prop := (0 < k)%Z /\ IZR k <= x < IZR k + 1.
(** a conductor object with these data; r is its resistance per mile *)
Definition cable_object (E : prims) (cd : gobj) (used : Prop) (c : cdata) : Prop :=
  (exists od nd, number E cd "outer_diameter" od /\ number E cd "neutral_diameter" nd /\ c_radius c = (od - nd) / 24) /\
  (exists x, number E cd "neutral_strands" x /\ whole x (c_k c)) /\
  SpecReader2.measured E cd "conductor_resistance" "Ohm/km" per_mile used (c_r c) /\ number E cd "conductor_gmr" (c_g c) /\
  number E cd "neutral_resistance" (c_sr c) /\ number E cd "neutral_gmr" (c_sg c) /\ 0 < c_radius c /\ 0 < c_g c /\ 0 < c_sg c.
(** no distance is given as zero *)
Definition no_zero (E : prims) (so : gobj) : Prop :=
  forall p q t t', before p q -> says so ("distance_" ++ p ++ q) t -> only_number t t' -> p_float E t' <> Some 0.
(** all wires: the phases and, if any, the neutral *)
Definition with_neutral (ps : list string) (neutral : option (R * R)) : list string :=
  (ps ++ match neutral with Some _ => ["N"%string] | None => [] end)%list.
(** the configuration of an underground line after the objects pre *)
Definition underground_data (E : prims) (objs pre : list (string * gobj)) (o : gobj) (ps : list string) (cs : list cdata)
  (neutral : option (R * R)) (D : string -> string -> R) : Prop :=
  exists c so m, configured objs o c /\ conductors_of c line_phases (with_neutral ps neutral) /\ ~ In "N"%string ps /\ ps <> [] /\
    (exists n, says c "spacing" n /\ named objs n so) /\
    Forall2 (fun p cab => exists n cd, says c ("conductor_" ++ p) n /\ named objs n cd /\ cable_object E cd (buried_before objs pre c p n) cab) ps cs /\
    (forall r g, neutral = Some (r, g) -> 0 < g /\ exists n cd od, says c "conductor_N" n /\ named objs n cd /\ number E cd "outer_diameter" od /\
       SpecReader2.measured E cd "conductor_resistance" "Ohm/km" per_mile (buried_before objs pre c "N" n) r /\ number E cd "conductor_gmr" g) /\
    places E so (with_neutral ps neutral ++ m) /\ no_zero E so /\
    (forall i j p q, nth_error (with_neutral ps neutral) i = Some p -> nth_error (with_neutral ps neutral) j = Some q -> i <> j ->
       gap E so p q (D p q) /\ 0 < D p q /\ ring cs j < D p q).
(** half of the shunt susceptance of the i-th phase *)
Definition shunt_objects (E : prims) (objs : list (string * gobj)) (o : gobj) (ps : list string) (y : nat -> R) : Prop :=
  forall i p, nth_error ps i = Some p -> exists c n cdo od nd cd x k, configured objs o c /\ says c ("conductor_" ++ p) n /\ named objs n cdo /\
    number E cdo "outer_diameter" od /\ number E cdo "neutral_diameter" nd /\ number E cdo "conductor_diameter" cd /\
    number E cdo "neutral_strands" x /\ whole x k /\ sound od nd cd k /\ ring_factor ((od - nd) / 2) (cd / 2) (nd / 2) k <> 0 /\
    y i = ring_shunt ((od - nd) / 2) (cd / 2) (nd / 2) k / 2.
(** the distances by position *)
Definition by_place (l : list string) (D : string -> string -> R) (i j : nat) : R :=
  if Nat.eqb i j then 0 else D (nth i l ""%string) (nth j l ""%string).
(** what an underground line becomes *)
Definition underground_ok (E : prims) (objs pre : list (string * gobj)) (o : gobj) (part : list dmodel) : Prop :=
  forall ps cs neutral D z, underground_data E objs pre o ps cs neutral D ->
    let ws := with_neutral ps neutral in let n := List.length cs in let b := List.length ws in
    cable_primitive cs neutral b (by_place ws D) z -> inverts E b (fun i j => z (n + i)%nat (n + j)%nat) ->
    exists l fk, part = [MLine l] /\ closed_wires E objs o ws (dl_wires l) /\ grounded_law n b z fk /\
      holds n n (dl_z l) (fun i j => to_metre (fk i j)) /\
      ((forall p q, D p q = D q p) -> forall i j, (i < n)%nat -> (j < n)%nat -> fk i j = fk j i) /\
      forall y, shunt_objects E objs o ps y -> exists sh, dl_shunt l = Some sh /\
        holds 3 3 sh (fun i j => if (Nat.eqb i j && Nat.ltb i n)%bool then to_metre (0, y i) else C0).
