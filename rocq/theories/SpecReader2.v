(** What a GridLAB-D file says about lines, transformers, regulators and node voltages; written without the reader. *)
From Coq Require Import Reals ZArith String Ascii List Bool.
From Verif Require Import PyExc SpecComponents SpecUnbalanced Components UnbalancedLine GlmText SpecGlm LineImpedance ThreePhase SpecReader SpecLineZ.
Import ListNotations.
Local Open Scope R_scope.
Set Implicit Arguments.

Definition part_of (u t : string) : Prop := exists a b, t = (a ++ u ++ b)%string.
(** the number among the characters of a text *)
Definition among (E : prims) (t : string) (x : R) : Prop := exists t', only_number t t' /\ p_float E t' = Some x.
(** the number of an attribute whose text does not contain the unit *)
Definition bare (E : prims) (o : gobj) (k unit : string) (x : R) : Prop :=
  exists t, says o k t /\ ~ part_of unit t /\ p_float E t = Some x.
(** the number of an attribute whose text contains the unit *)
Definition with_unit (E : prims) (o : gobj) (k unit : string) (x : R) : Prop :=
  exists t, says o k t /\ part_of unit t /\ among E t x.

(** *** lines *)
Definition line_classes : list string := ["overhead_line"; "triplex_line"; "underground_line"]%string.
(** the length in metres: kilometres with the unit, feet without *)
Definition metres (E : prims) (o : gobj) (v : R) : Prop :=
  exists t, says o "length" t /\
    (part_of "km" t /\ (exists x, among E t x /\ v = x * 1000) \/ ~ part_of "km" t /\ exists x, p_float E t = Some x /\ v = x * 0.3048).
Definition configured (objs : list (string * gobj)) (o c : gobj) : Prop := exists n, says o "configuration" n /\ named objs n c.
Definition conductor (objs : list (string * gobj)) (c : gobj) (p : string) (cd : gobj) : Prop :=
  exists n, says c ("conductor_" ++ p) n /\ named objs n cd.
(** the phases, in the order of l, a configuration has conductors for *)
Definition conductors_of (c : gobj) (l ps : list string) : Prop :=
  exists f, (forall p, f p = true <-> ~ silent c ("conductor_" ++ p)) /\ ps = filter f l.
(** an overhead line with a conductor object of this name *)
Definition uses (objs : list (string * gobj)) (n : string) (o : gobj) : Prop :=
  go_class o = "overhead_line"%string /\ exists c p, configured objs o c /\ In p line_phases /\ says c ("conductor_" ++ p) n.
(** a line of pre, or an earlier phase of the configuration c, has the conductor object n *)
Definition used_before (objs pre : list (string * gobj)) (c : gobj) (p n : string) : Prop :=
  (exists m o, In (m, o) pre /\ uses objs n o) \/ (exists q, In q line_phases /\ before q p /\ says c ("conductor_" ++ q) n).
(** the value of an attribute: with the unit it is converted, but only on first use; without the unit it is taken as it is *)
Definition measured (E : prims) (cd : gobj) (k unit : string) (conv : R -> R) (used : Prop) (x : R) : Prop :=
  exists t, says cd k t /\ (~ part_of unit t /\ p_float E t = Some x \/ part_of unit t /\ exists y, among E t y /\ (used /\ x = y \/ ~ used /\ x = conv y)).
Definition per_mile (y : R) : R := y * 1.609344.
Definition cm_to_feet (y : R) : R := y / 30.48.
(** the configuration of an overhead line after the objects pre: r and g are resistance per mile and radius in feet of its wires *)
Definition overhead_data (E : prims) (objs pre : list (string * gobj)) (o : gobj) (ps : list string) (r g : string -> R) (D : string -> string -> R) : Prop :=
  exists c so m, configured objs o c /\ conductors_of c line_phases ps /\
    (exists n, says c "spacing" n /\ named objs n so) /\
    (forall p, In p ps -> exists n cd, says c ("conductor_" ++ p) n /\ named objs n cd /\
       measured E cd "resistance" "Ohm/km" per_mile (used_before objs pre c p n) (r p) /\
       measured E cd "geometric_mean_radius" "cm" cm_to_feet (used_before objs pre c p n) (g p) /\ 0 < g p) /\
    places E so (ps ++ m) /\
    (forall p q, In p ps -> In q ps -> p <> q -> gap E so p q (D p q) /\ 0 < D p q).
Definition phase_z (ps : list string) (r g : string -> R) (D : string -> string -> R) (z : string -> string -> C) : Prop :=
  (forall p, In p ps -> z p p = carson_self (r p) (g p)) /\
  (forall p q, In p ps -> In q ps -> p <> q -> z p q = carson_mutual (D p q)) /\
  (forall p q, ~ In p ps -> z p q = C0 /\ z q p = C0).
(** ohms per mile in ohms per metre *)
Definition to_metre (z : C) : C := (fst z / 1609.344, snd z / 1609.344).
(** the configuration of a triplex line *)
Definition triplex_data (E : prims) (objs : list (string * gobj)) (o : gobj) (ps : list string) (r g : string -> R) (d12 d1n : R) : Prop :=
  exists c d t, configured objs o c /\ conductors_of c triplex_phases ps /\ ps <> [] /\
    number E c "diameter" d /\ number E c "insulation_thickness" t /\ 0 < d /\ 0 <= t /\ d12 = (d + 2 * t) / 12 /\ d1n = (d + t) / 12 /\
    (forall p, In p ps -> exists cd, conductor objs c p cd /\ bare E cd "resistance" "Ohm/km" (r p) /\
       bare E cd "geometric_mean_radius" "cm" (g p) /\ 0 < g p).
(** the ampacity of phase p: the summer emergency rating of its conductor *)
Definition amps (E : prims) (objs : list (string * gobj)) (o : gobj) (p : string) (a : option R) : Prop :=
  exists c n cd, configured objs o c /\ says c ("conductor_" ++ p) n /\ named objs n cd /\ opt_number E cd "rating.summer.emergency" a.
(** one closed wire for each phase of ps *)
Definition closed_wires (E : prims) (objs : list (string * gobj)) (o : gobj) (ps : list string) (ws : list dwire) : Prop :=
  Forall2 (fun p w => wi_phase w = p /\ wi_open w = false /\ amps E objs o p (wi_amp w)) ps ws.
(** what an overhead line becomes *)
Definition overhead_ok (E : prims) (objs pre : list (string * gobj)) (o : gobj) (part : list dmodel) : Prop :=
  forall core ps r g D z neutral, phase_core o core -> overhead_data E objs pre o ps r g D -> phase_z ps r g D z ->
    (neutral = true <-> In "N"%char (chars core)) -> (neutral = true -> inverts_neutral E (z "N" "N")%string) ->
    exists l, part = [MLine l] /\ closed_wires E objs o ps (dl_wires l) /\
      holds (List.length (abc_of (phase_letters core))) (List.length (abc_of (phase_letters core))) (dl_z l)
            (fun i j => to_metre (reduced neutral z (nth i (abc_of (phase_letters core)) "") (nth j (abc_of (phase_letters core)) "")))%string.
(** what a triplex line becomes *)
Definition triplex_ok (E : prims) (objs : list (string * gobj)) (o : gobj) (part : list dmodel) : Prop :=
  forall ps r g d12 d1n z, triplex_data E objs o ps r g d12 d1n ->
    phase_z ps r g (fun p q => if (String.eqb p "N" || String.eqb q "N")%bool then d1n else d12) z -> inverts_neutral E (z "N" "N")%string ->
    exists l, part = [MLine l] /\ closed_wires E objs o ps (dl_wires l) /\
      holds 2 2 (dl_z l) (fun i j => to_metre (reduced true z (nth i ["1"; "2"] "") (nth j ["1"; "2"] "")))%string.
Definition length_ok (E : prims) (o : gobj) (part : list dmodel) : Prop := exists l, part = [MLine l] /\ metres E o (dl_len l).
(** a configuration without conductors, as one that gives its impedances directly *)
Definition without_conductors (objs : list (string * gobj)) (o : gobj) (l : list string) : Prop :=
  exists c, configured objs o c /\ forall p, In p l -> silent c ("conductor_" ++ p).
(** an overhead line without conductors and without N *)
Definition bare_ok (objs : list (string * gobj)) (o : gobj) (part : list dmodel) : Prop :=
  forall core, phase_core o core -> without_conductors objs o line_phases -> ~ In "N"%char (chars core) ->
    exists l, part = [MLine l] /\ dl_wires l = [] /\
      holds (List.length (abc_of (phase_letters core))) (List.length (abc_of (phase_letters core))) (dl_z l) (fun _ _ => C0).
(** a line without configuration has the wires of the last line before it that has one *)
Definition configured_line (o : gobj) : Prop := In (go_class o) line_classes /\ ~ silent o "configuration".
Definition last_configured (objs : list (string * gobj)) (i j : nat) : Prop :=
  (j < i)%nat /\ (exists n o, nth_error objs j = Some (n, o) /\ configured_line o) /\
  forall k n o, (j < k < i)%nat -> nth_error objs k = Some (n, o) -> ~ configured_line o.
