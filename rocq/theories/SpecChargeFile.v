(** What a GridLAB-D file says about the charging of overhead lines; written without the reader. *)
From Coq Require Import Reals ZArith String Ascii List Bool.
From Verif Require Import PyExc SpecComponents SpecUnbalanced Components UnbalancedLine GlmText SpecGlm LineImpedance ThreePhase SpecReader SpecLineZ SpecReader2 SpecCables.
Import ListNotations.
Local Open Scope R_scope.
Set Implicit Arguments.

(** a conductor object without diameter has half an inch *)
Definition diameter (a : option R) : R := match a with Some d => d | None => 1 / 2 end.
(** distances X, heights h and half diameters rad of the wires ps of an overhead line; a spacing without heights means one foot *)
Definition overhead_measures (E : prims) (objs : list (string * gobj)) (o : gobj) (ps : list string) (X : string -> string -> R) (h rad : string -> R) : Prop :=
  exists c so, configured objs o c /\ conductors_of c line_phases ps /\ (exists n, says c "spacing" n /\ named objs n so) /\
    (forall p, In p ps -> exists n cd a, says c ("conductor_" ++ p) n /\ named objs n cd /\ opt_number E cd "diameter" a /\ 0 < diameter a /\ rad p = diameter a / 2) /\
    (forall p q, In p ps -> In q ps -> p <> q -> gap E so p q (X p q) /\ 0 < X p q) /\
    ((forall p, In p ps -> gap E so p "E" (h p) /\ 0 < h p) \/
     (forall p x, ~ gap E so p "E" x) /\ (forall p, In p ps -> placed E so p /\ h p = 1)) /\
    (forall p, In p ps -> p <> "N"%string -> In "N"%string ps -> (h p - h "N"%string) * (h p - h "N"%string) <= X p "N"%string * X p "N"%string).
(** the shunt admittance of an overhead line with phases cs, per metre *)
Definition charging_ok (E : prims) (objs : list (string * gobj)) (o : gobj) (part : list dmodel) : Prop :=
  forall (cs : list string) (neutral : bool) X h rad, let ps := (cs ++ if neutral then ["N"%string] else [])%list in
    overhead_measures E objs o ps X h rad -> ~ In "N"%string cs ->
    (neutral = true -> coeff X rad (used_mirror X h) "N"%string "N"%string <> 0) ->
    let c := List.length cs in let n := List.length ps in
    let P i j := coeff X rad (used_mirror X h) (nth i ps ""%string) (nth j ps ""%string) in
    inverts E c (real (if neutral then earthed c P else P)) ->
    exists l sh fm, part = [MLine l] /\ dl_shunt l = Some sh /\ holds c c sh (fun i j => to_metre (fm i j)) /\
      forall q, (neutral = true -> times n (real P) q c = C0) -> forall i, (i < c)%nat -> times c fm (times n (real P) q) i = half_charging (q i).
