(** C138: underground lines from the file *)
From Coq Require Import Reals ZArith String List Bool Lra.
From Verif Require Import PyExc SpecComponents SpecUnbalanced Components UnbalancedLine GlmText LineImpedance ThreePhase GlmReader SpecReader SpecLineZ LineZWitness SpecReader2 ReaderWitness2 Cables SpecCables CableWitness SpecCableFile CableFile CableFileWitness.
Import ListNotations.
Local Open Scope string_scope.

Theorem C138_underground : forall E0 side sch objs ms, let E := with_cables E0 side in NoDup (map fst objs) -> read_store E sch objs = Ok ms ->
  exists parts, Forall2 (fun no part => contributes E sch (fst no) (snd no) part) objs parts /\ Forall2 same_model (concat parts) ms /\
    forall i name o part, nth_error objs i = Some (name, o) -> nth_error parts i = Some part -> go_class o = "underground_line" -> underground_ok E objs (firstn i objs) o part.
Proof. exact lines_underground. Qed.
Print Assumptions C138_underground.
Example C138_two_lines : NoDup (map fst (u_objs "1 Ohm/km")) /\ (exists l1 l2, read_store u_prims [] (u_objs "1 Ohm/km") = Ok [MLine l1; MLine l2]) /\
  nth_error (u_objs "1 Ohm/km") 3 = Some ("u1", u_obj) /\ nth_error (u_objs "1 Ohm/km") 4 = Some ("u2", u_obj) /\
  underground_data u_prims (u_objs "1 Ohm/km") (firstn 3 (u_objs "1 Ohm/km")) u_obj ["A"] [u_cable (per_mile 1)] None (fun _ _ => 2%R) /\
  underground_data u_prims (u_objs "1 Ohm/km") (firstn 4 (u_objs "1 Ohm/km")) u_obj ["A"] [u_cable 1] None (fun _ _ => 2%R) /\
  shunt_objects u_prims (u_objs "1 Ohm/km") u_obj ["A"] u_y /\
  forall r, cable_primitive [u_cable r] None 1 (by_place ["A"] (fun _ _ => 2%R)) (u_z r) /\ inverts u_prims 1 (fun i j => u_z r (1 + i)%nat (1 + j)%nat).
Proof.
  split; [exact u_keys |]. split; [destruct u_file as (l1 & l2 & H & _); exists l1, l2; exact H |]. split; [reflexivity |]. split; [reflexivity |].
  split; [apply u_data; left; split; reflexivity |]. split; [apply u_data; right; split; reflexivity |]. split; [exact u_shunts |].
  intros r. split; [apply u_primitive | apply u_inverts].
Qed.
(** the same line twice in a file, with different impedances *)
Theorem C138_units_once_refuted : exists l1 l2, read_store u_prims [] (u_objs "1 Ohm/km") = Ok [MLine l1; MLine l2] /\ dl_wires l1 = dl_wires l2 /\ dl_len l1 = dl_len l2 /\
  dl_shunt l1 = dl_shunt l2 /\ exists a b, entry (dl_z l1) 0 0 = Some (to_metre a) /\ entry (dl_z l2) 0 0 = Some (to_metre b) /\ (fst a - fst b = per_mile 1 - 1)%R.
Proof. exact u_differ. Qed.
Print Assumptions C138_units_once_refuted.
