(** Which network a name should give: written without the loader. *)
From Coq Require Import Reals ZArith String Ascii List Bool.
From Verif Require Import PyExc GlmText SpecGlm SpecThreePhase SpecReader SpecReader2 SpecFile.
Import ListNotations.
Local Open Scope string_scope.
Set Implicit Arguments.

(** the last part of an address *)
Definition last_of (uri name : string) : Prop := exists a, uri = a ++ "/" ++ name /\ free "/" name.
Definition web (uri : string) : Prop := exists a, uri = "http://" ++ a \/ uri = "https://" ++ a.
(** a name that belongs to a file, not to a directory *)
Definition file_name (name : string) : Prop := name <> "" /\ name <> "." /\ name <> "..".
(** how a name tells the format: anywhere in the name, directories included; GridLAB-D first *)
Inductive format := GLM | RAW | Unknown.
Definition told_format (f : string) (x : format) : Prop :=
  match x with
  | GLM => part_of ".glm" f
  | RAW => ~ part_of ".glm" f /\ part_of ".RAW" f
  | Unknown => ~ part_of ".glm" f /\ ~ part_of ".RAW" f
  end.
(** the file of that name in a directory *)
Definition in_folder (dir name f : string) : Prop :=
  ((dir = "" \/ ends_with dir "/") /\ f = dir ++ name) \/ (dir <> "" /\ ~ ends_with dir "/" /\ f = dir ++ "/" ++ name).

(** *** the objects of a text *)
(** the text under the name f describes the objects os: its own, then those of the files it includes *)
Definition describes (file : string -> option (list string)) (f : string) (os : list described) : Prop :=
  exists rows more os1 os2, file f = Some rows /\ included file rows more /\ glm_file os1 rows /\ glm_file os2 more /\ os = (os1 ++ os2)%list.
(** the object read is the one described *)
Definition stands_for (d : described) (no : string * gobj) : Prop :=
  name_of (snd d) = Some (fst no) /\ go_class (snd no) = fst d /\
  forall k, (forall t, says (snd no) k t <-> value_of (snd d) k = Some t) /\ (silent (snd no) k <-> value_of (snd d) k = None).
(** objects with different names and sensible phases *)
Definition clean_described (d : described) : Prop :=
  In (fst d) config_classes \/
  exists t core, value_of (snd d) "phases" = Some t /\ wrapped core t /\ NoDup (phase_letters core) /\ Forall known (phase_letters core).
Definition clean_text (os : list described) : Prop :=
  NoDup (map (fun d => name_of (snd d)) os) /\ Forall clean_described os.
