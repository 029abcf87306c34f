(** A small RAW file whose records are listed one by one. *)
From Coq Require Import Reals ZArith String Ascii List Bool Lia Lra Permutation.
From Verif Require Import PyExc RawTransformers RawParser SpecRaw RawProofs RawWitness GlmText RawText SpecRawText RawKeyProofs RawFieldProofs RawRecordProofs RawLoopProofs RawBodyProofs
  RawCsvProofs RawCaseProofs RawFileProofs RawTextWitness.
Import ListNotations.
Local Open Scope string_scope.

Definition line1 := "1,'A',110,3,0,0,1,1,1,10,1".
Definition line3 := "3,'B', 20,1,5,7,1,1,1,10,1".
Definition sfile (buses : list string) : list string := (["0, 100"; "first title"; "second title"] ++ buses ++ repeat "0" 16)%list.
Definition srows (buses : list string) : list row := map row_of (sfile buses).
Definition srest (buses : list string) : list row := (map row_of buses ++ repeat ["0"] 16)%list.
Definition b1 : item := IBus (wbus 1 3 110).
Definition b3 : item := IBus (wbus 3 1 20).
Lemma s_written : forall buses, forallb scanned buses = true -> written_file (sfile buses) (srows buses).
Proof.
  intros buses H. apply file_written; [reflexivity|]. cbn [app]. cbn [forallb]. rewrite forallb_app, H. reflexivity.
Qed.
Lemma s_heading : forall buses, heading wint wfloat (srows buses) 30 100 (srest buses).
Proof.
  intros buses. unfold srows, sfile. rewrite map_app, map_app.
  assert (C : ~ comment_row (row_of "0, 100")) by (intros (t & ts & E); discriminate).
  exists [], (row_of "0, 100"), (row_of "first title"), (row_of "second title"), [], (row_of "0, 100"), (map row_of ["first title"; "second title"] ++ srest buses)%list.
  split; [reflexivity|]. split; [left; auto|]. split; [reflexivity|]. split; [constructor|]. split; [eexists _, _, _; reflexivity|]. split; [exact C|].
  split; [|cbn; auto]. left. split; [reflexivity|]. split; [reflexivity|].
  assert (K : case_id wint wfloat true [row_of "0, 100"] = Ok (30%Z, 100%R)) by reflexivity.
  apply case_id_iff in K as (cs & c & more & E & _ & _ & _ & K). destruct cs as [|k [|? cs]]; try discriminate. injection E as <- _.
  destruct K as [(_ & _ & K)|(K & _)]; [exact K | discriminate].
Qed.
Lemma plain_30 : forall s, In s (order 30) -> plain_section s.
Proof.
  intros s H K. cbn in H, K. repeat (destruct H as [<-|H]; [repeat (destruct K as [K|K]; [discriminate|]); exact K|]). exact H.
Qed.
Lemma end_zero : end_row ["0"].
Proof. left. reflexivity. Qed.
Lemma s_ends : forall ss n, Forall plain_section ss -> n = List.length ss -> body wint wfloat 30 ss (repeat ["0"] n) [].
Proof.
  induction ss as [|s ss IH]; intros n H ->; [constructor|]. inversion H; subst. cbn [List.length repeat].
  apply (@body_section wint wfloat 30 s ss [] ["0"] (repeat ["0"] (List.length ss)) [] []); [apply before_plain; [assumption | constructor] | exact end_zero | apply IH; auto].
Qed.
Lemma s_bus : forall l b, read_bus wint wfloat 30 (row_of l) = Ok ([KI (b_num b)], b) -> record_of wint wfloat 30 SBus [row_of l] [IBus b].
Proof. intros l b H. apply rec_bus. apply (read_bus_iff wint wfloat 30 (row_of l) [KI (b_num b)] b); [cbn; auto | exact H]. Qed.
Lemma s_data : forall l, (exists c t ts, row_of l = String c t :: ts /\ c <> "@"%char /\ c <> "q"%char /\ c <> "Q"%char) -> section_end (row_of l) = false -> data_row (row_of l).
Proof.
  intros l (c & t & ts & E & N1 & N2 & N3) H. apply section_end_false in H. rewrite E in *. split; [exists c, t, ts; reflexivity|].
  split; [intros (t' & ts' & K); congruence|]. split; [intros (t' & ts' & [K|K]); congruence | exact H].
Qed.
Definition two_lines (l m : string) (i j : item) : Prop := l = line1 /\ m = line3 /\ i = b1 /\ j = b3 \/ l = line3 /\ m = line1 /\ i = b3 /\ j = b1.
Lemma s_record : forall l i, l = line1 /\ i = b1 \/ l = line3 /\ i = b3 -> data_row (row_of l) /\ record_of wint wfloat 30 SBus [row_of l] [i].
Proof.
  assert (E1 : row_of line1 = ["1"; "A"; "110"; "3"; "0"; "0"; "1"; "1"; "1"; "10"; "1"]) by (vm_compute; reflexivity).
  assert (E3 : row_of line3 = ["3"; "B"; "20"; "1"; "5"; "7"; "1"; "1"; "1"; "10"; "1"]) by (vm_compute; reflexivity).
  intros l i [[-> ->]|[-> ->]]; split.
  - apply s_data; [eexists _, _, _; split; [exact E1 | repeat split; discriminate] | vm_compute; reflexivity].
  - apply s_bus. vm_compute. reflexivity.
  - apply s_data; [eexists _, _, _; split; [exact E3 | repeat split; discriminate] | vm_compute; reflexivity].
  - apply s_bus. vm_compute. reflexivity.
Qed.
Lemma s_body : forall l m i j, two_lines l m i j -> body wint wfloat 30 (order 30) (srest [l; m]) [i; j].
Proof.
  intros l m i j H.
  assert (R1 : data_row (row_of l) /\ record_of wint wfloat 30 SBus [row_of l] [i]) by (apply s_record; destruct H as [(-> & -> & -> & ->)|(-> & -> & -> & ->)]; auto).
  assert (R2 : data_row (row_of m) /\ record_of wint wfloat 30 SBus [row_of m] [j]) by (apply s_record; destruct H as [(-> & -> & -> & ->)|(-> & -> & -> & ->)]; auto).
  clear H. destruct R1 as [D1 R1], R2 as [D2 R2].
  apply (@body_section wint wfloat 30 SBus (tl (order 30)) [row_of l; row_of m] ["0"] (repeat ["0"] 15) [i; j] []).
  - apply before_plain; [apply plain_30; cbn; auto|].
    apply (@rows_record wint wfloat 30 SBus (row_of l) [] [row_of m] [i] [j]); [exact D1 | exact R1|].
    apply (@rows_record wint wfloat 30 SBus (row_of m) [] [] [j] []); [exact D2 | exact R2 | constructor].
  - exact end_zero.
  - apply s_ends; [|reflexivity]. apply Forall_forall. intros s I. apply plain_30. right. exact I.
Qed.
Lemma s_distinct : distinct_records [b1; b3].
Proof. repeat split; cbn; repeat constructor; cbn; try (intros [E|[]]; discriminate); tauto. Qed.
Lemma s_perm : Permutation [b1; b3] [b3; b1].
Proof. apply perm_swap. Qed.
Definition scase : raw_case :=
  {| rc_rev := 30; rc_sbase := 100; rc_buses := [wbus 1 3 110; wbus 3 1 20]; rc_gens := []; rc_ss := []; rc_fs := []; rc_loads := [];
     rc_branches := []; rc_x2 := []; rc_x3 := [] |}.
Lemma s_read : read_raw wint wfloat (sfile [line1; line3]) = Ok scase /\ read_raw wint wfloat (sfile [line3; line1]) = Ok scase.
Proof. split; vm_compute; reflexivity. Qed.
(** pieces of files *)
Definition xrow : row := row_of "2,3,0,'1 ',1,1,1,0,0,2,'T1',1,1,1,0,1,0,1,0,1,' '".
Definition xz : row := row_of "0,0.1,100".
Definition xw : row := row_of "1,0,30,0,0,0,0,0,1,1,1,1,33,0,0,0,0".
Definition gfile (gens : list string) : list string :=
  (["0, 100"; "T"; "T"; line1; "0"; "0"] ++ gens ++ repeat "0" 14)%list.
