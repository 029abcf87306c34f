(** A concrete RAW file used beside the theorems about its reading. *)
From Coq Require Import Reals ZArith String Ascii List Bool Lia Lra.
From Verif Require Import PyExc RawTransformers RawParser SpecRaw RawBaseProofs RawProofs RawWitness GlmText RawText SpecRawText RawFieldProofs RawCsvProofs.
Import ListNotations.
Local Open Scope string_scope.

(** whole numbers, and a few decimal fractions *)
Fixpoint digits (n : Z) (s : string) : option Z :=
  match s with
  | "" => Some n
  | String c s => if (Nat.leb 48 (nat_of_ascii c) && Nat.leb (nat_of_ascii c) 57)%bool
                  then digits (10 * n + Z.of_nat (nat_of_ascii c - 48))%Z s else None
  end.
Definition wint (s : string) : option Z :=
  match strip s with
  | "" => None
  | String "-" "" => None
  | String "-" s => option_map Z.opp (digits 0 s)
  | s => digits 0 s
  end.
Definition wfloat (s : string) : option R :=
  if String.eqb s "0.01" then Some (1 / 100)%R else if String.eqb s "0.1" then Some (1 / 10)%R else if String.eqb s "0.2" then Some (1 / 5)%R
  else if String.eqb s "1.05" then Some (21 / 20)%R else if String.eqb s "0.05" then Some (1 / 20)%R
  else if String.eqb s "0.25" then Some (1 / 4)%R else option_map IZR (wint s).

Definition whead : list string :=
  ["0, 100, 33, 0, 1, 60 / written by hand"; "A small case"; ""].
Definition wbus_lines : list string :=
  ["@ number, name, voltage";
   "3,'LOAD, LOW   ', 20,1,   1,   1,   1,1,10,1,1,1,1";
   "1,'SLACK       ',110,3,   1,   1,   1,1,10,1,1,1,1 / first";
   "2,'MACHINE ''A''',110,2,   1,   1,   1,1,10,1,1,1,1";
   "4,'OFF         ', 20,4,   1,   1,   1,1,10,1,1,1,1"].
Definition wload_lines : list string :=
  ["3,'1 ',1,1,1,30,10,3,1,4,5,1,1"; "3,'2 ',0,1,1,99,99,3,1,4,5,1,1"; "3,'3 ',1,1,1,5,5,3,1,4,5,1,1"; "4,'1 ',1,1,1,7,7,3,1,4,5,1,1"].
Definition wrest : list string :=
  ["2,'1 ',1,1,-2"; "0 / END OF FIXED SHUNT DATA, BEGIN GENERATOR DATA";
   "1,'1 ',50,10,100,-100,1,0,100,0,1,0,0,1,1,100,999,0"; "1,'2 ',20,5,100,-100,1,0,100,0,1,0,0,1,1,100,999,0";
   "2,'1 ',40,0,30,-30,1,0,100,0,1,0,0,1,1,100,999,0"; "2,'2 ',10,3,3,3,1,0,100,0,1,0,0,1,1,100,999,0";
   "3,'1 ',25,0,30,-30,1,0,100,0,1,0,0,1,1,100"; "0 / END OF GENERATOR DATA";
   "1,2,'1 ',0.01,0.1,0.2,0,0,0,0,0,0,0,1,1"; "2,4,'1 ',0.01,0.1,0.2,0,0,0,0,0,0,0,1"; "0";
   "2,3,0,'1 ',1,1,1,0,0,2,'T1          ',1,1,1,0,1,0,1,0,1,' '"; "0,0.1,100"; "1,0,30,0,0,0,0,0,1,1,1,1,33,0,0,0,0"; "1.05,0";
   "2,3,0,'2 ',2,2,1,0,0,2,'T2          ',1,1,1,0,1,0,1,0,1,' '"; "0,0.05,50"; "110,0,30,0,0,0,0,0,1,1,1,1,33,0,0,0,0"; "21,0";
   "1,2,3,'1 ',1,1,1,0,0,2,'T3          ',0,1,1,0,1,0,1,0,1,' '"; "0,0.1,100,0,0.2,100,0,0.25,100,1,0";
   "1,0,30,0,0,0,0,0,1,1,1,1,33,0,0,0,0"; "1,0,30,0,0,0,0,0,1,1,1,1,33,0,0,0,0"; "1,0,30,0,0,0,0,0,1,1,1,1,33,0,0,0,0"; "0 /";
   "1,0,0,0,'AREA'"; "0 /"; "0 /"; "0 /"; "0 /"; "0 /"; "0 /"; "1,'ZONE'"; "0 /"; "0 /"; "0 /"; "0 /";
   "3,1,0,1,1,1,0,100,'',10,2,5"; "0 /"; "@ comment"; "hidden"; "0 /"; "anything"].
Definition wfile : list string :=
  (whead ++ wbus_lines ++ ["0 / END OF BUS DATA, BEGIN LOAD DATA"] ++ wload_lines ++ ["0"] ++ wrest)%list.
Definition wss8 : raw_ss :=
  {| ss_bus := 3; ss_modsw := 1; ss_stat := 1; ss_vhi := 1; ss_vlo := 1; ss_binit := 10;
     ss_steps := [(2%Z, 5%R); (0%Z, 0%R); (0%Z, 0%R); (0%Z, 0%R); (0%Z, 0%R); (0%Z, 0%R); (0%Z, 0%R); (0%Z, 0%R)] |}.
Definition wfile_case : raw_case := wcase_of wgens [wss8] [wx3 0].
Lemma code_zero : (if if Req_EM_T R0 R1 then true else false then 1%Z else if if Req_EM_T R0 (R1 + R1) then true else false then 2%Z else 0%Z) = 0%Z.
Proof. destruct (Req_EM_T R0 R1) as [E|_]; [lra|]. destruct (Req_EM_T R0 (R1 + R1)) as [E|_]; [lra | reflexivity]. Qed.
Lemma wfile_read : read_raw wint wfloat wfile = Ok wfile_case.
Proof. vm_compute. rewrite code_zero. reflexivity. Qed.
Lemma wfile_ok : raw_ok wfile_case.
Proof.
  unfold wfile_case. split; [cbn; auto|]. split; [exists (wbus 1 3 110); cbn; split; [auto|discriminate]|].
  split; [each ltac:(apply w_wind)|]. split; [intros l1 g l2 h _ _ _ _ _; cbn; lra|].
  split.
  { exists [2%Z], []. split; [|split].
    - apply col_skip; [intros (P & _); revert P; apply w_not_pv1; auto|].
      apply col_skip; [intros (P & _); revert P; apply w_not_pv1; auto|].
      apply col_take; [apply w_regulates; lra|auto|].
      apply col_skip; [intros (_ & N & _); apply N, w_fixed|].
      apply col_skip; [intros (P & _); revert P; apply w_silent5|]. constructor.
    - apply col_skip; [intros (_ & E); discriminate|]. constructor.
    - repeat constructor; cbn; intuition discriminate. }
  split; [each ltac:(intros _; apply (w_online _ _ _ _ (wbus 3 1 20)); cbn; auto; discriminate)|].
  split; [each ltac:(intros _; apply (w_online _ _ _ _ (wbus 2 2 110)); cbn; auto; discriminate)|].
  split.
  { apply Forall_cons; [|apply Forall_cons; [|apply Forall_cons; [|apply Forall_cons; [|apply Forall_nil]]]]; intros (N & E); try discriminate.
    - apply (w_online _ _ _ _ (wbus 3 1 20)); cbn; auto; discriminate.
    - apply (w_online _ _ _ _ (wbus 3 1 20)); cbn; auto; discriminate.
    - exfalso. apply N. apply (w_type _ _ _ _ _ (wbus 4 4 20)); cbn; auto 6. }
  split.
  { constructor; [|constructor; [|constructor]].
    - intros _. split; [apply (w_online _ _ _ _ (wbus 1 3 110)); cbn; auto; discriminate|split; [apply (w_online _ _ _ _ (wbus 2 2 110)); cbn; auto; discriminate|]].
      cbn. repeat split; auto. left. lra.
    - intros (_ & N & _). exfalso. apply N. apply (w_type _ _ _ _ _ (wbus 4 4 20)); cbn; auto 6. }
  split; [each ltac:(intros _; apply w_x2_fine; auto)|].
  each ltac:(cbn; intros N; congruence).
Qed.
Lemma wfile_loads : exists net, load_raw wint wfloat wfile = Ok net.
Proof.
  destruct (raw_total wfile_case (wuni _ _ _) (wnom _ _ _) wfile_ok) as (net & H). exists net. unfold load_raw. rewrite wfile_read. exact H.
Qed.

(** *** how the lines are written: a description of each field, from which the line can be put together again *)
Inductive ftok := Bare (p : nat) (v : string) (q : nat) | Quoted (p i : nat) (v : string) (j q : nat).
Definition sp (n : nat) : string := string_of_list_ascii (repeat " "%char n).
Fixpoint dbl (v : string) : string :=
  match v with "" => "" | String c v => if Ascii.eqb c "'" then String "'" (String "'" (dbl v)) else String c (dbl v) end.
Definition text_of (t : ftok) : string :=
  match t with
  | Bare p v q => sp p ++ v ++ sp q
  | Quoted p i v j q => sp p ++ String "'" (dbl (sp i ++ v ++ sp j) ++ String "'" (sp q))
  end.
Definition value_of (t : ftok) : string := match t with Bare _ v _ => v | Quoted _ _ v _ _ => v end.
Definition no_quote (v : string) : bool := match v with String c _ => negb (Ascii.eqb c "'") | "" => true end.
Definition fine (t : ftok) : bool :=
  match t with
  | Bare _ v _ => String.eqb (strip v) v && negb (has_char "," v) && no_quote v
  | Quoted _ _ v _ _ => String.eqb (strip v) v
  end.
Lemma sp_blanks : forall n, blanks (sp n).
Proof. intros n. exists n. reflexivity. Qed.
Lemma dbl_doubled : forall v, doubled v (dbl v).
Proof.
  induction v as [|c v IH]; [constructor|]. cbn. destruct (Ascii.eqb_spec c "'") as [->|N]; [constructor; exact IH | constructor; [exact N | exact IH]].
Qed.
Lemma strip_eq_trimmed : forall v, String.eqb (strip v) v = true -> trimmed v.
Proof. intros v H. apply String.eqb_eq in H. rewrite <- H. apply strip_trimmed. Qed.
Lemma fine_written : forall t, fine t = true -> written "," (text_of t) (value_of t).
Proof.
  intros [p v q|p i v j q] H; cbn [fine text_of value_of] in *.
  - apply andb_true_iff in H as [H N]. apply andb_true_iff in H as [T L]. apply written_bare; try apply sp_blanks; [apply strip_eq_trimmed; exact T | | | discriminate].
    + intros a b E. apply negb_true_iff in L. assert (K : has_char "," v = true) by (apply has_char_iff; eauto). congruence.
    + intros r ->. discriminate.
  - eapply written_quoted; try apply sp_blanks; [apply strip_eq_trimmed; exact H | apply dbl_doubled | discriminate].
Qed.
Fixpoint line_of (ts : list ftok) : string :=
  match ts with [] => "" | [t] => text_of t | t :: ts => text_of t ++ String "," (line_of ts) end.
Lemma fine_line : forall t ts, forallb fine (t :: ts) = true -> written_line "," (line_of (t :: ts)) (map value_of (t :: ts)).
Proof.
  intros t ts. revert t. induction ts as [|u ts IH]; intros t H; cbn [forallb] in H; apply andb_true_iff in H as [H1 H2].
  - apply line_last. apply fine_written. exact H1.
  - apply (@line_more "," (text_of t) (value_of t)); [apply fine_written; exact H1 | apply IH; exact H2].
Qed.
(** the fields of a line *)
Fixpoint chunks (q : bool) (l : string) : list string :=
  match l with
  | "" => [""]
  | String c l => if (Ascii.eqb c "," && negb q)%bool then "" :: chunks false l
                  else match chunks (if Ascii.eqb c "'" then negb q else q) l with
                       | [] => [] | x :: xs => String c x :: xs end
  end.
Fixpoint lead (s : string) : nat := match s with String " " s => S (lead s) | _ => 0 end.
Fixpoint undbl (v : string) : string :=
  match v with String "'" (String "'" v) => String "'" (undbl v) | String c v => String c (undbl v) | "" => "" end.
Fixpoint rev_string (s acc : string) : string := match s with "" => acc | String c s => rev_string s (String c acc) end.
Definition trail (s : string) : nat := lead (rev_string s "").
Definition chunk_tok (c : string) : ftok :=
  let p := lead c in
  let q := if String.eqb (strip c) "" then 0 else trail c in
  let v := strip c in
  match v with
  | String "'" _ => let w := undbl (substring 1 (String.length v - 2) v) in
                    let i := lead w in let j := if String.eqb (strip w) "" then 0 else trail w in
                    Quoted p i (strip w) j q
  | _ => Bare p v q
  end.
Definition scan (l : string) : list ftok := match l with "" => [] | _ => map chunk_tok (chunks false l) end.
Definition row_of (l : string) : row := map value_of (scan l).
Definition scanned (l : string) : bool := String.eqb (line_of (scan l)) l && forallb fine (scan l).
Lemma scanned_written : forall l, scanned l = true -> written_row "," l (row_of l).
Proof.
  intros l H. unfold scanned in H. apply andb_true_iff in H as [E F]. apply String.eqb_eq in E. unfold row_of.
  destruct (scan l) as [|t ts] eqn:S; [left; cbn in E; auto|].
  destruct l as [|c l]; [discriminate|]. right. split; [discriminate|]. rewrite <- E. apply fine_line. exact F.
Qed.
Lemma file_written : forall first more, has_char "," first = true -> forallb scanned (first :: more) = true ->
  written_file (first :: more) (map row_of (first :: more)).
Proof.
  intros first more C H. exists first, more, ","%char. split; [reflexivity|]. split.
  - left. split; [reflexivity|]. apply has_char_iff in C as (a & b & ->). exists a, b. reflexivity.
  - revert H. generalize (first :: more). intros l. induction l as [|x l IH]; intros H; [constructor|]. cbn [forallb] in H. apply andb_true_iff in H as [H1 H2].
    constructor; [apply scanned_written; exact H1 | apply IH; exact H2].
Qed.
Definition wrows : list row := map row_of wfile.
Lemma wfile_written : written_file wfile wrows.
Proof. apply file_written; vm_compute; reflexivity. Qed.
(** the same bus lines in another order *)
Definition wfile' : list string :=
  (whead ++ rev wbus_lines ++ ["0 / END OF BUS DATA, BEGIN LOAD DATA"] ++ rev wload_lines ++ ["0"] ++ wrest)%list.
