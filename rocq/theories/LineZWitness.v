(** Concrete lines and spacings. *)
From Coq Require Import Reals ZArith String Ascii List Bool Lia Lra Arith.
From Verif Require Import PyExc SpecComponents SpecUnbalanced Components UnbalancedLine GlmText LineImpedance ThreePhase GlmReader SpecReader ReaderBase ReaderLoadProofs ReaderFrame ReaderWitness SpecLineZ KronProofs CarsonProofs SpacingProofs LineZFinal TriplexProofs.
Import ListNotations.
Local Open Scope string_scope.
Set Implicit Arguments.

(** the inverse of a number *)
Definition inv1 (m : matrix) : option matrix :=
  match m with [[Some z]] => if both0 (fst z) (snd z) then None else Some [[Some (Crecip z)]] | _ => None end.
Definition line_prims : prims :=
  {| p_float := table [("1", 1); ("2", 2); ("2.5", 5 / 2); ("3", 3); ("0", 0)]%R; p_complex := fun _ => None; p_int := fun _ => None;
     p_polar := fun c => c; p_inv := inv1; p_ugz := fun _ _ => Ok []; p_ocap := fun _ _ => Ok None; p_ucap := fun _ => Ok [] |}.
Lemma inv1_ok : forall z, z <> C0 -> inverts_neutral line_prims z.
Proof.
  intros [a b] N. unfold inverts_neutral. cbn [p_inv line_prims inv1 fst snd]. destruct (both0 a b) eqn:B; [| reflexivity].
  apply both0_iff in B. destruct B as [-> ->]. now destruct N.
Qed.
Lemma inv1_zero : p_inv line_prims [[Some C0]] = None.
Proof. cbn [p_inv line_prims inv1 C0 fst snd]. now rewrite (proj2 (both0_iff 0 0) (conj eq_refl eq_refl)). Qed.
Definition plain_wire (p : string) : wire :=
  {| w_phase := p; w_diam := Some 1%R; w_gmr := Some 1%R; w_res := Some 1%R; w_ins := Some 2%R; w_emerg := None; w_outer := None;
     w_cnd := None; w_k := None; w_cdiam := None; w_cgmr := None; w_cres := None |}.
Definition abn_wires : list wire := map plain_wire ["A"; "C"; "N"].
(** primitive impedances of wires at distance 1 *)
Definition flat_z (ps : list string) (d : string -> string -> R) (p q : string) : C :=
  if (GlmText.mem p ps && GlmText.mem q ps)%bool then if String.eqb p q then carson_self 1 1 else carson_mutual (d p q) else C0.
Lemma ln_inv1 : ln (1 / 1) = 0%R.
Proof. replace (1 / 1)%R with 1%R by lra. exact ln_1. Qed.
Lemma self_nz : carson_self 1 1 <> C0.
Proof. unfold carson_self, C0. intros H. injection H as H _. lra. Qed.
Definition unit_dist : dmat := repeat (repeat 1%R 3) 3.
Lemma abn_wired : wired abn_wires unit_dist (fun _ _ => 1%R).
Proof.
  split; [repeat constructor; cbn; intuition discriminate |]. split; [intros p; cbn; tauto |]. split.
  - intros w r g I _ Hg. cbn in I. destruct I as [<- | [<- | [<- | []]]]; cbn in Hg; injection Hg as <-; lra.
  - cbn. intros i j Hi Hj _. exists (repeat 1%R 3). destruct i as [| [| [| i]]]; try lia; destruct j as [| [| [| j]]]; try lia; cbn; repeat split; lra.
Qed.
Lemma abn_primitive : primitive abn_wires (fun _ _ => 1%R) (flat_z ["A"; "C"; "N"] (fun _ _ => 1%R)).
Proof.
  split; [| split].
  - intros i w H. left. exists 1%R, 1%R. apply nth_error_In in H. cbn in H. destruct H as [<- | [<- | [<- | []]]]; cbn; repeat split; reflexivity.
  - intros i j v w Hi Hj N. assert (Li : (i < 3)%nat) by (apply (nth_error_Some abn_wires i); congruence).
    assert (Lj : (j < 3)%nat) by (apply (nth_error_Some abn_wires j); congruence).
    destruct i as [| [| [| i]]]; try lia; (destruct j as [| [| [| j]]]; try lia); cbn in Hi, Hj; injection Hi as <-; injection Hj as <-; try lia; reflexivity.
  - intros p q N. unfold flat_z. assert (M : GlmText.mem p ["A"; "C"; "N"] = false).
    { rewrite <- not_true_iff_false, mem_iff. exact N. }
    rewrite M, andb_false_r. split; reflexivity.
Qed.
Lemma demo_carson : exists m, overhead_z line_prims abn_wires unit_dist ["A"; "C"] true = Ok m
  /\ holds 2 2 m (fun i j => reduced true (flat_z ["A"; "C"; "N"] (fun _ _ => 1%R)) (nth i ["A"; "C"] "") (nth j ["A"; "C"] "")).
Proof.
  apply (@overhead_carson line_prims abn_wires unit_dist (fun _ _ => 1%R) _ ["A"; "C"] true abn_wired abn_primitive).
  intros _. apply inv1_ok. exact self_nz.
Qed.
(** a spacing for three phases, used by a configuration with the conductors A and C *)
Definition abc_spacing : gobj := obj "line_spacing" [("distance_AB", "1 ft"); ("distance_AC", "2.5"); ("distance_BC", "2")].
Lemma before_abc : before "A" "B" /\ before "A" "C" /\ before "B" "C".
Proof.
  split; [exists [], [], ["C"; "N"; "E"]; reflexivity |]. split; [exists [], ["B"], ["N"; "E"]; reflexivity |]. exists ["A"], [], ["N"; "E"]. reflexivity.
Qed.
Lemma abc_gaps : gap line_prims abc_spacing "A" "B" 1%R /\ gap line_prims abc_spacing "A" "C" (5 / 2)%R /\ gap line_prims abc_spacing "B" "C" 2%R.
Proof.
  destruct before_abc as (B1 & B2 & B3).
  split; [| split]; left; (split; [assumption |]).
  - exists "1 ft", "1". split; [now apply says_dget |]. split; [reflexivity |]. split; [reflexivity | lra].
  - exists "2.5", "2.5". split; [now apply says_dget |]. split; [reflexivity |]. split; [reflexivity | lra].
  - exists "2", "2". split; [now apply says_dget |]. split; [reflexivity |]. split; [reflexivity | lra].
Qed.

Lemma before_in : forall p q, before p q -> In p spots /\ In q spots.
Proof. intros p q (l & m & r & ->). split; apply in_or_app; right; [now left | right; apply in_or_app; right; now left]. Qed.
Lemma abc_said : forall p q x, apart line_prims abc_spacing p q x -> In p ["A"; "B"; "C"] /\ In q ["A"; "B"; "C"].
Proof.
  intros p q x (B & t & t' & S & _). destruct (before_in B) as [Hp Hq]. apply gattr_says in S. unfold gattr, abc_spacing, obj in S. cbn [go_attrs] in S.
  cbn in Hp, Hq. destruct Hp as [<- | [<- | [<- | [<- | [<- | []]]]]]; destruct Hq as [<- | [<- | [<- | [<- | [<- | []]]]]]; cbn in S; try discriminate S; cbn; tauto.
Qed.
Lemma abc_places : places line_prims abc_spacing ["A"; "B"; "C"].
Proof.
  exists (fun p => GlmText.mem p ["A"; "B"; "C"]). split; [| reflexivity]. intros p Hp. rewrite mem_iff. destruct abc_gaps as (G1 & G2 & G3). split.
  - intros [<- | [<- | [<- | []]]]; [exists "B", 1%R; exact G1 | exists "C", 2%R; exact G3 | exists "B", 2%R]. destruct G3 as [G | G]; [now right | now left].
  - intros (q & x & [A | A]); now apply abc_said in A.
Qed.
Lemma reqb_no : forall a b, a <> b -> reqb a b = false.
Proof. intros a b N. unfold reqb. destruct (Req_EM_T a b); [contradiction | reflexivity]. Qed.
Lemma reqb_yes : forall a b, a = b -> reqb a b = true.
Proof. intros a b N. unfold reqb. destruct (Req_EM_T a b); [reflexivity | contradiction]. Qed.
Lemma rltb_no : forall a b, (b <= a)%R -> rltb a b = false.
Proof. intros a b N. unfold rltb. destruct (Rlt_dec a b); [lra | reflexivity]. Qed.
Lemma rltb_yes : forall a b, (a < b)%R -> rltb a b = true.
Proof. intros a b N. unfold rltb. destruct (Rlt_dec a b); [reflexivity | lra]. Qed.
Ltac decide_reals := repeat match goal with
  | |- context [reqb ?a ?b] => first [rewrite (@reqb_no a b) by lra | rewrite (@reqb_yes a b) by lra]
  | |- context [rltb ?a ?b] => first [rewrite (@rltb_no a b) by lra | rewrite (@rltb_yes a b) by lra]
  end.
Lemma count_cons : forall x l, List.length (filter (fun x => negb (reqb x (-1))) (x :: l))
  = ((if reqb x (-1) then 0 else 1) + List.length (filter (fun x => negb (reqb x (-1))) l))%nat.
Proof. intros x l. cbn [filter]. destruct (reqb x (-1)); reflexivity. Qed.
Lemma pair_missing : forall E o d mx i j, dget (dname i j) (go_attrs o) = None -> oh_pair E (o, d, mx) (i, j) = Ok (o, d, mx).
Proof. intros E o d mx i j H. unfold oh_pair. now rewrite H. Qed.
Lemma pair_given : forall E o d mx i j t x, dget (dname i j) (go_attrs o) = Some t -> p_float E (digits t) = Some x -> x <> 0%R ->
  exists mx', oh_pair E (o, d, mx) (i, j) = Ok (gset_raw o (dname i j) (digits t), put_pair d i j x, mx').
Proof. intros E o d mx i j t x H F N. unfold oh_pair, fl. rewrite H, F. cbn [pbind]. rewrite (reqb_no N). eexists. reflexivity. Qed.
Lemma mfold_cons : forall S X (f : S -> X -> pres S) x l s, mfold f (x :: l) s = do s' <- f s x; mfold f l s'.
Proof. reflexivity. Qed.
Ltac one_pair := rewrite mfold_cons;
  first [rewrite pair_missing by reflexivity
        | match goal with |- context [oh_pair ?E (?o, ?d, ?mx) (?i, ?j)] =>
            let t := eval vm_compute in (dget (dname i j) (go_attrs o)) in
            match t with Some ?t => let y := eval cbv -[IZR Rdiv Ropp] in (p_float E (digits t)) in
              match y with Some ?y => let H := fresh "H" in
              destruct (@pair_given E o d mx i j t y eq_refl eq_refl ltac:(lra)) as (? & H); rewrite H; clear H end end end];
  cbn [pbind].
Lemma abc_reads : exists o' d, overhead_spacing line_prims abc_spacing ["A"; "C"] = Ok (o', d).
Proof.
  unfold overhead_spacing. change pairs5 with [(0, 1); (0, 2); (0, 3); (0, 4); (1, 2); (1, 3); (1, 4); (2, 3); (2, 4); (3, 4)]%nat.
  do 10 one_pair. cbn [mfold pbind].
  match goal with |- context [count_given ?d] => let d' := eval cbv -[IZR Rdiv Ropp] in d in change d with d' end.
  unfold count_given. cbn [concat List.app].
  repeat (rewrite count_cons; decide_reals). cbn [filter List.length].
  unfold has_earth. cbn [nth existsb]. decide_reals. cbn [orb].
  match goal with |- context [Nat.eqb ?a 2] => let v := eval vm_compute in (Nat.eqb a 2) in change (Nat.eqb a 2) with v end. do 2 eexists. reflexivity.
Qed.
Lemma abc_ab : forall x, gap line_prims abc_spacing "A" "B" x \/ gap line_prims abc_spacing "B" "A" x -> x = 1%R.
Proof.
  assert (X : forall x, apart line_prims abc_spacing "A" "B" x -> x = 1%R).
  { intros x (_ & t & t' & S & O & F & _). apply gattr_says in S. cbn in S. injection S as <-. unfold only_number in O. cbn in O.
    assert (t' = "1") by (destruct t' as [| c [| c' r]]; cbn in O; [discriminate | injection O as ->; reflexivity | discriminate]). subst t'. cbn in F. congruence. }
  assert (Y : forall x, ~ apart line_prims abc_spacing "B" "A" x).
  { intros x (_ & t & t' & S & _). apply gattr_says in S. discriminate S. }
  intros x [[H | H] | [H | H]]; [now apply X | destruct (Y _ H) | destruct (Y _ H) | now apply X].
Qed.
Definition ac_wires : list wire := map plain_wire ["A"; "C"].
Lemma abc_wrong : gap line_prims abc_spacing "A" "C" (5 / 2) /\ exists o' d m, overhead_spacing line_prims abc_spacing (map w_phase ac_wires) = Ok (o', d)
  /\ overhead_z line_prims ac_wires (strip_dist d) ["A"; "C"] false = Ok m /\ entry m 0 1 = Some (carson_mutual 1).
Proof.
  split; [apply abc_gaps |]. destruct abc_reads as (o' & d & R). exists o', d.
  destruct (@spacing_positions line_prims abc_spacing _ o' d ac_wires ["A"; "B"; "C"] R abc_places) as (D & W & G).
  - repeat constructor; cbn; intuition discriminate.
  - intros p; cbn; tauto.
  - intros w r g I _ Hg. cbn in I. destruct I as [<- | [<- | []]]; cbn in Hg; injection Hg as <-; lra.
  - cbn. lia.
  - cbn. intros i j p q Hi Hj N Np Nq. destruct abc_gaps as (G1 & _ & _). exists 1%R. split; [| lra].
    destruct i as [| [| i]]; try lia; (destruct j as [| [| j]]; try lia); cbn in Np, Nq; injection Np as <-; injection Nq as <-;
    [exact G1 |]. destruct G1 as [X | X]; [now right | now left].
  - assert (D01 : D 0%nat 1%nat = 1%R) by (apply abc_ab; left; apply G; cbn; auto).
    assert (D10 : D 1%nat 0%nat = 1%R) by (apply abc_ab; right; apply G; cbn; auto).
    destruct (@overhead_carson line_prims ac_wires (strip_dist d) D (flat_z ["A"; "C"] (fun _ _ => 1%R)) ["A"; "C"] false W) as (m & Hm & H).
    + split; [| split].
      * intros i w Hw. left. exists 1%R, 1%R. apply nth_error_In in Hw. cbn in Hw. destruct Hw as [<- | [<- | []]]; cbn; repeat split; reflexivity.
      * intros i j v w Hi Hj N. assert (Li : (i < 2)%nat) by (apply (nth_error_Some ac_wires i); congruence).
        assert (Lj : (j < 2)%nat) by (apply (nth_error_Some ac_wires j); congruence).
        destruct i as [| [| i]]; try lia; (destruct j as [| [| j]]; try lia); cbn in Hi, Hj; injection Hi as <-; injection Hj as <-; try lia;
        rewrite ?D01, ?D10; reflexivity.
      * intros p q N. unfold flat_z. assert (M : GlmText.mem p ["A"; "C"] = false).
        { rewrite <- not_true_iff_false, mem_iff. exact N. }
        rewrite M, andb_false_r. split; reflexivity.
    + intros X; discriminate X.
    + exists m. split; [exact R |]. split; [exact Hm |]. exact (holds_entry H (i := 0) (j := 1) ltac:(cbn; lia) ltac:(cbn; lia)).
Qed.
Definition tri_wires : list wire := map plain_wire ["1"; "2"; "N"].
Definition tri_dist (p q : string) : R := if (String.eqb p "N" || String.eqb q "N")%bool then (1 + 2) / 12 else (1 + 2 * 2) / 12.
Lemma tri_ok : triplex_wired tri_wires /\ insulated tri_wires ((1 + 2 * 2) / 12) ((1 + 2) / 12)
  /\ triplex_primitive tri_wires ((1 + 2 * 2) / 12) ((1 + 2) / 12) (flat_z ["1"; "2"; "N"] tri_dist) /\ inverts_neutral line_prims (flat_z ["1"; "2"; "N"] tri_dist "N" "N").
Proof.
  split; [| split; [| split]].
  - split; [repeat constructor; cbn; intuition discriminate |]. split; [intros p; cbn; tauto |]. intros w r g I _ Hg. cbn in I.
    destruct I as [<- | [<- | [<- | []]]]; cbn in Hg; injection Hg as <-; lra.
  - exists [], (plain_wire "1"), (map plain_wire ["2"; "N"]), 1%R, 2%R. split; [reflexivity |]. split; [intros v [] |]. cbn. repeat split; lra.
  - split; [| split].
    + intros w I. left. exists 1%R, 1%R. cbn in I. destruct I as [<- | [<- | [<- | []]]]; cbn; repeat split; reflexivity.
    + intros v w Iv Iw N. cbn in Iv, Iw. destruct Iv as [<- | [<- | [<- | []]]]; (destruct Iw as [<- | [<- | [<- | []]]]); cbn in N; try congruence;
      cbn; (split; [intros [X | X]; try discriminate X; reflexivity | intros; try congruence; reflexivity]).
    + intros p q N. unfold flat_z. assert (M : GlmText.mem p ["1"; "2"; "N"] = false).
      { rewrite <- not_true_iff_false, mem_iff. exact N. }
      rewrite M, andb_false_r. split; reflexivity.
  - apply inv1_ok. exact self_nz.
Qed.
Definition c1 (x : R) : matrix := [[Some (x, 0%R)]].
Lemma holds_c1 : forall x, holds 1 1 (c1 x) (fun _ _ => (x, 0%R)).
Proof. intros x. split; [reflexivity |]. intros [| i] Hi; [| lia]. split; [reflexivity |]. intros [| j] Hj; [reflexivity | lia]. Qed.
Lemma kron_demo : exists y k, holds 1 1 (c1 5) (fun _ _ => (5, 0)%R) /\ p_inv line_prims (c1 2) = Some y /\ holds 1 1 y (fun _ _ => Crecip (2, 0)%R)
  /\ left_inverse 1 (fun _ _ => Crecip (2, 0)%R) (fun _ _ => (2, 0)%R) /\ kron line_prims (c1 5) (c1 1) (c1 3) (c1 2) = Ok k /\ entry k 0 0 = Some (5 - 3 / 2, 0)%R.
Proof.
  exists [[Some (Crecip (2, 0)%R)]], [[Some (5 - 3 / 2, 0)%R]]. split; [apply holds_c1 |].
  assert (I : p_inv line_prims (c1 2) = Some [[Some (Crecip (2, 0)%R)]]).
  { apply inv1_ok. unfold C0. intros X. injection X as X. lra. }
  split; [exact I |]. split; [split; [reflexivity |]; intros [| i] Hi; [| lia]; split; [reflexivity |]; intros [| j] Hj; [reflexivity | lia] |].
  split; [| split; [| reflexivity]].
  - intros v [| i] Hi; [| lia]. unfold times, Csum. cbn [seq fold_right]. destruct (v 0%nat) as [a b]. unfold Crecip, Cmul, Cadd, C0. cbn. f_equal; field.
  - unfold kron. rewrite I. unfold mat_sub, mat_mul, c1, Crecip. cbn. do 4 f_equal. f_equal; field.
Qed.
