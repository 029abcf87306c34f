(** C135-C137: cables, and the charging of overhead lines *)
From Coq Require Import Reals ZArith String List Bool Lra.
From Verif Require Import PyExc SpecComponents SpecUnbalanced Components UnbalancedLine GlmText LineImpedance SpecReader SpecLineZ LineZWitness Cables SpecCables ShuntProofs ChargeProofs RingProofs CableZProofs CableFinal CableWitness.
Import ListNotations.
Local Open Scope R_scope.

(** ** C135: the shunt admittance of cables *)
Theorem C135_shunt : forall ws y, half_shunts ws y -> exists m, underground_cap ws = Ok m /\
  holds 3 3 m (fun i j => if (Nat.eqb i j && Nat.ltb i (List.length ws))%bool then (0, y i) else C0).
Proof. exact cable_shunts. Qed.
Print Assumptions C135_shunt.
Theorem C135_accepted : forall ws, (exists m, underground_cap ws = Ok m) <->
  forall i w, nth_error ws i = Some w -> w_phase w <> "N"%string ->
    (i < 3)%nat /\ exists od nd cd k, drawn w od nd cd k /\ cd <> 0 /\ k <> 0%Z /\ od <> nd.
Proof. exact cable_shunt_accepted. Qed.
Print Assumptions C135_accepted.
Theorem C135_capacitive : forall rb rc rs k, 0 < rc < rb -> 0 < rs -> (0 < k)%Z -> IZR k * rs <= rb -> 0 < ring_factor rb rc rs k /\ 0 < ring_shunt rb rc rs k.
Proof. exact shunt_positive. Qed.
Print Assumptions C135_capacitive.
Example C135_phase_and_neutral : half_shunts [thick "A"; cable "N"] (fun i => match i with O => 77.3619 / 1000000 / ln 2 / 2 | _ => 0 end).
Proof. exact thick_shunts. Qed.
Example C135_thin_strands : half_shunts [thin "B"] (fun _ => 0).
Proof. exact thin_shunts. Qed.
Example C135_bare_refused : ~ exists m, underground_cap [plain_wire "A"] = Ok m.
Proof.
  intros H. destruct (proj1 (cable_shunt_accepted _) H 0%nat (plain_wire "A") eq_refl) as (_ & od & nd & cd & k & (O & _) & _); discriminate.
Qed.

(** ** C136: the impedance of cables *)
Theorem C136_cables : forall E ws cs neutral d D z, laid ws cs neutral -> surveyed (List.length ws) cs d D ->
  cable_primitive cs neutral (List.length ws) D z ->
  let n := List.length cs in let b := List.length ws in
  inverts E b (fun i j => z (n + i)%nat (n + j)%nat) ->
  exists m fk, underground_z E ws d = Ok m /\ holds n n m fk /\ grounded_law n b z fk /\
    ((forall i j, D i j = D j i) -> forall i j, (i < n)%nat -> (j < n)%nat -> fk i j = fk j i).
Proof. exact cable_line. Qed.
Print Assumptions C136_cables.
Theorem C136_primitive : forall ws cs neutral d D, laid ws cs neutral -> surveyed (List.length ws) cs d D ->
  exists z, cable_primitive cs neutral (List.length ws) D z.
Proof. exact primitive_exists. Qed.
Print Assumptions C136_primitive.
Example C136_one_cable : laid [cable "A"] [cable_data] None /\ surveyed 1 [cable_data] one_d (fun _ _ => 0) /\
  cable_primitive [cable_data] None 1 (fun _ _ => 0) one_z /\ inverts line_prims 1 (fun i j => one_z (1 + i)%nat (1 + j)%nat).
Proof. exact (conj one_laid (conj one_surveyed (conj one_primitive one_inverts))). Qed.
Example C136_two_cables_and_neutral : laid three [cable_data; cable_data] (Some (1, 1)) /\ surveyed 3 [cable_data; cable_data] three_d three_D /\
  forall i j, three_D i j = three_D j i.
Proof. split; [exact three_laid |]. split; [exact three_surveyed |]. intros i j. unfold three_D. now rewrite PeanoNat.Nat.eqb_sym. Qed.

(** ** C137: the shunt admittance of overhead lines *)
Theorem C137_charging : forall E side X h rad ps ns d, measured X h rad (ps ++ ns) d -> (forall w, In w ps -> w_phase w <> "N"%string) ->
  ns = [] \/ (exists w, ns = [w] /\ w_phase w = "N"%string /\ coeff X rad (used_mirror X h) "N"%string "N"%string <> 0) ->
  let c := List.length ps in let n := List.length (ps ++ ns) in
  let P i j := coeff X rad (used_mirror X h) (nth i (map w_phase (ps ++ ns)) ""%string) (nth j (map w_phase (ps ++ ns)) ""%string) in
  inverts E c (real (match ns with [] => P | _ => earthed c P end)) ->
  exists m fm, overhead_cap E side (ps ++ ns) d = Ok (Some m) /\ holds c c m fm /\
    forall q, (ns <> [] -> times n (real P) q c = C0) -> forall i, (i < c)%nat -> times c fm (times n (real P) q) i = half_charging (q i).
Proof. exact charge_law. Qed.
Print Assumptions C137_charging.
Theorem C137_level_phases : forall X h p q, p <> "N"%string -> q <> "N"%string -> h p = h q -> used_mirror X h p q = mirror X h p q.
Proof. exact level_mirror. Qed.
Print Assumptions C137_level_phases.
Theorem C137_phase_to_neutral : forall X h p, p <> "N"%string -> used_mirror X h p "N" = mirror X h p "N".
Proof. exact from_phase_to_neutral. Qed.
Print Assumptions C137_phase_to_neutral.
(** the images the code uses are not those of the book in these two cases *)
Theorem C137_uneven_phases : forall X h p q, p <> "N"%string -> q <> "N"%string -> p <> q -> X p q = X q p -> 0 < h p < h q ->
  used_mirror X h p q < mirror X h p q < used_mirror X h q p.
Proof. exact uneven_mirror. Qed.
Print Assumptions C137_uneven_phases.
Theorem C137_neutral_to_phase : forall X h p, p <> "N"%string -> 0 < X "N"%string p -> 0 < h "N"%string <= h p ->
  used_mirror X h "N" p < mirror X h "N" p.
Proof. exact from_neutral_short. Qed.
Print Assumptions C137_neutral_to_phase.
(** the half diameter in inches is used with distances in feet *)
Theorem C137_inches : forall X (rad : string -> R) S p, 0 < rad p -> 0 < S p p ->
  coeff X rad S p p = coeff X (fun q => rad q / 12) S p p - 11.17689 * ln 12.
Proof. exact inches. Qed.
Print Assumptions C137_inches.
Theorem C137_no_diameter : forall E side ws d, incl (map w_phase ws) line_phases -> (exists w, In w ws /\ w_diam w = None) -> overhead_cap E side ws d = Ok None.
Proof. exact no_diameter. Qed.
Print Assumptions C137_no_diameter.
(** without distances to the earth (-1 in the table) the line is taken to be one foot above it *)
Theorem C137_no_heights : forall E side ws d d',
  (forall a b, (a < 4)%nat -> (b < 4)%nat -> at2 d a b = at2 d' a b) ->
  (forall a, (a < 4)%nat -> at2 d a 4 = -1 /\ at2 d' a 4 = 1) -> overhead_cap E side ws d = overhead_cap E side ws d'.
Proof. exact no_heights. Qed.
Print Assumptions C137_no_heights.
Example C137_phase_and_neutral : measured (fun _ _ => 2) (fun _ => 1) (fun _ => 1 / 2) ([plain_wire "A"] ++ [plain_wire "N"]) an_d /\
  inverts line_prims 1 (real (earthed 1 an_P)) /\ coeff (fun _ _ => 2) (fun _ => 1 / 2) (used_mirror (fun _ _ => 2) (fun _ => 1)) "N"%string "N"%string <> 0.
Proof. split; [exact an_measured |]. split; [exact an_inverts |]. rewrite self_P. pose proof ln4. lra. Qed.
Example C137_no_heights_given : exists d d' : dmat, (forall a b, (a < 4)%nat -> (b < 4)%nat -> at2 d a b = at2 d' a b) /\
  (forall a, (a < 4)%nat -> at2 d a 4 = -1 /\ at2 d' a 4 = 1).
Proof.
  exists (repeat [0; 2; 2; 2; -1] 4), (repeat [0; 2; 2; 2; 1] 4). split.
  - intros a b Ha Hb. do 4 (destruct a as [| a]; [do 4 (destruct b as [| b]; [reflexivity |]); Lia.lia |]). Lia.lia.
  - intros a Ha. do 4 (destruct a as [| a]; [split; reflexivity |]). Lia.lia.
Qed.
Example C137_three_wires : exists X h, 0 < h "A"%string < h "B"%string /\ X "A"%string "B"%string = X "B"%string "A"%string /\ 0 < X "N"%string "A"%string /\ 0 < h "N"%string <= h "A"%string.
Proof. exists (fun _ _ => 2), (fun p => if String.eqb p "B" then 30 else 20). cbn. repeat split; lra. Qed.
