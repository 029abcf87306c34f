(** Line impedances from conductors and spacings: C103 - C106. *)
From Coq Require Import Reals String Ascii List Bool Lra.
From Verif Require Import PyExc SpecComponents SpecUnbalanced Components UnbalancedLine GlmText LineImpedance SpecReader SpecLineZ KronProofs CarsonProofs SpacingProofs LineZFinal TriplexProofs ReaderWitness LineZWitness.
Import ListNotations.
Local Open Scope string_scope.

(** C103 *)
Theorem C103_kron : forall E a b zij zin znj znn y fij fin fnj fnn fy k,
  0 < b -> holds a a zij fij -> holds a b zin fin -> holds b a znj fnj -> holds b b znn fnn ->
  p_inv E znn = Some y -> holds b b y fy -> left_inverse b fy fnn -> kron E zij zin znj znn = Ok k ->
  exists fk, holds a a k fk /\ forall ia inn,
    (forall n, n < b -> Cadd (times a fnj ia n) (times b fnn inn n) = C0) ->
    forall i, i < a -> Cadd (times a fij ia i) (times b fin inn i) = times a fk ia i.
Proof. exact kron_law. Qed.
Print Assumptions C103_kron.
Example C103_nonvacuous : exists y k, holds 1 1 (c1 5) (fun _ _ => (5, 0)%R) /\ p_inv line_prims (c1 2) = Some y
  /\ holds 1 1 y (fun _ _ => Crecip (2, 0)%R) /\ left_inverse 1 (fun _ _ => Crecip (2, 0)%R) (fun _ _ => (2, 0)%R)
  /\ kron line_prims (c1 5) (c1 1) (c1 3) (c1 2) = Ok k /\ entry k 0 0 = Some (5 - 3 / 2, 0)%R.
Proof. exact kron_demo. Qed.

(** C104 *)
Theorem C104_overhead : forall E ws d D z phases neutral, wired ws d D -> primitive ws D z ->
  (neutral = true -> inverts_neutral E (z "N" "N")) ->
  exists m, overhead_z E ws d phases neutral = Ok m /\
    holds (List.length (abc_of phases)) (List.length (abc_of phases)) m
          (fun i j => reduced neutral z (nth i (abc_of phases) "") (nth j (abc_of phases) "")).
Proof. exact overhead_carson. Qed.
Print Assumptions C104_overhead.
Theorem C104_symmetric : forall neutral z, (forall p q, z p q = z q p) -> forall p q, reduced neutral z p q = reduced neutral z q p.
Proof. exact reduced_sym. Qed.
Print Assumptions C104_symmetric.
Theorem C104_neutral_without_wire : forall E ws d D z phases, wired ws d D -> primitive ws D z -> ~ In "N" (map w_phase ws) ->
  p_inv E [[Some C0]] = None -> overhead_z E ws d phases true = Err Raised.
Proof. exact overhead_no_neutral. Qed.
Print Assumptions C104_neutral_without_wire.
Example C104_nonvacuous : wired abn_wires unit_dist (fun _ _ => 1%R)
  /\ primitive abn_wires (fun _ _ => 1%R) (flat_z ["A"; "C"; "N"] (fun _ _ => 1%R))
  /\ (exists m, overhead_z line_prims abn_wires unit_dist ["A"; "C"] true = Ok m
      /\ holds 2 2 m (fun i j => reduced true (flat_z ["A"; "C"; "N"] (fun _ _ => 1%R)) (nth i ["A"; "C"] "") (nth j ["A"; "C"] "")))
  /\ p_inv line_prims [[Some C0]] = None.
Proof. split; [exact abn_wired |]. split; [exact abn_primitive |]. split; [exact demo_carson | exact inv1_zero]. Qed.

(** C105 *)
Theorem C105_triplex : forall E ws d12 d1n z, triplex_wired ws -> insulated ws d12 d1n -> triplex_primitive ws d12 d1n z ->
  inverts_neutral E (z "N" "N") ->
  exists m, triplex_z E ws = Ok m /\ holds 2 2 m (fun i j => reduced true z (nth i ["1"; "2"] "") (nth j ["1"; "2"] "")).
Proof. exact triplex_carson. Qed.
Print Assumptions C105_triplex.
Theorem C105_neutral_without_wire : forall E ws d12 d1n z, triplex_wired ws -> insulated ws d12 d1n -> triplex_primitive ws d12 d1n z ->
  ~ In "N" (map w_phase ws) -> p_inv E [[Some C0]] = None -> triplex_z E ws = Err Raised.
Proof. exact triplex_no_neutral. Qed.
Print Assumptions C105_neutral_without_wire.
Example C105_nonvacuous : triplex_wired tri_wires /\ insulated tri_wires ((1 + 2 * 2) / 12) ((1 + 2) / 12)
  /\ triplex_primitive tri_wires ((1 + 2 * 2) / 12) ((1 + 2) / 12) (flat_z ["1"; "2"; "N"] tri_dist)
  /\ inverts_neutral line_prims (flat_z ["1"; "2"; "N"] tri_dist "N" "N").
Proof. exact tri_ok. Qed.

(** C106 *)
Theorem C106_table : forall E o phases o' d, overhead_spacing E o phases = Ok (o', d) ->
  exists l, places E o l /\ tabled E o l (strip_dist d).
Proof. exact spacing_ok. Qed.
Print Assumptions C106_table.
Theorem C106_by_position : forall E o phases o' d ws l, overhead_spacing E o phases = Ok (o', d) -> places E o l ->
  NoDup (map w_phase ws) -> incl (map w_phase ws) line_phases ->
  (forall w r g, In w ws -> w_res w = Some r -> w_gmr w = Some g -> (0 < g)%R) ->
  List.length ws <= List.length l ->
  (forall i j p q, i < List.length ws -> j < List.length ws -> i <> j -> nth_error l i = Some p -> nth_error l j = Some q ->
     exists x, gap E o p q x /\ (0 < x)%R) ->
  exists D, wired ws (strip_dist d) D /\
    forall i j p q, i < List.length ws -> j < List.length ws -> i <> j -> nth_error l i = Some p -> nth_error l j = Some q -> gap E o p q (D i j).
Proof. exact spacing_positions. Qed.
Print Assumptions C106_by_position.
Theorem C106_matching : forall E o phases o' d ws m, overhead_spacing E o phases = Ok (o', d) -> places E o (map w_phase ws ++ m) ->
  incl (map w_phase ws) line_phases ->
  (forall w r g, In w ws -> w_res w = Some r -> w_gmr w = Some g -> (0 < g)%R) ->
  (forall v w, In v ws -> In w ws -> w_phase v <> w_phase w -> exists x, gap E o (w_phase v) (w_phase w) x /\ (0 < x)%R) ->
  exists D, wired ws (strip_dist d) D /\
    forall i j v w, nth_error ws i = Some v -> nth_error ws j = Some w -> i <> j -> gap E o (w_phase v) (w_phase w) (D i j).
Proof. exact spacing_right. Qed.
Print Assumptions C106_matching.
(** the conductors A and C get the distance between A and B *)
Theorem C106_wrong_distance_refuted : gap line_prims abc_spacing "A" "C" (5 / 2) /\ exists o' d m,
  overhead_spacing line_prims abc_spacing (map w_phase ac_wires) = Ok (o', d)
  /\ overhead_z line_prims ac_wires (strip_dist d) ["A"; "C"] false = Ok m /\ entry m 0 1 = Some (carson_mutual 1).
Proof. exact abc_wrong. Qed.
Print Assumptions C106_wrong_distance_refuted.
Example C106_nonvacuous : places line_prims abc_spacing ["A"; "B"; "C"]
  /\ gap line_prims abc_spacing "A" "B" 1 /\ gap line_prims abc_spacing "A" "C" (5 / 2) /\ gap line_prims abc_spacing "B" "C" 2
  /\ exists o' d, overhead_spacing line_prims abc_spacing ["A"; "C"] = Ok (o', d).
Proof. split; [exact abc_places |]. destruct abc_gaps as (A & B & C). repeat split; try assumption. exact abc_reads. Qed.
