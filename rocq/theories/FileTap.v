(** Center taps with voltages in kV. *)
From Coq Require Import Reals ZArith String Ascii List Bool Lia Lra Arith.
From Verif Require Import PyExc SpecComponents SpecUnbalanced Components Devices UnbalancedLine GlmText SpecGlm LineImpedance ThreePhase SpecThreePhase SpecThreeElems GlmReader SpecReader SpecLineZ SpecReader2 SpecReader3 SpecFile FileNet FileElems FileUnits.
Import ListNotations.
Local Open Scope R_scope.
Set Implicit Arguments.

Lemma inverse_scale : forall g1 b1 g2 b2 r x k, inverse_of g1 b1 (k * r) (k * x) -> inverse_of g2 b2 r x -> g2 = k * g1 /\ b2 = k * b1.
Proof.
  intros g1 b1 g2 b2 r x k [A1 A2] [B1 B2]. split.
  - replace g2 with (g2 * 1 - b2 * 0) by ring. rewrite <- A1, <- A2.
    transitivity (k * g1 * (g2 * r - b2 * x) - k * b1 * (g2 * x + b2 * r)); [ring |]. rewrite B1, B2. ring.
  - replace b2 with (b2 * 1 + g2 * 0) by ring. rewrite <- A1, <- A2.
    transitivity (k * g1 * (g2 * x + b2 * r) + k * b1 * (g2 * r - b2 * x)); [ring |]. rewrite B1, B2. ring.
Qed.
Lemma kv_coils : forall E objs n name o g, xfmr_group E objs n name o g -> kv_group E objs o g.
Proof.
  intros E objs n name o g (_ & T & _) core c a b sh v1 raw1 t u r x0 x more p PC CF W SH P1 SV AU KV OH RP NZ.
  assert (P2 : winding_volts E c "secondary_voltage" (Some (u * 1000)) (Some u)).
  { right. exists t, u. split; [exact SV |]. split; [exact AU |]. split; [reflexivity |]. left. split; [exact KV | reflexivity]. }
  destruct (T core c a b sh v1 raw1 _ _ _ _ p PC CF W SH P1 P2 OH RP) as (ph & rest & from & pri & s1 & t1 & s2 & t2 & d & gm & bm & V1 & V2 & u' & rr & s & y0 & y1 & y2 & more' & _ & G & _ & _ & _ & _ & _ & _ & _ & QV & QU & QR & _ & QX & S & V & _ & _ & C1 & C2 & _).
  exists ph, from, pri, s1, t1, s2, t2, d, gm, bm. split; [exact G |]. injection QV as <-. injection QU as <-. injection QR as <-. injection QX as <- <- <- <-.
  assert (U : u <> 0) by (intros ->; apply V; ring). destruct C1 as [_ C1], C2 as [_ C2]. specialize (C1 NZ V). specialize (C2 NZ U).
  apply (@inverse_scale _ _ _ _ (r * (u * u) / s) (x * (u * u) / s) (10 ^ 6)); [| exact C2].
  replace (10 ^ 6 * (r * (u * u) / s)) with (r * (u * 1000 * (u * 1000)) / s) by (field; exact S).
  replace (10 ^ 6 * (x * (u * u) / s)) with (x * (u * 1000 * (u * 1000)) / s) by (field; exact S). exact C1.
Qed.
Lemma file_kv : forall E sch inv cap objs ms n, clean_file objs -> read_store E sch objs = Ok ms -> parse_three inv cap ms = Ok n ->
  grouped objs (fun o => go_class o = "transformer"%string) (fun _ _ o g => kv_group E objs o g) (nt_xfmrs n).
Proof.
  intros E sch inv cap objs ms n CL RD PA. destruct (@file_transformers E sch inv cap objs ms n CL RD PA) as (gs & Q & L & G).
  exists gs. split; [exact Q |]. split; [exact L |]. intros i name o g Ho Hg. destruct (G i name o g Ho Hg) as [G1 G2]. split; [| exact G2].
  intros C. exact (kv_coils (G1 C)).
Qed.
