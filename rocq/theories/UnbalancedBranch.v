(** Rows stamped by one pair of phases of an unbalanced line. *)
From Coq Require Import String List Bool Arith ZArith Reals Lra Lia.
From Verif Require Import Expr Segment ExprProofs Collect SpecSystem Components SpecComponents ComponentsProofs ElementProofs UnbalancedLine SpecUnbalanced.
Import ListNotations.
Local Open Scope R_scope.

(** *** one pair of phases *)
Lemma unb_line_branch : forall G B fi ti fj tj opt v tx r,
  F [(unb_details line_lh fi ti fj tj opt, [G; B; 0])] v tx r =
  let I := Cscale (1 + 20 * tx) (Cmul (G, B) (Csub (volt v fj) (volt v tj))) in
  let D := Cscale (1 + 20 * tx) (Cmul (G, - B) (Csub (mult v fj) (mult v tj))) in
  balance opt fi I r + balance opt ti (Copp I) r + if opt then at_bus fi D r + at_bus ti (Copp D) r else 0.
Proof.
  intros. rewrite F_cons, F_nil. destruct opt; expand_rows; unfold TX_LARGE_G, TX_LARGE_B; show_spec; ring.
Qed.
Lemma unb_shunt_branch : forall G B fi ti fj tj opt v tx r,
  F [(unb_details shunt_lh fi ti fj tj opt, [G; B; 0])] v tx r =
  let I := Cscale (1 - tx) (Cmul (G, B) (Csub (volt v fj) (volt v tj))) in
  let D := Cscale (1 - tx) (Cmul (G, - B) (Csub (mult v fj) (mult v tj))) in
  balance opt fi I r + balance opt ti (Copp I) r + if opt then at_bus fi D r + at_bus ti (Copp D) r else 0.
Proof.
  intros. rewrite F_cons, F_nil. destruct opt; expand_rows; show_spec; ring.
Qed.
