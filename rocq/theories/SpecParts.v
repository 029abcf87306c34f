(** Specification side of C156: the circuit laws of what the parsers read, in the terms of the parsers. *)
From Coq Require Import String Reals ZArith List Bool Arith.
From Verif Require Import Components SpecComponents SpecUnbalanced UnbalancedLine Devices Network SpecKirchhoff ThreePhase SpecThreePhase SpecSolverNet RawTransformers RawParser.
Import ListNotations.
Local Open Scope R_scope.

(** entry of a matrix, 0 outside of it *)
Definition entry_of (m : matrix) (i j : nat) : C := match nth j (nth i m []) (Some C0) with Some c => c | None => C0 end.

(** *** three phases: buses by their numbers, GROUND is None *)
Inductive part := PLine (l : tline) | PXfmr (x : txfmr) | PSlack (s : tslack) | PSwitch (s : tswitch) | PLoad (l : tload) | PReg (r : treg) | PFuse (f : tfuse) | PCap (c : tcap).
Definition parts (n : net) : list part :=
  map PLine (nt_lines n) ++ map PXfmr (nt_xfmrs n) ++ map PSlack (nt_slack n) ++ map PSwitch (nt_switches n) ++ map PLoad (nt_loads n) ++
  map PReg (nt_regs n) ++ map PFuse (nt_fuses n) ++ map PCap (nt_caps n).
Section Three.
Variables (n : net) (V : bref -> C).
Let v (k : nat) : C := V (Some k).
(** [lawful p I m]: p draws the currents I if its laws are missed by m.  The magnetising branches of transformers are not simulated *)
Inductive lawful : part -> currents -> list R -> Prop :=
(** the i-th phase runs between the buses of that phase at the places the line names; half of the shunt matrix sits at each end *)
| law_line l fs ts : Forall2 (bus_for n (tn_from l)) (tn_phases l) fs -> Forall2 (bus_for n (tn_to l)) (tn_phases l) ts ->
    let k := length (tn_phases l) in let f i := nth i fs 0%nat in let t i := nth i ts 0%nat in
    let I i := Csum (fun j => Cmul (entry_of (tn_y l) i j) (Csub (v (f j)) (v (t j)))) k in
    let shunt i j := match tn_shunt l with Some m => snd (entry_of m i j) | None => 0 end in
    let charging e i := Csum (fun j => Cmul (0, shunt i j / 2) (v (e j))) k in
    lawful (PLine l) (flat_map (fun i => [(Some (f i), Cadd (I i) (charging f i)); (Some (t i), Csub (charging t i) (I i))]) (seq 0 k)) []
| law_xfmr fp fn tp tn d g b rating I W : let k := Cpolar (xf_tr d) (xf_ang d) in let J := Cmul (xf_G d, xf_B d) (Csub W (V tp)) in
    lawful (PXfmr (TX fp fn tp tn d g b rating)) [(fp, I); (fn, Copp I); (tp, Copp J); (tn, Cmul (Cconj k) I)]
      (re_im (Csub (Csub (V fp) (V fn)) (Cmul k (Csub W (V tn)))) ++ re_im (Csub J (Cmul (Cconj k) I)))
| law_tap ph from pri s1 t1 s2 t2 c g b I1 I2 : let k := / ct_ratio c in
    let J0 := Cmul (ct_g0 c, ct_b0 c) (Csub (v from) (v pri)) in
    let J1 := Cmul (ct_g1 c, ct_b1 c) (Csub (v s1) (v t1)) in let J2 := Cmul (ct_g2 c, ct_b2 c) (Csub (v s2) (v t2)) in
    lawful (PXfmr (TCT ph from pri s1 t1 s2 t2 c g b))
      [(Some from, J0); (Some pri, Csub (Cscale k (Csub I2 I1)) J0); (Some s1, Cadd I1 J1); (Some t1, Copp J1); (Some s2, Cadd I2 J2); (Some t2, Copp J2)]
      (re_im (Csub (v s1) (Cscale k (v pri))) ++ re_im (Cadd (v s2) (Cscale k (v pri))))
| law_slack s I : lawful (PSlack s) [(Some (sk_bus s), I)] (re_im (Csub (v (sk_bus s)) (Cpolar (sk_v s) (sk_ang s))))
| law_closed s I : ts_open s = false -> lawful (PSwitch s) [(Some (ts_from s), I); (Some (ts_to s), Copp I)] (re_im (Csub (v (ts_to s)) (v (ts_from s))))
| law_open s : ts_open s = true -> lawful (PSwitch s) [] []
| law_load l Ip Iz : let U := Csub (V (tl_from l)) (V (tl_to l)) in
    ((tl_p l, tl_q l) = C0 /\ Ip = C0 \/ U <> C0 /\ power U Ip = (tl_p l, tl_q l)) -> (tl_z l = C0 /\ Iz = C0 \/ tl_z l <> C0 /\ Cmul (tl_z l) Iz = U) ->
    let I := Cadd Ip (Cadd (tl_ip l, tl_iq l) Iz) in lawful (PLoad l) [(tl_from l, I); (tl_to l, Copp I)] []
| law_reg r I W M : let J := Cscale 10000 (Csub W (v (tr_cur r))) in let k := r_ratio (tr_dev r) in
    lawful (PReg r) [(Some (tr_from r), I); (Some (tr_cur r), Csub M J); (Some (tr_to r), Copp M)]
      (re_im (Csub (v (tr_from r)) (Cscale k W)) ++ re_im (Csub J (Cscale k I)) ++ re_im (Csub (v (tr_to r)) (v (tr_cur r))))
| law_fuse f I : let J := Cmul (10000, 10000) (Csub (v (tf_from f)) (v (tf_mid f))) in
    lawful (PFuse f) [(Some (tf_from f), J); (Some (tf_mid f), Csub I J); (Some (tf_to f), Copp I)] (re_im (Csub (v (tf_to f)) (v (tf_mid f))))
| law_cap c : tc_switch c = CLOSED -> let I := Cmul (0, tc_B c) (Csub (v (tc_bus c)) (V None)) in lawful (PCap c) [(Some (tc_bus c), I); (None, Copp I)] []
| law_cap_open c : tc_switch c = OPEN -> lawful (PCap c) [] [].
(** all laws are missed and all currents at buses are left over by no more than is allowed *)
Definition circuit (allowed : R -> Prop) : Prop := V None = C0 /\ exists ac : list (part * currents * list R),
  map (fun x => fst (fst x)) ac = parts n /\ Forall (fun x => lawful (fst (fst x)) (snd (fst x)) (snd x)) ac /\ Forall allowed (flat_map snd ac) /\
  forall b, In b (nt_buses n) -> let c := drawn (tb_id b) (flat_map (fun x => snd (fst x)) ac) in allowed (fst c) /\ allowed (snd c).
End Three.

(** *** RAW: buses by the numbers of the file *)
Inductive piece := QLine (l : Z * Z * line) | QXfmr (x : xfmr) | QSlack (s : oslack) | QGen (g : ogen) | QLoad (l : Z * load) | QShunt (s : oshunt).
Definition pieces (o : onet) : list piece :=
  map QLine (n_lines o) ++ map QXfmr (n_xfmrs o) ++ map QSlack (n_slack o) ++ map QGen (n_gens o) ++ map QLoad (n_loads o) ++ map QShunt (n_shunts o).
Definition numbered := list (Z * C).
(** current out of the bus with number z *)
Definition out_of (z : Z) (I : numbered) : C := fold_right (fun p acc => if Z.eqb (fst p) z then Cadd (snd p) acc else acc) C0 I.
Section Single.
Variables (o : onet) (U : Z -> C).
Inductive obeys : piece -> numbered -> list R -> Prop :=
| ob_line f t l : let I := Cmul (ln_G l, ln_B l) (Csub (U f) (U t)) in
    obeys (QLine (f, t, l)) [(f, Cadd I (Cmul (0, ln_Bsh l) (U f))); (t, Csub (Cmul (0, ln_Bsh l) (U t)) I)] []
| ob_xfmr x I W : let d := x_dev x in let k := Cpolar (xf_tr d) (xf_ang d) in let J := Cmul (xf_G d, xf_B d) (Csub W (U (x_to x))) in
    obeys (QXfmr x) [(x_from x, I); (x_to x, Copp J)] (re_im (Csub (U (x_from x)) (Cmul k W)) ++ re_im (Csub J (Cmul (Cconj k) I)))
| ob_slack s I : obeys (QSlack s) [(RawParser.sl_bus s, I)] (re_im (Csub (U (RawParser.sl_bus s)) (Cpolar (sl_vset s) (RawParser.sl_ang s))))
(** the parser keeps the power a generator takes *)
| ob_gen g I Q : U (og_bus g) <> C0 -> power (U (og_bus g)) I = (og_P g, Q) -> obeys (QGen g) [(og_bus g, I)] [og_vset g * og_vset g - Cnorm2 (U (og_bus g))]
| ob_load z l Ip Iz : ((ld_P l, ld_Q l) = C0 /\ Ip = C0 \/ U z <> C0 /\ power (U z) Ip = (ld_P l, ld_Q l)) ->
    ((ld_Zr l, ld_Zi l) = C0 /\ Iz = C0 \/ (ld_Zr l, ld_Zi l) <> C0 /\ Cmul (ld_Zr l, ld_Zi l) Iz = U z) ->
    obeys (QLoad (z, l)) [(z, Cadd Ip (Cadd (ld_IP l, ld_IQ l) Iz))] []
| ob_shunt s : obeys (QShunt s) [(os_bus s, Cmul (os_G s, os_B s) (U (os_bus s)))] [].
Definition sequence (allowed : R -> Prop) : Prop := exists ac : list (piece * numbered * list R),
  map (fun x => fst (fst x)) ac = pieces o /\ Forall (fun x => obeys (fst (fst x)) (snd (fst x)) (snd x)) ac /\ Forall allowed (flat_map snd ac) /\
  forall b, In b (n_buses o) -> let c := out_of (ob_num b) (flat_map (fun x => snd (fst x)) ac) in allowed (fst c) /\ allowed (snd c).
End Single.
