(** Specification side of C153: reading numbers and tables back from a text. *)
From Coq Require Import Reals ZArith String Ascii List Bool.
From Verif Require Import Components SpecComponents Results SpecResults Output.
Import ListNotations.
Local Open Scope R_scope.
Local Open Scope string_scope.

(** k digits with value n *)
Inductive digits_of : string -> Z -> nat -> Prop :=
| d_none : digits_of "" 0 0
| d_more : forall s n k d, digits_of s n k -> (0 <= d < 10)%nat -> digits_of (s ++ String (ascii_of_nat (48 + d)) "") (10 * n + Z.of_nat d) (S k).
Definition integer (s : string) (z : Z) : Prop :=
  exists t n k, digits_of t n (S k) /\ (s = t /\ z = n \/ s = "-" ++ t /\ z = (- n)%Z).
(** s is a decimal number with k digits after the point and value x *)
Definition decimal (k : nat) (s : string) (x : R) : Prop :=
  exists i f a b j, digits_of i a (S j) /\ digits_of f b k /\
    let y := IZR a + IZR b / 10 ^ k in s = i ++ "." ++ f /\ x = y \/ s = "-" ++ i ++ "." ++ f /\ x = - y.
(** s shows x rounded to k digits after the point, to an even last digit in the middle between two numbers, with the sign of x *)
Definition shows (k : nat) (x : R) (s : string) : Prop :=
  (exists y, decimal k s y /\ Rabs (y - x) <= 1 / 2 / 10 ^ k /\ (Rabs (y - x) = 1 / 2 / 10 ^ k -> exists z, y * 10 ^ k = 2 * IZR z)) /\
  (x < 0 <-> exists t, s = "-" ++ t).
(** pieces between occurrences of c *)
Fixpoint split (c : ascii) (s : string) : list string :=
  match s with
  | "" => [""]
  | String a t => if Ascii.eqb a c then "" :: split c t else match split c t with [] => [String a ""] | x :: l => String a x :: l end
  end.
Definition free (c : ascii) (s : string) : Prop := ~ In c (list_ascii_of_string s).
Definition plain (s : string) : Prop := free "," s /\ free "010" s.
Definition comma : ascii := ",".
Definition line_end : ascii := "010".

(** what a row says about a voltage *)
Definition shows_voltage (v : C) (m a : string) : Prop :=
  exists r w, 0 <= r /\ - PI < w <= PI /\ v = (r * cos w, r * sin w) /\ shows 3 r m /\
    (1 / 100000000 <= r -> shows 3 (w * 180 / PI) a) /\ (r < 1 / 100000000 -> a = "0.000").
Definition bus_line (v : nat -> R) (row : string) (b : obus) : Prop :=
  exists n m a, split comma row = [n; ob_name b ++ ":" ++ ob_phase b; m; a] /\ integer n (ob_num b) /\ shows_voltage (at2 v (ob_V b)) m a.
Definition gen_line (row : string) (g : Z * gen_result) : Prop :=
  exists n p q, split comma row = [n; match gr_type (snd g) with PV => "PV" | Slack => "Slack" | Inf => "Inf" end; p; q] /\
    integer n (fst g) /\ shows 2 (gr_P (snd g)) p /\ shows 2 (gr_Q (snd g)) q.
Definition load_line (row : string) (l : oload) : Prop :=
  exists p q, split comma row = [ol_node l; "PQ"; p; q] /\ shows 2 (ol_P l) p /\ shows 2 (ol_Q l) q.
(** last line of a file *)
Definition last_line (violates : bool) (s : string) : Prop := violates = true /\ s = "VIOLATED EQUIPMENT RATINGS" \/ violates = false /\ s = "".
