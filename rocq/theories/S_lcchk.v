(* S_lcchk.v: what the checks, the negation and the reports should do. *)
From Coq Require Import String Ascii.
From Verif Require Import Np M_io M_object.
From Coq Require Import QArith Qabs List.
Import ListNotations.
Open Scope Q_scope.

(* a spacing equals the bin time within the tolerances of numpy *)
Definition regular (d spacing : Q) : Prop := Qabs (spacing - d) <= (1 # 100000000) + (1 # 100000) * Qabs d.
(* the bins k and k + 1, both inside the interval (a, b) closed on the left *)
Definition pair_inside (time : list Q) (a b : Q) (k : nat) (x y : Q) : Prop :=
  nth_error time k = Some x /\ nth_error time (S k) = Some y /\ a <= x /\ y < b.
(* names of errors *)
Definition err_name (n : str) : Prop := exists m, n = (m ++ % "_err")%list.
(* a number and its opposite; nan stays nan *)
Definition opposite (x y : option Q) : Prop :=
  match x, y with Some p, Some q => p + q == 0 | None, None => True | _, _ => False end.
(* two numbers that a comparison with tolerances should accept *)
Definition close (rtol atol x y : Q) : Prop := Qabs (x - y) <= atol + rtol * Qabs y.
