(* S_orbit.v: what an interpolated correction of times should be. *)
From Coq Require Import QArith List.
Import ListNotations.
Open Scope Q_scope.

(* y is on the straight line through two points *)
Definition on_line (x0 y0 x1 y1 x y : Q) : Prop := (y - y0) * (x1 - x0) == (y1 - y0) * (x - x0).
(* abscissae that grow *)
Definition growing (l : list Q) : Prop := forall i j, (i < j < length l)%nat -> nth i l 0 < nth j l 0.
