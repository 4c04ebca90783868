(* S_seg.v: vocabulary for the properties of masks, segments and splits, independent of the model. *)
From Coq Require Import List QArith Sorted.
From Verif Require Import S_gti.
Open Scope Q_scope.

(* Position k belongs to one of the index ranges [a, b). *)
Definition in_ranges (l : list (nat * nat)) (k : nat) : Prop := exists a b, In (a, b) l /\ (a <= k < b)%nat.
(* Non-empty ranges, in order, with at least one index between consecutive ones. *)
Definition separated_ranges (l : list (nat * nat)) : Prop :=
  (forall a b, In (a, b) l -> (a < b)%nat) /\
  (forall i j a b c d, (i < j)%nat -> nth_error l i = Some (a, b) -> nth_error l j = Some (c, d) -> (b < c)%nat).

(* t lies in a closed interval of the list. *)
Definition covered_closed (g : list (Q * Q)) (t : Q) : Prop := exists a b, In (a, b) g /\ a <= t /\ t <= b.

(* Time stamps: non-decreasing / strictly increasing. *)
Definition nondecreasing (l : list Q) : Prop :=
  forall i j x y, (i < j)%nat -> nth_error l i = Some x -> nth_error l j = Some y -> x <= y.
Definition increasing (l : list Q) : Prop :=
  forall i j x y, (i < j)%nat -> nth_error l i = Some x -> nth_error l j = Some y -> x < y.

(* The bin of width d centred on t is inside the interval [a, b], up to a tolerance tol. *)
Definition bin_inside (t d tol a b : Q) : Prop := a - tol <= t - d / 2 /\ t + d / 2 <= b + tol.

(* x is a whole number of units u. *)
Definition multiple_of (u x : Q) : Prop := exists k : Z, x == inject_Z k * u.

(* Half widths d around the times do not reach the neighbouring samples. *)
Definition half_widths_ok (time dt : list Q) : Prop :=
  length dt = length time /\
  (forall i d, nth_error dt i = Some d -> 0 <= d) /\
  (forall i j t u d e, (i < j)%nat -> nth_error time i = Some t -> nth_error time j = Some u ->
     nth_error dt i = Some d -> nth_error dt j = Some e -> t + d < u /\ t < u - e).

(* Split points: non-negative, in non-decreasing order. *)
Definition nondec_nat (l : list Z) : Prop := Forall (fun i => (0 <= i)%Z) l /\ StronglySorted Z.le l.
