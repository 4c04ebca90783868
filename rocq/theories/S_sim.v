(* S_sim.v: what random values drawn from a histogram and delayed light curves should be, independent of the code. *)
From Verif Require Import Np S_seg.
From Coq Require Import ZArith QArith List Bool Arith Permutation.
Import ListNotations.
Open Scope Q_scope.

(* Sum of the first k numbers; sum of all of them. *)
Fixpoint area (l : list Q) (k : nat) : Q := match l, k with a :: l', S k' => a + area l' k' | _, _ => 0 end.
Definition whole (l : list Q) : Q := area l (length l).
(* v is the value below which lies a fraction u of the histogram: it lies in a bin i that is not empty, the fraction of the histogram
   on the left of the bin is at most u and grows evenly in the bin *)
Definition quantile (hist edges : list Q) (u v : Q) : Prop :=
  exists i p a b, nth_error hist i = Some p /\ nth_error edges i = Some a /\ nth_error edges (S i) = Some b /\ 0 < p /\
    area hist i <= u * whole hist /\ u * whole hist <= area hist (S i) /\ (v - a) * p == (u * whole hist - area hist i) * (b - a).
(* Edges of n equal bins of [a, b]. *)
Definition equal_bins (a b : Q) (n : nat) (edges : list Q) : Prop :=
  length edges = S n /\ forall i e, nth_error edges i = Some e -> e * inject_Z (Z.of_nat n) == a * inject_Z (Z.of_nat n) + inject_Z (Z.of_nat i) * (b - a).
(* Random numbers: in [0, 1); not 0 for the version of the library that takes the interval on the left of a repeated abscissa. *)
Definition drawn (right : bool) (us : list Q) : Prop := forall u, In u us -> 0 <= u /\ u < 1 /\ (right = true \/ 0 < u).
(* Values drawn in the interval [a, b], cut into as many equal bins as there are counts: in order of time, in the interval, with the
   random numbers in increasing order *)
Definition drawn_in (counts us : list Q) (a b : Q) (vals : list Q) : Prop :=
  exists edges ps, equal_bins a b (length counts) edges /\ Permutation ps us /\ nondecreasing ps /\ Forall2 (quantile counts edges) ps vals /\
    nondecreasing vals /\ forall v, In v vals -> a <= v /\ v <= b.
(* Delayed emission: every bin k of the output collects s_j h_(k-j), for each bin j of the signal. *)
Fixpoint qsum (n : nat) (f : nat -> Q) : Q := match n with O => 0 | S n' => qsum n' f + f n' end.
Definition at_or_0 (l : list Q) (i : nat) : Q := nth i l 0.
Definition delayed (s h : list Q) (k : nat) : Q := qsum (length s) (fun j => at_or_0 s j * (if Nat.leb j k then at_or_0 h (k - j) else 0)).
(* r: the n bins of the delayed light curve from bin lo on, at the centres of bins that start at tstart *)
Definition delayed_curve (dt tstart : Q) (s h : list Q) (lo n : nat) (r : list (Q * Q)) : Prop :=
  length r = n /\ forall k t c, nth_error r k = Some (t, c) -> t == tstart + (inject_Z (Z.of_nat k) + (1 # 2)) * dt /\ c == delayed s h (lo + k).
(* l: at each time, the mean of the rows i <= r < j of a table *)
Definition band_mean (data : list (list Q)) (i j : nat) (l : list (option Q)) : Prop :=
  forall k o, nth_error l k = Some o -> exists x, o = Some x /\ x * inject_Z (Z.of_nat (j - i)) == qsum (j - i) (fun m => at_or_0 (nth (i + m) data []) k).
