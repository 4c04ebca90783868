(* S_flux.v: segments of an observation and the light curves in them. *)
From Coq Require Import Reals Qreals.
From Verif Require Import Np M_gti M_fourier S_seg.
Open Scope Q_scope.

Notation nq n := (inject_Z (Z.of_nat n)).
(* number of events in [a, b) *)
Definition events_in (times : list Q) (a b : Q) : nat := length (filter (fun t => qle a t && qlt t b)%bool times).
(* light curve of [start, start + size) in n bins *)
Definition binned_counts (times : list Q) (size : Q) (n : nat) (start : Q) : list R :=
  map (fun k => INR (events_in times (start + nq k * (size / nq n)) (start + nq (S k) * (size / nq n)))) (seq 0 n).
(* the light curve if there are at least two events *)
Definition counts_segment (times : list Q) (size : Q) (n : nat) (start : Q) : option seg :=
  if Nat.ltb (events_in times start (start + size)) 2 then None
  else Some {| s_flux := binned_counts times size n start; s_err := None |}.
(* l is the list of the segments that fit in one interval, with tolerance eps *)
Definition grid_of (size eps : Q) (iv : Q * Q) (l : list Q) : Prop :=
  (forall k, (k < length l)%nat <-> fst iv + nq (S k) * size < snd iv + eps) /\
  (forall k s, nth_error l k = Some s -> s == fst iv + nq k * size).
(* all segments, in the order of the intervals *)
Definition segment_grid (g : list (Q * Q)) (size eps : Q) (st : list Q) : Prop :=
  exists ls, Forall2 (grid_of size eps) g ls /\ st = concat ls.
(* st: first samples of the segments of n bins: each segment is in one interval, they do not overlap, every place for a segment is used *)
Definition bin_segments (times : list Q) (g : list (Q * Q)) (size dt : Q) (n : nat) (st : list nat) : Prop :=
  (forall s, In s st -> exists a b, In (a, b) g /\
     forall k, (s <= k < s + n)%nat -> exists t, nth_error times k = Some t /\ bin_inside t dt ((1 # 1000) * dt) a b) /\
  (forall i j s s', (i < j)%nat -> nth_error st i = Some s -> nth_error st j = Some s' -> (s + n <= s')%nat) /\
  (forall a b p, In (a, b) g -> size <= b - a + 3 * (1 # 1000) * dt ->
     (forall k, (p <= k < p + n)%nat -> exists t, nth_error times k = Some t /\ bin_inside t dt ((1 # 1000) * dt) a b) ->
     exists s, In s st /\ (s <= p < s + n)%nat).
(* samples s .. s+n-1 of a light curve *)
Definition lc_segment (f : list Q) (errors : option (list Q)) (n s : nat) : option seg :=
  Some {| s_flux := map Q2R (firstn n (skipn s f)); s_err := option_map (fun e => map Q2R (firstn n (skipn s e))) errors |}.
