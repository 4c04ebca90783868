(* S_power.v: what the power integral and shift-and-add should compute *)
From Verif Require Import Np M_power.
From Coq Require Import Sorting.Sorted.
Open Scope Q_scope.

(* edges of a frequency bin *)
Definition left_edge (r : pbin) : Q := b_f r - b_df r / 2.
Definition right_edge (r : pbin) : Q := b_f r + b_df r / 2.
(* width of the part of the bin inside [lo, hi] *)
Definition overlap (lo hi : Q) (r : pbin) : Q :=
  qmax 0 (qmin hi (right_edge r) - qmax lo (left_edge r)).
(* integral of the step function given by the bins over [lo, hi] *)
Definition integral (rows : list pbin) (lo hi : Q) : Q :=
  qsum (map (fun r => (b_p r - b_noise r) * overlap lo hi r) rows).
(* variance of the integral for independent bins with standard deviation e *)
Definition integral_var (e2 : pbin -> Q) (rows : list pbin) (lo hi : Q) : Q :=
  qsum (map (fun r => e2 r * (overlap lo hi r * overlap lo hi r)) rows).
(* bins of positive width, in increasing order, not overlapping *)
Definition bins_ok (rows : list pbin) : Prop :=
  Forall (fun r => 0 < b_df r) rows /\ StronglySorted (fun a b => right_edge a <= left_edge b) rows.
(* [lo, hi] starts and ends in covered frequencies, and no bin contains it in its interior or
   with its right edge: it starts at the left edge of a bin or reaches into another bin *)
Definition range_ok (rows : list pbin) (lo hi : Q) : Prop :=
  lo < hi /\
  (exists r, In r rows /\ left_edge r <= lo /\ lo < right_edge r) /\
  (exists r, In r rows /\ left_edge r < hi /\ hi <= right_edge r) /\
  (forall r, In r rows -> left_edge r < lo -> hi <= right_edge r -> False).
(* shift-and-add: the source index of output bin j of a spectrum centred on bin c *)
Definition source (c : Z) (nbins j : nat) : Z := (c - Z.of_nat nbins / 2 + Z.of_nat j)%Z.
Definition inside (size : nat) (i : Z) : bool := ((0 <=? i) && (i <? Z.of_nat size))%Z%bool.
(* sum over the spectra that have the source bin of weight and of weight times power *)
Definition sa_weight (size nbins j : nat) (l : list (Z * (list Q * Q))) : Q :=
  qsum (map (fun t => if inside size (source (fst t) nbins j) then snd (snd t) else 0) l).
Definition sa_total (size nbins j : nat) (l : list (Z * (list Q * Q))) : Q :=
  qsum (map (fun t => if inside size (source (fst t) nbins j)
                      then nth (Z.to_nat (source (fst t) nbins j)) (fst (snd t)) 0 * snd (snd t) else 0) l).
(* the slice around bin c runs past at most one end of the array *)
Definition one_end (size nbins : nat) (c : Z) : Prop :=
  (0 <= c <= Z.of_nat size)%Z /\
  (Z.of_nat nbins / 2 <= c \/ c - Z.of_nat nbins / 2 + Z.of_nat nbins <= Z.of_nat size)%Z.
