(* S_utils.v: what rebinning and histogramming should do, independent of the code. *)
From Verif Require Import Np.
From Coq Require Import Permutation.
Open Scope Q_scope.

(* Length of the part of [lo, hi] inside [a, b]. *)
Definition overlap (lo hi a b : Q) : Q := qmax 0 (qmin hi b - qmax lo a).

(* Amount in [a, b] of a signal y_j spread evenly over the old bins [xe_j, xe_{j+1}]: each old bin contributes
   the fraction of it that lies in [a, b]. *)
Fixpoint amount (xe y : list Q) (a b : Q) : Q :=
  match xe, y with
  | lo :: ((hi :: _) as xe'), v :: y' => v * (overlap lo hi a b / (hi - lo)) + amount xe' y' a b
  | _, _ => 0
  end.
(* Number of old bins (with fractions) in [a, b]. *)
Fixpoint old_bins (xe : list Q) (a b : Q) : Q :=
  match xe with
  | lo :: ((hi :: _) as xe') => overlap lo hi a b / (hi - lo) + old_bins xe' a b
  | _ => 0
  end.
Fixpoint total (y : list Q) : Q := match y with [] => 0 | v :: y' => v + total y' end.

(* Widths of the old bins: all at most w. *)
Definition widths_at_most (w : Q) (xe : list Q) : Prop :=
  forall i a b, nth_error xe i = Some a -> nth_error xe (S i) = Some b -> b - a <= w.

(* t falls in bin k of [bins] equal bins of [fst r, snd r). *)
Definition in_bin (r : Q * Q) (bins k : nat) (t : Q) : bool :=
  let w := (snd r - fst r) / inject_Z (Z.of_nat bins) in
  (qle (fst r + inject_Z (Z.of_nat k) * w) t && qlt t (fst r + inject_Z (Z.of_nat k + 1) * w))%bool.
Definition in_range (r : Q * Q) (t : Q) : bool := (qle (fst r) t && qlt t (snd r))%bool.
(* Sum of the weights of the elements that satisfy p; number of such elements. *)
Fixpoint content {A} (p : A -> bool) (l : list (A * Q)) : Q :=
  match l with [] => 0 | (a, w) :: l' => (if p a then w else 0) + content p l' end.
Fixpoint count {A} (p : A -> bool) (l : list A) : nat :=
  match l with [] => 0 | a :: l' => (if p a then 1 else 0) + count p l' end%nat.
(* All coordinates of t fall in the bins idx. *)
Fixpoint in_bins (rs : list (Q * Q)) (bins idx : list nat) (t : list Q) : bool :=
  match rs, bins, idx, t with
  | [], [], [], [] => true
  | r :: rs', b :: bins', k :: idx', v :: t' => in_bin r b k v && in_bins rs' bins' idx' t'
  | _, _, _, _ => false
  end.
(* D lists the differences between consecutive elements of x. *)
Definition are_diffs (x D : list Q) : Prop :=
  S (length D) = length x /\
  forall i a b, nth_error x i = Some a -> nth_error x (S i) = Some b -> nth_error D i = Some (b - a).
(* v lies between consecutive edges i and i+1. *)
Definition in_cell (edges : list Q) (i : nat) (v : Q) : bool :=
  match nth_error edges i, nth_error edges (S i) with
  | Some a, Some b => qle a v && qlt v b
  | _, _ => false
  end.
(* Each width is the previous one times 1+f. *)
Definition growing (f : Q) (edges : list Q) : Prop :=
  forall i a b c, nth_error edges i = Some a -> nth_error edges (S i) = Some b -> nth_error edges (S (S i)) = Some c ->
  c - b == (b - a) * (1 + f).
(* z is a power of two. *)
Definition power_of_two (z : Z) : Prop := exists k, (0 <= k)%Z /\ z = (2 ^ k)%Z.
(* Product of a shape. *)
Fixpoint shape_size (dims : list nat) : nat := match dims with [] => 1 | d :: r => d * shape_size r end.
(* lo is the given lower limit, or the smallest element. *)
Definition lower_bound_is (l : list Q) (given : option Q) (lo : Q) : Prop :=
  match given with Some e => lo = e | None => In lo l /\ forall e, In e l -> lo <= e end.
Definition upper_bound_is (l : list Q) (given : option Q) (hi : Q) : Prop :=
  match given with Some e => hi = e | None => In hi l /\ forall e, In e l -> e <= hi end.
(* v is the value at the fractional index pos of the sorted list, linearly interpolated. *)
Definition interpolated (l : list Q) (pos v : Q) : Prop :=
  exists s i a, Permutation s l /\
    (forall j k x y, (j < k)%nat -> nth_error s j = Some x -> nth_error s k = Some y -> x <= y) /\
    nth_error s i = Some a /\ (inject_Z (Z.of_nat i) <= pos /\ pos < inject_Z (Z.of_nat i) + 1) /\
    (forall b, nth_error s (S i) = Some b -> v == a + (pos - inject_Z (Z.of_nat i)) * (b - a)) /\
    (nth_error s (S i) = None -> v == a).
