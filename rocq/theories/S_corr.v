(* S_corr.v: what the correlations should be *)
From Verif Require Import Np Cplx.
Open Scope R_scope.

Definition average (x : list R) : R := rlsum x / INR (length x).
(* deviation from the mean at position i, 0 outside the data *)
Definition deviation (x : list R) (i : Z) : R :=
  if ((0 <=? i) && (i <? Z.of_nat (length x)))%Z%bool then nth (Z.to_nat i) x 0 - average x else 0.
(* correlation at lag k: sum over positions of the first curve at i and of the second at i - k *)
Definition corr_at (x y : list R) (k : Z) : R :=
  rs (length x) (fun i => deviation x (Z.of_nat i) * deviation y (Z.of_nat i - k)).
Definition constant (x : list R) : Prop := forall i j, (i < length x)%nat -> (j < length x)%nat -> nth i x 0 = nth j x 0.
(* sum of squared deviations *)
Definition scatter2 (x : list R) : R := rs (length x) (fun i => (nth i x 0 - average x) ^ 2).
(* the integers lo, lo+1, .., n of them *)
Definition consecutive (lo : Z) (n : nat) : list Z := map (fun i => (lo + Z.of_nat i)%Z) (seq 0 n).
(* first of the positions where f over the list ks is largest *)
Definition first_best (f : Z -> R) (ks : list Z) (k : Z) : Prop :=
  exists i, nth_error ks i = Some k /\ (forall k', In k' ks -> f k' <= f k) /\
  forall j k', (j < i)%nat -> nth_error ks j = Some k' -> f k' < f k.
(* inverse transform of the powers X at lag k *)
Definition inverse_at (X : list cx) (k : Z) : cx :=
  let n := length X in cscal (cs n (fun j => cmul (nth j X c0) (cis n (Z.of_nat j * k)))) (/ INR n).
(* the lags of the three modes, for n1 and n2 bins (n1 = n2 in mode "same") *)
Inductive lag_range := AllLags | CentralLags | OverlapLags.
Definition lags_in (n1 n2 : nat) (w : lag_range) : list Z :=
  match w with
  | AllLags => consecutive (1 - Z.of_nat n2) (n1 + n2 - 1)
  | CentralLags => consecutive (- Z.of_nat (n1 / 2)) n1
  | OverlapLags => if Nat.leb n2 n1 then consecutive 0 (n1 - n2 + 1) else consecutive (Z.of_nat n1 - Z.of_nat n2) (n2 - n1 + 1)
  end.
(* two bin sizes are taken for equal: they differ by at most 1e-8 plus 1e-5 of the second *)
Definition same_binning (dt1 dt2 : R) : Prop := Rabs (dt1 - dt2) <= 1 / 10 ^ 8 + 1 / 10 ^ 5 * Rabs dt2.
