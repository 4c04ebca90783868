(* S_accel.v: what the search for accelerated pulsations should compute.  From the model only the record of a candidate is
   used. *)
From Verif Require Import Np Cplx M_accel M_stats S_fourier.
From Coq Require Import QArith Qreals Reals.
Open Scope R_scope.

(* the integer part of x, towards zero *)
Definition truncates (x : Q) (t : Z) : Prop :=
  ((0 <= x)%Q -> (inject_Z t <= x < inject_Z t + 1)%Q) /\ ((x < 0)%Q -> (inject_Z t - 1 < x <= inject_Z t)%Q).
(* the template of a frequency derivative of z bins extends over h bins on both sides *)
Definition half_width (z : Q) (h : nat) : Prop :=
  exists t, truncates (2 * z) t /\ (2 * Z.of_nat h = Z.max 40 (Z.abs t))%Z.
Definition slow (z : Q) : Prop := (- (1 # 100) < z < 1 # 100)%Q.

(* Ransom, Eikenberry & Middleditch 2002, eq. 39: the weight of a bin at distance q, for Fresnel integrals fs, fc *)
Definition weight (fs fc : R -> R) (z q : R) : cx :=
  let s := if Rlt_dec z 0 then -1 else 1 in
  let y := s * sqrt (2 / Rabs z) * q in
  let w := s * sqrt (2 / Rabs z) * (q + z) in
  let a := PI * (q * q) / z in
  let u := fs w - fs y in let v := fc y - fc w in
  (s / sqrt (2 * Rabs z) * (u * cos a - v * sin a), s / sqrt (2 * Rabs z) * (u * sin a + v * cos a)).

(* Fourier amplitude in Leahy normalization, 0 outside the transform *)
Definition amplitude (x : list R) (N : R) (k : Z) : cx :=
  if ((0 <=? k) && (k <? Z.of_nat (length x)))%Z%bool then cscal (dft x (Z.to_nat k)) (sqrt (2 / N)) else c0.

(* power of bin r for a frequency derivative of z bins *)
Definition search_power (fs fc : R -> R) (hw : Q -> nat) (x : list R) (N : R) (z : Q) (r : nat) : R :=
  if (qlt (- (1 # 100)) z && qlt z (1 # 100))%bool then 2 / N * power_at x r
  else cnorm2 (cs (2 * hw z + 1) (fun i =>
         cmul (weight fs fc (Q2R z) (INR i - INR (hw z))) (amplitude x N (Z.of_nat r + Z.of_nat (hw z) - Z.of_nat i)))).

(* bins with a frequency in [fmin, fmax) *)
Definition searched (n : nat) (dt fmin fmax : R) : list nat :=
  filter (fun r => if Rle_dec fmin (bin_freq n dt r) then (if Rlt_dec (bin_freq n dt r) fmax then true else false) else false) (seq 0 n).

(* the frequency derivatives from -zmax up to, but without, zmax *)
Definition z_grid (zmax dz : Q) (zs : list Q) : Prop :=
  (forall i, (i < length zs)%nat -> nth i zs 0%Q = (- zmax + inject_Z (Z.of_nat i) * dz)%Q /\ (nth i zs 0 < zmax)%Q) /\
  (zmax <= - zmax + inject_Z (Z.of_nat (length zs)) * dz)%Q.

(* a transform evaluated halfway between the bins too: pairs of frequency and amplitude, at index 2i those of bin i, at index
   2i+1 those of the middle of bins i and i+1 *)
Definition halfway (n : nat) (f : nat -> R) (a : nat -> cx) (fs : list R) (l : list cx) : Prop :=
  length fs = (2 * n - 1)%nat /\ length l = (2 * n - 1)%nat /\
  (forall i, (i < n)%nat -> nth (2 * i) fs 0 = f i /\ nth (2 * i) l c0 = a i) /\
  (forall i, (i + 1 < n)%nat -> nth (2 * i + 1) fs 0 = (f i + f (i + 1)%nat) / 2 /\
     nth (2 * i + 1) l c0 = (PI / 4 * (re (a (i + 1)%nat) - re (a i)), PI / 4 * (im (a (i + 1)%nat) - im (a i)))).

(* an index list that sorts an array *)
Definition sorts (argsort : list R -> list nat) (x : list R) : Prop :=
  Permutation.Permutation (argsort x) (seq 0 (length x)) /\
  (forall i j, (i < j < length x)%nat -> nth (nth i (argsort x) 0%nat) x 0 <= nth (nth j (argsort x) 0%nat) x 0).

(* the bins with a power above level d for a frequency derivative z, and the table of candidates *)
Definition hits (fs fc : R -> R) (hw : Q -> nat) (x : list R) (N dt fmin fmax : R) (d : R) (z : Q) : list nat :=
  filter (fun r => if Rlt_dec d (search_power fs fc hw x N z r) then true else false) (searched (length x) dt fmin fmax).
Definition table (fs fc : R -> R) (sf : R -> nat -> R) (hw : Q -> nat) (x : list R) (N dt fmin fmax d : R) (zs : list Q)
    (start T : R) (nt : nat) (expo : R) : list row :=
  flat_map (fun z => map (fun r =>
      let p := search_power fs fc hw x N z r in
      mkRow start T expo p (pds_probability sf p nt 1 1) (INR r / T) (Q2R z / (T * T)) nt)
    (hits fs fc hw x N dt fmin fmax d z)) zs.
