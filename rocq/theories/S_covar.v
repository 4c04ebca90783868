(* S_covar.v: what a covariance spectrum should hold. *)
From Coq Require Import Reals Qreals.
From Verif Require Import Np M_lc M_covar Cplx S_utils S_lc.
From Coq Require Import List Sorting.Sorted.
Import ListNotations.
Open Scope R_scope.

(* mean, variance and covariance of n numbers *)
Definition mean_of (n : nat) (f : nat -> R) : R := rs n f / INR n.
Definition var_of (n : nat) (f : nat -> R) : R := rs n (fun i => (f i - mean_of n f) ^ 2) / INR n.
Definition cov_of (n : nat) (f g : nat -> R) : R := rs n (fun i => (f i - mean_of n f) * (g i - mean_of n g)) / (INR n - 1).
(* counts of bin k *)
Definition counts_at (lc : lightcurve) (k : nat) : R := Q2R (nth k (lc_counts lc) 0%Q).
(* n bins *)
Definition bins (n : nat) (lc : lightcurve) : Prop := length (lc_counts lc) = n /\ length (lc_time lc) = n.
Definition nothing : lightcurve := mkLC [] [] None 0%Q.
(* excess variance over a noise of standard deviation s (Wilkinson & Uttley 2009) *)
Definition excess_of (n : nat) (f : nat -> R) (s : R) : R := var_of n f - s ^ 2.
(* the standard deviation that is used *)
Definition std_is (std : stdarg) (n : nat) (f : nat -> R) (s : R) : Prop :=
  match std with StdNone => 0 <= mean_of n f /\ s = sqrt (mean_of n f) | StdNumber x => s = x | StdList l => l <> [] /\ s = rlsum l / INR (length l) end.
(* the reference of band i; m light curves (or one for all), each with n bins *)
Definition ref_of (r : refs) (i : nat) : lightcurve := match r with RefOne lc => lc | RefList l => nth i l nothing end.
Definition refs_ok (n m : nat) (r : refs) : Prop := match r with RefOne lc => bins n lc | RefList l => length l = m /\ Forall (bins n) l end.
(* the row of one band: covariance, covariance over the root of the excess variance of the reference, error *)
Definition band_ok (std : stdarg) (mm : R) (n : nat) (lc lc' : lightcurve) (u c e : option R) : Prop :=
  u = Some (cov_of n (counts_at lc) (counts_at lc')) /\
  forall s s', std_is std n (counts_at lc) s -> std_is std n (counts_at lc') s' ->
    let x := excess_of n (counts_at lc) s in let y := excess_of n (counts_at lc') s' in
    (0 < y -> c = Some (cov_of n (counts_at lc) (counts_at lc') / sqrt y) /\
              (0 <= x * s' + y * s + s * s' -> e = Some (sqrt ((x * s' + y * s + s * s') / (INR n * mm * y))))) /\
    (y <= 0 -> c = None).
(* a result with one row per band *)
Definition rows_ok (std : stdarg) (mm : R) (n : nat) (lcs : list lightcurve) (r : nat -> lightcurve) (sp : spectrum) : Prop :=
  length (sp_unnorm sp) = length lcs /\ length (sp_covar sp) = length lcs /\ length (sp_error sp) = length lcs /\
  forall i, (i < length lcs)%nat -> band_ok std mm n (nth i lcs nothing) (r i) (nth i (sp_unnorm sp) None) (nth i (sp_covar sp) None) (nth i (sp_error sp) None).
Definition bands_given (bi : option (list (Q * Q))) (lcs : list lightcurve) : Prop := match bi with None => True | Some b => length b = length lcs end.
Open Scope Q_scope.
(* how many numbers of the rows (times or energies) lie in [a, b) *)
Definition hits (a b : Q) (rows : list (Q * Q)) : nat := (count (within a b) (map fst rows) + count (within a b) (map snd rows))%nat.
(* a light curve of n bins of width dt from s, with the hits of the rows *)
Definition curve_of (rows : list (Q * Q)) (s dt : Q) (n : nat) (lc : lightcurve) : Prop :=
  bins n lc /\ lc_dt lc = dt /\ (forall i t, nth_error (lc_time lc) i = Some t -> t == bin_edge s dt i + dt / 2) /\
  forall i, (i < n)%nat -> nth i (lc_counts lc) 0 = inject_Z (Z.of_nat (hits (bin_edge s dt i) (bin_edge s dt (S i)) rows)).
(* n: whole bins in len, with one per cent tolerance *)
Definition whole_bins (n : nat) (dt len : Q) : Prop := inject_Z (Z.of_nat n) * dt <= len + dt * (1 # 100) /\ len + dt * (1 # 100) < (inject_Z (Z.of_nat n) + 1) * dt.
Definition in_band (b : Q * Q) (p : Q * Q) : bool := (qle (fst b) (snd p) && qle (snd p) (snd b))%bool.
(* photons with a time in [a, b) *)
Definition photons (a b : Q) (rows : list (Q * Q)) : nat := count (within a b) (map fst rows).
(* rows below or above the band, its edges included *)
Definition outside_band (b : Q * Q) (data : list (Q * Q)) : list (Q * Q) := filter (fun p => qle (snd p) (fst b)) data ++ filter (fun p => qle (snd b) (snd p)) data.
(* the different energies, in order *)
Definition levels (energies us : list Q) : Prop := StronglySorted Qlt us /\ (forall u, In u us -> In u energies) /\ forall e, In e energies -> exists u, In u us /\ u == e.
(* the band of level i reaches half way to the next one above, and as far below (the last one: the distance from the one before) *)
Definition half_gap (us : list Q) (i : nat) : Q := if Nat.ltb (S i) (length us) then (nth (S i) us 0 - nth i us 0) / 2 else (nth i us 0 - nth (i - 1) us 0) / 2.
