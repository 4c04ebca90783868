(* M_corr.v: model of stingray/crosscorrelation.py.  Numbers are exact reals. *)
From Verif Require Import Np Cplx M_fourier M_zn.
Open Scope R_scope.

(* the mode argument, after the checks of crosscorrelation.py:84-90 *)
Inductive cmode := Full | Same | Valid.

(* scipy.signal.correlate (library): full[k] = sum_l a[l] b[l - k + N2 - 1] with zeros outside; "same" is the central part with
   the length of a, "valid" the part without zero padding *)
Definition outside0 (b : list R) (i : Z) : R := if (i <? 0)%Z then 0 else nth (Z.to_nat i) b 0.
Definition correlate_full (a b : list R) : list R :=
  map (fun k => rs (length a) (fun l => nth l a 0 * outside0 b (Z.of_nat l - Z.of_nat k + Z.of_nat (length b) - 1)))
      (seq 0 (length a + length b - 1)).
Definition correlate (a b : list R) (mode : cmode) : list R :=
  let n1 := length a in
  let n2 := length b in
  if (Nat.eqb n1 0 || Nat.eqb n2 0)%bool then []
  else match mode with
       | Full => correlate_full a b
       | Same => slice (correlate_full a b) ((n2 - 1) / 2) ((n2 - 1) / 2 + n1)
       | Valid => slice (correlate_full a b) (Nat.min n1 n2 - 1) (Nat.max n1 n2)
       end.
(* scipy.signal.correlation_lags (library) *)
Definition zrange (lo hi : Z) : list Z := map (fun i => (lo + Z.of_nat i)%Z) (seq 0 (Z.to_nat (hi - lo))).
Definition correlation_lags (n1 n2 : nat) (mode : cmode) : list Z :=
  let full := zrange (1 - Z.of_nat n2) (Z.of_nat n1) in
  match mode with
  | Full => full
  | Same => let mid := (length full / 2)%nat in
            let b := (n1 / 2)%nat in
            if Nat.eqb (n1 mod 2) 0 then slice full (mid - b) (mid + b) else slice full (mid - b) (mid + b + 1)
  | Valid => let b := (Z.of_nat n1 - Z.of_nat n2)%Z in
             if (0 <=? b)%Z then zrange 0 (b + 1) else zrange b 1
  end.

(* np.isclose(a, b) *)
Definition isclose (a b : R) : bool := if Rle_dec (Rabs (a - b)) (1 / 10 ^ 8 + 1 / 10 ^ 5 * Rabs b) then true else false.
Definition mean (x : list R) : R := rlsum x / INR (length x).

(* the attributes corr, time_lags, time_shift *)
Record corr_result := mkCorr { c_corr : list R; c_lags : list R; c_shift : R }.

(* crosscorrelation.py:208-272 cal_timeshift once corr is known; n1 and n2 are the lengths given to correlation_lags *)
Definition cal_timeshift (corr : list R) (n1 n2 : nat) (mode : cmode) (dt : R) : result corr_result :=
  let time_lags := map (fun k => IZR k * dt) (correlation_lags n1 n2 mode) in
  let! i := argmax corr in
  let! shift := get time_lags i in
  Ok (mkCorr corr time_lags shift).

(* crosscorrelation.py:156-207 _make_corr, counts of the two light curves; the assignment lc1.dt = lc2.dt shows only in the
   input object *)
Definition make_corr (counts1 counts2 : list R) (dt1 dt2 : R) (mode : cmode) : result corr_result :=
  if negb (isclose dt1 dt2) then Err StingrayError
  else
    let a := map (fun x => x - mean counts1) counts1 in
    let b := map (fun x => x - mean counts2) counts2 in
    cal_timeshift (correlate a b mode) (length counts1) (length counts2) mode dt2.
(* crosscorrelation.py:199-207: norm="variance"; err1 and err2 are counts_err *)
Definition np_variance (x : list R) : R := mean (map (fun v => (v - mean x) ^ 2) x).
Definition make_corr_variance (counts1 counts2 err1 err2 : list R) (dt1 dt2 : R) (mode : cmode) : result corr_result :=
  let! r := make_corr counts1 counts2 dt1 dt2 mode in
  let variance1 := np_variance counts1 - mean err1 ^ 2 in
  let variance2 := np_variance counts2 - mean err2 ^ 2 in
  Ok (mkCorr (map (fun c => c / sqrt (variance1 * variance2) / INR (length counts1)) (c_corr r)) (c_lags r) (c_shift r)).
(* crosscorrelation.py:361-364 AutoCorrelation *)
Definition auto_corr (counts : list R) (dt : R) (mode : cmode) : result corr_result := make_corr counts counts dt dt mode.

(* scipy.fft.ifft (library) *)
Definition ifft (X : list cx) : list cx :=
  let n := length X in
  map (fun m => cscal (cs n (fun k => cmul (nth k X c0) (cis n (Z.of_nat (k * m))))) (/ INR n)) (seq 0 n).
(* crosscorrelation.py:117-154 _make_cross_corr with the powers of a cross spectrum.  sorted(zip(fftfreq(n, df), corr)) puts the
   negative frequencies, the last n//2 entries, first (df > 0). *)
Definition make_cross_corr (power : list cx) (df : R) (n_cross : nat) (mode : cmode) : result corr_result :=
  let dt := 1 / (df * INR n_cross) in
  let prelim_corr := map (fun z => Rabs (re z)) (ifft power) in
  let n := length prelim_corr in
  let h := ((n - 1) / 2 + 1)%nat in
  let corr := skipn h prelim_corr ++ firstn h prelim_corr in
  cal_timeshift corr n n mode dt.
