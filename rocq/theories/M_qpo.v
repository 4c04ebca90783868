(* M_qpo.v: model of the phase resolved spectroscopy of quasi-periodic oscillations, stingray/spectroscopy.py. *)
From Verif Require Import Np M_utils Cplx M_fourier M_corr M_exvar.
From Coq Require Import Reals List Arith ZArith Bool Lia Lra.
Import ListNotations.
Open Scope R_scope.

(* np.searchsorted(array, x, side="left") (library): the binary search of numpy, which does not look whether the array is sorted.
   The interval shrinks in each round, the length of the array is enough fuel. *)
Fixpoint bsearch (fuel : nat) (a : list R) (x : R) (lo hi : nat) : nat :=
  match fuel with
  | O => lo
  | S fuel => if Nat.ltb lo hi then
                let mid := (lo + (hi - lo) / 2)%nat in
                if Rlt_dec (nth mid a 0) x then bsearch fuel a x (S mid) hi else bsearch fuel a x lo mid
              else lo
  end.
(* utils.py:1430-1462 find_nearest, the index only.  The index -1 (idx = 0 and the last value nearer) is written as the
   last index: callers use it to index an array of the same length. *)
Definition nearest_index (a : list R) (x : R) : result nat :=
  let n := length a in
  let idx := bsearch n a x 0 n in
  if Nat.eqb n 0 then Err IndexError
  else if Nat.eqb idx n then Ok (n - 1)%nat
  else
    let before := match idx with O => (n - 1)%nat | S i => i end in
    if Rlt_dec (Rabs (x - nth before a 0)) (Rabs (x - nth idx a 0)) then Ok before else Ok idx.

(* a % np.pi *)
Definition mod_pi (a : R) : R := a - PI * IZR (up (a / PI) - 1).
(* spectroscopy.py:158-218 get_parameters; x_0_0, x_0_1 are the centroids of the first two components of the model.  dt is not zero. *)
Definition get_parameters (counts : list R) (dt x_0_0 x_0_1 : R) : result (R * R * R * R) :=
  match counts with
  | [] => Err ValueError
  | _ =>
    let x := map (fun c => c / dt) counts in
    let X := fft (map rtoc x) in
    let n := length X in
    let ffreq := fftfreq n dt in
    let! idx_0 := nearest_index ffreq x_0_0 in
    let! idx_1 := nearest_index ffreq x_0_1 in
    let cap_phi_1 := angle (nth idx_0 X c0) in
    let cap_phi_2 := angle (nth idx_1 X c0) in
    let mu := rlsum x / INR (length x) in
    let small_psi := mod_pi (cap_phi_2 / 2 - cap_phi_1) in
    Ok (mu, cap_phi_1, cap_phi_2, small_psi)
  end.
(* spectroscopy.py:221-256 waveform at one phase *)
Definition waveform (x mu avg_sigma_1 avg_sigma_2 cap_phi_1 cap_phi_2 : R) : R :=
  mu * (1 + sqrt 2 * (avg_sigma_1 * cos (x - cap_phi_1) + avg_sigma_2 * cos (2 * x - cap_phi_2))).

(* spectroscopy.py:259-279 psi_distance: the list comprehension puts delta, the whole array, where delta_i is meant, so that the
   result has one or two dimensions *)
Inductive array12 := Flat (l : list R) | Grid (l : list (list R)).
Definition psi_distance (avg_psi : R) (psi : list R) : array12 :=
  let delta := map (fun p => Rabs (p - avg_psi)) psi in
  if Rlt_dec avg_psi (PI / 2) then Flat delta
  else match delta with [] => Flat [] | _ => Grid (map (fun _ => map (fun d => PI - d) delta) delta) end.
(* spectroscopy.py:282-288 x_2_function *)
Definition x_2_function (psi_m : list R) (x : R) : R :=
  match psi_distance x psi_m with
  | Flat l => rlsum (map (fun d => d * d) l)
  | Grid l => rlsum (map (fun r => rlsum (map (fun d => d * d) r)) l)
  end.
(* np.array_split(a, k) (library): the first (n mod k) parts have one entry more *)
Fixpoint split_sizes {A} (a : list A) (sizes : list nat) : list (list A) :=
  match sizes with [] => [] | s :: r => firstn s a :: split_sizes (skipn s a) r end.
Definition array_split {A} (a : list A) (k : nat) : list (list A) :=
  let n := length a in
  split_sizes a (repeat (n / k + 1)%nat (n mod k) ++ repeat (n / k)%nat (k - n mod k)).
(* spectroscopy.py:291-331 get_mean_phase_difference; brent is scipy's minimizer *)
Definition get_mean_phase_difference (brent : (R -> R) -> R) (counts : list R) (dt : R) (n_seg : nat) (x_0_0 x_0_1 : R) : result (R * R) :=
  if Nat.eqb n_seg 0 then Err ValueError
  else
    let! small_psis := map_result (fun c => let! p := get_parameters c dt x_0_0 x_0_1 in Ok (snd p)) (array_split counts n_seg) in
    let avg_psi := brent (x_2_function small_psis) in
    Ok (avg_psi, avg_psi / INR n_seg).
(* spectroscopy.py:334-378 get_phase_lag: frequencies and powers of the cross spectrum, then the counts of its first light curve *)
Definition get_phase_lag (brent : (R -> R) -> R) (freq : list R) (power : list cx) (counts : list R) (dt : R) (n_seg : nat)
    (x_0_0 x_0_1 : R) : result (R * R * R) :=
  let! idx_0 := nearest_index freq x_0_0 in
  let! idx_1 := nearest_index freq x_0_1 in
  let delta_E_1 := angle (nth idx_0 power c0) in
  let delta_E_2 := angle (nth idx_1 power c0) in
  let! r := get_mean_phase_difference brent counts dt n_seg x_0_0 x_0_1 in
  let avg_psi := fst r in
  let cap_phi_1 := PI / 2 + delta_E_1 in
  let cap_phi_2 := 2 * (cap_phi_1 + avg_psi) + delta_E_2 in
  Ok (cap_phi_1, cap_phi_2, avg_psi).

(* spectroscopy.py:381-422 compute_rms; the model is a function of frequency; a window needs the first component to be a Lorentzian,
   of which centroid and width are given.  nan is None. *)
Inductive criterion := CAll | CPosfreq | COptimal | CWindow (lorentz : option (R * R)) | COther.
Definition compute_rms (freq : list R) (df : R) (model : R -> R) (criteria : criterion) : result (option R) :=
  let! model_output :=
    match criteria with
    | CAll => Ok (map model freq)
    | CPosfreq | COptimal => Ok (map model (filter (fun f => if Rlt_dec 0 f then true else false) freq))
    | CWindow None => Err AssertionError
    | CWindow (Some (x_0, fwhm)) => Ok (map (fun f => if Rle_dec (fwhm / 2) (Rabs (f - x_0)) then 0 else model f) freq)
    | COther => Err ValueError
    end in
  Ok (fsqrt (rlsum (map (fun m => m * df) model_output))).

(* spectroscopy.py:53-73 get_new_df: the edges of n_bins equal bins between the first and the last frequency
   (scipy.stats.binned_statistic), whose steps are all the same *)
Definition get_new_df (freq_min freq_max : R) (n_bins : nat) : R := (freq_max - freq_min) / INR n_bins.
(* spectroscopy.py:76-100 ccf; n_bins and ps_rms are not zero *)
Definition ccf (cs_power : list cx) (ps_rms : R) (n_bins : nat) : list R :=
  map (fun z => re z * (2 / INR n_bins / ps_rms)) (ifft cs_power).
(* spectroscopy.py:103-155 ccf_error: the rebinned cross spectra of the segments and the values of the filter at their frequencies
   (the same for all segments) are given.  With one segment the average over axis 0 is a number, which cannot be transformed. *)
Definition column {A} (d : A) (rows : list (list A)) (i : nat) : list A := map (fun r => nth i r d) rows.
Definition average_rows (rows : list (list R)) : list R :=
  map (fun i => rlsum (column 0 rows i) / INR (length rows)) (seq 0 (length (hd [] rows))).
Definition ccf_error (seg_powers : list (list cx)) (filter_freq : list R) (ps_rms : R) (n_bins : nat) : result (list (option R) * list R) :=
  match seg_powers with
  | [] => Err ZeroDivisionError
  | [_] => Err IndexError
  | _ =>
    let filtered := map (fun p => map (fun q => fst q * cabs (snd q)) (combine filter_freq p)) seg_powers in
    let seg_ccfs := map (fun p => ccf (map rtoc p) ps_rms n_bins) filtered in
    let avg_seg_ccf := ccf (map rtoc (average_rows filtered)) ps_rms n_bins in
    Ok (map (fun i => standard_error (column 0 seg_ccfs i) (nth i avg_seg_ccf 0)) (seq 0 (length avg_seg_ccf)), avg_seg_ccf)
  end.
