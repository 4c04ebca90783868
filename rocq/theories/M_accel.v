(* M_accel.v: model of stingray/pulse/accelsearch.py.  Times, counts and frequency derivatives are exact rationals; transforms
   and powers are exact reals. *)
From Verif Require Import Np M_utils M_seg M_base M_stats M_espec Cplx M_fourier.
From Coq Require Import QArith Qreals Reals.
Open Scope R_scope.

(* accelsearch.py:458-522 interbin_fft.  argsort: numpy's argsort of an array of frequencies (library).  Line 513: a frequency
   array and a transform of different length raise ValueError; an empty frequency array raises IndexError at line 500. *)
Fixpoint interleave (l : list cx) : list cx :=
  match l with
  | a :: t => match t with
              | b :: _ => a :: cscal (csub b a) (PI / 4) :: interleave t
              | [] => [a]
              end
  | [] => []
  end.
Definition rneg (x : R) : bool := if Rlt_dec x 0 then true else false.
Definition interbin_fft (argsort : list R -> list nat) (freq : list R) (ft : list cx) : result (list R * list cx) :=
  let! last := get_last freq in
  let neglast := rneg last in
  let order := argsort freq in
  let! ft := if neglast then map_result (fun i => get ft i) order else Ok ft in
  let! freq := if neglast then map_result (fun i => get freq i) order else Ok freq in
  let n := length freq in
  let! f0 := get freq 0 in
  let! f1 := get_last freq in
  let! new_freqs := linspace f0 f1 (2 * Z.of_nat n - 1) in
  if negb (Nat.eqb (length ft) n) then Err ValueError
  else
    let new_fft := interleave ft in
    if neglast then
      let fneg := map rneg new_freqs in
      let fpos := map negb fneg in
      Ok (select new_freqs fpos ++ select new_freqs fneg, select new_fft fpos ++ select new_fft fneg)
    else Ok (new_freqs, new_fft).

(* accelsearch.py:31-73 convolve_ols, convolve with the default mode: the central part of the linear convolution of the
   transform continued by zeros, by overlap-and-save (see M_ols, where the real case is modelled step by step) *)
Definition cext (x : list cx) (i : Z) : cx :=
  if ((0 <=? i) && (i <? Z.of_nat (length x)))%Z%bool then nth (Z.to_nat i) x c0 else c0.
Definition convolve (a b : list cx) : list cx :=
  map (fun m => cs (length b) (fun i => cmul (nth i b c0) (cext a (Z.of_nat m + Z.of_nat ((length b - 1) / 2) - Z.of_nat i)%Z)))
      (seq 0 (length a)).

(* one candidate: frequency in units of 1/T, index of the response, power *)
Definition cand := (R * nat * R)%type.
(* the columns of the table of candidates; fddot is 0 *)
Record row := mkRow { c_time : R; c_length : R; c_exposure : R; c_power : R; c_prob : R; c_freq : R; c_fdot : R; c_ntrial : nat }.

Section Search.
(* scipy.special.fresnel; scipy.stats.chi2.sf, isf (library) *)
Variables fresnel_s fresnel_c : R -> R.
Variables chi2_sf chi2_isf : R -> nat -> R.

(* np.abs of a rational *)
Definition qabs (x : Q) : Q := if qlt x 0 then (- x)%Q else x.
(* accelsearch.py:81-122 _create_responses, one z; None is the response 0 (lines 100-102) *)
Definition response_len (z : Q) : Z := Z.max (Z.abs (py_int (2 * z))) 40.
Definition create_response (z : Q) : option (list cx) :=
  if qlt (qabs z) (1 # 100) then None
  else
    let m := response_len z in
    let zr := Q2R z in
    let sign := zr / Rabs zr in
    let absz := Rabs zr in
    let factor := sign * 1 / sqrt (2 * absz) in
    let q_ks := map Q2R (arange (- inject_Z m / 2) (inject_Z m / 2 + 1) 1) in
    Some (map (fun q =>
      let ex := (cos (PI * (q * q) / zr), sin (PI * (q * q) / zr)) in
      let yk := sign * sqrt (2 / absz) * q in
      let zk := sign * sqrt (2 / absz) * (q + zr) in
      let w := (fresnel_s zk - fresnel_s yk, fresnel_c yk - fresnel_c zk) in
      cscal (cmul w ex) factor) q_ks).

(* accelsearch.py:125-194 _convolve_with_response; a level that is nan gives no candidate *)
Definition above (detlev : option R) (p : R) : bool :=
  match detlev with Some d => if Rlt_dec d p then true else false | None => false end.
Definition convolve_with_response (argsort : list R -> list nat) (interbin : bool) (A : list cx) (detlev : option R)
    (mask : list bool) (rj : option (list cx) * nat) : result (list cand) :=
  let accel := match fst rj with None => A | Some h => convolve A h end in
  let rf := select (map INR (seq 0 (length A))) mask in
  let accel := select accel mask in
  let! r := if interbin then interbin_fft argsort rf accel else Ok (rf, accel) in
  let powers := map cnorm2 (snd r) in
  Ok (map (fun p => (fst p, snd rj, snd p)) (filter (fun p => above detlev (snd p)) (combine (fst r) powers))).

(* accelsearch.py:197-283 _calculate_all_convolutions.  pool: the order in which the results of the responses come back (the
   order of the responses for nproc = 1, any order for imap_unordered). *)
Definition calculate_all (argsort : list R -> list nat) (pool : list (list cand) -> list (list cand)) (interbin : bool)
    (A : list cx) (responses : list (option (list cx))) (mask : list bool) (detlev : option R) : result (list cand) :=
  let! res := map_result (convolve_with_response argsort interbin A detlev mask) (combine responses (seq 0 (length responses))) in
  Ok (concat (pool res)).

(* accelsearch.py:351-371: times and counts with the bad time intervals filled.  cast: conversion of a float to the type of the
   counts when it is stored in the array (line 368).  None: the mean of no counts (nan). *)
Definition fill_value (signal good : list Q) : option Q :=
  match good with
  | [] => None
  | _ => if qlt 10 (qsum signal / inject_Z (Z.of_nat (length signal))) then median good
         else Some (qsum good / inject_Z (Z.of_nat (length good)))%Q
  end.
Definition fill_gaps (numba : bool) (cast : Q -> Q) (times signal : list Q) (gti : option (list (Q * Q))) (dt : Q)
    : result (option (list Q) * R * Q) :=
  match gti with
  | Some ((_ :: _ :: _) as g) =>
    let! m := create_gti_mask numba times g (0, 0)%Q 0%Q None gti_eps in
    let mask := fst m in
    let expo := INR (length (filter (fun b => b) mask)) / INR (length mask) in
    let filled := option_map (fun v => map (fun p => if fst p : bool then snd p else cast v) (combine mask signal))
                             (fill_value signal (select signal mask)) in
    Ok (filled, expo, match g with iv :: _ => fst iv | [] => 0%Q end)
  | _ => let! t0 := get times 0 in Ok (Some signal, 1, (t0 - dt / 2)%Q)
  end.

(* accelsearch.py:286-455 accelsearch; debug is false and no file is written.  rescale is fft_rescale (the identity when it is
   not given).  A sum of counts that is not positive gives nan powers, hence no candidate (a sum of exactly 0 with counts that
   are not all 0 is left out).  Line 407: the maximum of an empty list of z raises ValueError. *)
Definition range_z (zmax delta_z : Q) : list Q := arange (- zmax) zmax delta_z.
Definition in_band (fmin fmax f : R) : bool :=
  if Rle_dec fmin f then (if Rlt_dec f fmax then true else false) else false.
Definition accelsearch (argsort : list R -> list nat) (pool : list (list cand) -> list (list cand)) (numba : bool)
    (cast : Q -> Q) (rescale : list cx -> list cx) (times signal : list Q) (delta_z : Q) (fmin fmax : R)
    (gti : option (list (Q * Q))) (zmax : Q) (ref_time : R) (interbin : bool) (det_p_value : R) : result (list row) :=
  let! t1 := get times 1 in
  let! t0 := get times 0 in
  let! tl := get_last times in
  let dt := (t1 - t0)%Q in
  let n_photons := Q2R (qsum signal) in
  let! fg := fill_gaps numba cast times signal gti dt in
  let '(filled, expo, start) := fg in
  match range_z zmax delta_z with [] => Err ValueError | _ =>
  match filled, (if Rlt_dec 0 n_photons then true else false) with
  | Some counts, true =>
    let spectr := rescale (map (fun c => cscal c (sqrt (2 / n_photons))) (fft (map (fun c => rtoc (Q2R c)) counts))) in
    let freq := fftfreq (length spectr) (Q2R dt) in
    let T := Q2R (tl - t0 + dt) in
    let mask := map (in_band fmin fmax) freq in
    let zs := range_z zmax delta_z in
    let ntrial := length (select freq mask) in
    let detlev := pds_detection_level chi2_isf det_p_value ntrial 1 1 in
    let! cands := calculate_all argsort pool interbin spectr (map create_response zs) mask detlev in
    Ok (map (fun c => let '(r, j, p) := c in
          mkRow (ref_time + Q2R start) T expo p (pds_probability chi2_sf p ntrial 1 1) (r / T) (Q2R (nth j zs 0%Q) / (T * T)) ntrial)
        cands)
  | _, _ => Ok []
  end end.
End Search.
