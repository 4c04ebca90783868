(* M_mkcross.v: model of how cross spectrum objects are made from two event lists or light curves, of their lags and of deadtime_correct
   (stingray/crossspectrum.py).  Times are exact rationals, powers exact reals; None is a value that is not a number.  Warnings, progress bars
   and the attributes lc1, lc2 are left out; norm is in lower case; the type of the object (averaged or not) is not part of the model. *)
From Coq Require Import Reals Qreals.
From Verif Require Import Np Lib M_gti M_seg M_utils M_lc M_base M_exvar Cplx M_fourier M_flux M_norm M_make M_vspec.
From Coq Require Import List Bool Arith.
Import ListNotations.
Open Scope Q_scope.

(* crossspectrum.py:3134-3222 _create_crossspectrum_from_result_table: None has no attribute meta *)
Definition cs_of (t : option cs_table) : result cs_table := match t with None => Err AttributeError | Some t => Ok t end.
(* crossspectrum.py:2822-2823, 2996-2997: GTIs given, or those common to both *)
Definition or_common (srt : list tagged -> list tagged) (gti : option gtis) (g1 g2 : gtis) : result gtis :=
  match gti with Some g => Ok g | None => cross_two_gtis srt g1 g2 end.
(* crossspectrum.py:2760-2840 crossspectrum_from_events with 2676-2757 crossspectrum_from_time_array *)
Definition crossspectrum_from_events (numba : bool) (srt : list tagged -> list tagged) (ev1 ev2 : evlist) (dt : Q) (seg : option Q) (norm : normt)
  (common fullspec silent : bool) (pt : ptype) (gti : option gtis) (save : bool) : result cs_table :=
  let! g := or_common srt gti (e_gti ev1) (e_gti ev2) in
  let dt := suggest_compatible_dt (e_res ev1) dt in
  let silent := (silent || match seg with None => true | _ => false end)%bool in
  let! t := avg_cs_from_timeseries numba (e_time ev1) (e_time ev2) g seg dt norm common fullspec silent pt None None None None true save in
  cs_of t.
(* crossspectrum.py:2843-2923 crossspectrum_from_lightcurve with 2926-3025 crossspectrum_from_timeseries; l_err is None unless the error
   distribution is "gauss".  The distribution of the first light curve decides; the errors of the second are used with it. *)
Definition crossspectrum_from_lightcurve (numba : bool) (srt : list tagged -> list tagged) (lc1 lc2 : curve) (seg : option Q) (norm : normt)
  (common fullspec silent : bool) (pt : ptype) (gti : option gtis) (save : bool) : result cs_table :=
  let! g := or_common srt gti (l_gti lc1) (l_gti lc2) in
  let silent := (silent || match seg with None => true | _ => false end)%bool in
  let! t := avg_cs_from_timeseries numba (l_time lc1) (l_time lc2) g seg (l_dt lc1) norm common fullspec silent pt
              (Some (l_counts lc1)) (Some (l_counts lc2)) (l_err lc1) (match l_err lc1 with None => None | Some _ => l_err lc2 end) true save in
  cs_of t.

(* crossspectrum.py:1611-1616 for one of the inputs: GTIs replaced and applied to a copy; base.py:1360-1384 apply_gtis *)
Definition restricted (numba : bool) (g : gtis) (ev : evlist) : result evlist :=
  let! _ := check_gtis g in
  let! m := create_gti_mask numba (e_time ev) g (0, 0) 0 (Some (e_res ev)) gti_eps in
  Ok (mkEvl (select (e_time ev) (fst m)) g (e_res ev)).
(* crossspectrum.py:548-603 Crossspectrum and 1970-2046 AveragedCrossspectrum of two event lists, with 605-737 initial_checks and 1590-1685
   _initialize_from_any_input.  The result is the spectrum and the two event lists after the call. *)
Definition new_cross_events (numba : bool) (srt : list tagged -> list tagged) (averaged : bool) (ev1 ev2 : evlist) (norm : normt) (gti : option gtis) (dt seg : option Q)
  (common fullspec silent : bool) (pt : ptype) (save : bool) : result (cs_table * (evlist * evlist)) :=
  let! _ := match norm with OtherNorm => Err ValueError | _ => match pt with POther => Err ValueError | _ => Ok tt end end in
  let! _ := initial_checks averaged (Events ev1) norm gti dt seg in
  match dt with
  | None => Err ValueError
  | Some dt =>
    match seg with
    | None =>
      let! g := cross_two_gtis srt (e_gti ev1) (e_gti ev2) in
      let! a := restricted numba g ev1 in
      let! b := restricted numba g ev2 in
      let! t := crossspectrum_from_events numba srt a b dt None norm common fullspec silent pt gti save in
      Ok (t, (mkEvl (e_time ev1) g (e_res ev1), mkEvl (e_time ev2) g (e_res ev2)))
    | Some _ =>
      let! t := crossspectrum_from_events numba srt ev1 ev2 dt seg norm common fullspec silent pt gti save in
      Ok (t, (ev1, ev2))
    end
  end.

(* ---------- errors and lags ---------- *)
Open Scope R_scope.
(* fourier.py:1137-1164 error_on_averaged_cross_spectrum: errors of the real and imaginary part *)
Definition part_errors (overlap : bool) (z : cx) (seg ref : R) (m : nat) (ns nr : R) : option R * option R :=
  if overlap then let e := modulus_error true z seg ref m ns nr in (e, e)
  else (flet q := fdiv (ref * seg + re z * re z - im z * im z) (2 * INR m) in fsqrt q, flet q := fdiv (ref * seg - re z * re z + im z * im z) (2 * INR m) in fsqrt q).
(* crossspectrum.py:1784-1831 _calculate_errors, one bin: an invalid error is replaced in both parts; poisson_level(norm="none") is nphots *)
Definition cross_power_error (overlap : bool) (z : cx) (seg ref : R) (m : nat) (nph1 nph2 : R) : cx :=
  match part_errors overlap z seg ref m nph1 nph2 with
  | (Some a, Some b) => (a, b)
  | _ => let default := sqrt (2 / INR m) * sqrt (nph1 * nph2) / 2 in (default, default)
  end.
(* crossspectrum.py:2134-2159 phase_lag and time_lag of an averaged cross spectrum: lag and error of each bin; freq is not zero *)
Definition acs_phase_lag (overlap : bool) (t : cs_table) : result (list (R * option R)) :=
  match c_auxil t with
  | None => Err KeyError
  | Some (_, _, (u1, u2)) =>
    Ok (map (fun q => (angle (fst q), phase_error overlap (fst q) (fst (snd q)) (snd (snd q)) (c_m t) (c_nphots1 t) (c_nphots2 t)))
         (combine (c_unnorm t) (combine u1 u2)))
  end.
Definition acs_time_lag (overlap : bool) (t : cs_table) : result (list (R * option R)) :=
  let! l := acs_phase_lag overlap t in
  Ok (map (fun q => (fst (fst q) / (2 * PI * snd q), option_map (fun e => e / (2 * PI * snd q)) (snd (fst q)))) (combine l (c_freq t))).

(* ---------- dead time ---------- *)
Definition scaled_by (c : list R) (l : list cx) : list cx := map (fun q => cscal (fst q) (snd q)) (combine l c).
Definition half_corrected (c : list R) (h : half) : half :=
  mkHalf (h_norm h) (h_power h) (option_map (scaled_by c) (h_err h)) (scaled_by c (h_unnorm h)) (option_map (scaled_by c) (h_unnorm_err h)).
(* crossspectrum.py:1749-1781 deadtime_correct; model is the dead time model at the frequencies of the spectrum, as many as powers.  The second
   component are the attributes cs_all and unnorm_cs_all; powers that are None cannot be multiplied; NotImplementedError is a RuntimeError *)
Definition deadtime_correct (paralyzable : bool) (model : list R) (s : spectrum) (all : option (list (list cx) * list (list cx)))
  : result (spectrum * option (list (list cx) * list (list cx))) :=
  if paralyzable then Err RuntimeError
  else
    let c := map (fun m => 2 / m) model in
    match sp_power s with
    | None => Err TypeError
    | Some p =>
      Ok (mkSpec (sp_power_type s) (sp_norm s) (Some (scaled_by c p)) (option_map (scaled_by c) (sp_err s)) (option_map (scaled_by c) (sp_unnorm s))
            (option_map (scaled_by c) (sp_unnorm_err s)) (sp_dt s) (sp_n s) (sp_nph1 s) (sp_nph2 s) (sp_gauss s) (sp_var1 s) (sp_var2 s) (sp_ptype s)
            (option_map (fun h => (half_corrected c (fst h), half_corrected c (snd h))) (sp_halves s)),
          option_map (fun a => (map (scaled_by c) (fst a), map (scaled_by c) (snd a))) all)
    end.
(* crossspectrum.py:212-266 normalize_crossspectrum and 269-323 normalize_crossspectrum_gauss *)
Definition normalize_crossspectrum (unnorm : list cx) (tseg : R) (nbins : nat) (nph1 nph2 : R) (norm : normt) (pt : ptype) : result (list cx) :=
  let nph := sqrt (nph1 * nph2) in
  with_ptype creal cabsl pt (normalize cmulr unnorm (tseg / INR nbins) nbins (Some (nph / INR nbins)) (Some nph) None 0 norm).
Definition normalize_crossspectrum_gauss (unnorm : list cx) (mean_flux var dt : R) (n : nat) (norm : normt) (pt : ptype) : result (list cx) :=
  with_ptype creal cabsl pt (normalize cmulr unnorm dt n (Some (mean_flux * dt)) None (Some var) 0 norm).
