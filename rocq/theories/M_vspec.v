(* M_vspec.v: model of the spectra of stingray/varenergyspectrum.py.  Times and energies are exact rationals, results are exact reals;
   None is a value that is not finite (nan, inf).  Energies, reference bands and frequency intervals are finite.  Warnings, progress bars
   and the use of the classes without events are left out. *)
From Coq Require Import Reals Qreals.
From Verif Require Import Np Lib M_gti M_seg M_utils M_lc M_exvar Cplx M_fourier M_flux.
From Coq Require Import List Bool Arith.
Import ListNotations.
Open Scope R_scope.

(* the attributes of an EventList that are used; None: not given *)
Record events := mkEv { ev_time : list Q; ev_energy : option (list Q); ev_pi : option (list Q); ev_gti : gtis }.
(* x[mask] *)
Definition mask_get {A} (mask : list bool) (l : list A) : result (list A) :=
  if Nat.eqb (length mask) (length l) then Ok (map fst (filter snd (combine l mask))) else Err IndexError.
(* varenergyspectrum.py:305-330 _get_times_from_energy_range; comparing None with a number is a TypeError *)
Definition times_from_energy (use_pi : bool) (ev : events) (erange : Q * Q) : result (list Q) :=
  match (if use_pi then ev_pi ev else ev_energy ev) with
  | None => Err TypeError
  | Some en => mask_get (map (fun e => (qle (fst erange) e && qlt e (snd erange))%bool) en) (ev_time ev)
  end.
(* varenergyspectrum.py:224, 240: consecutive edges *)
Definition energy_intervals (edges : list Q) : list (Q * Q) := combine edges (tl edges).
(* varenergyspectrum.py:257-265 energy *)
Definition energy_centers (ivs : list (Q * Q)) : list Q := map (fun p => ((fst p + snd p) / 2)%Q) ivs.
(* varenergyspectrum.py:271-290 _analyze_inputs: the common GTIs *)
Definition common_gti (srt : list tagged -> list tagged) (ev1 : events) (ev2 : option events) : result gtis :=
  match ev2 with None => Ok (ev_gti ev1) | Some e2 => cross_two_gtis srt (ev_gti ev1) (ev_gti e2) end.
(* varenergyspectrum.py:347-351 _get_good_frequency_bins for a given array of frequencies; freq_interval = (f0, f1) *)
Definition good_bins (f0 f1 : R) (freq : list R) : list bool :=
  map (fun f => ((if Rle_dec f0 f then true else false) && (if Rlt_dec f f1 then true else false))%bool) freq.
(* varenergyspectrum.py:348-350: the frequencies when none are given *)
Definition default_freq (seg dt : Q) : list R :=
  filter (fun f => if Rlt_dec 0 f then true else false) (fftfreq (Z.to_nat (rint (seg / dt))) (Q2R dt)).
Definition n_good (good : list bool) : nat := length (filter (fun b => b) good).
(* np.mean; nan for nothing *)
Definition omean (l : list R) : option R := match l with [] => None | _ => Some (rlsum l / INR (length l)) end.
Definition ocmean (l : list cx) : option cx := match l with [] => None | _ => Some (cscal (clsum l) (/ INR (length l))) end.
(* varenergyspectrum.py:440-464 check_phot_per_segment *)
Definition enough (rate seg minph : Q) : bool := qle minph (rate * seg).

(* varenergyspectrum.py:612-628: power is the modulus of the mean power less the noise *)
Definition rms_row (frac : bool) (power dnu noise_rms : R) (m k : nat) (meanrate : R) : option R * option R :=
  let rms := sqrt (power * dnu) in
  let num := rms ^ 4 + noise_rms ^ 4 + 2 * rms * noise_rms in
  let den := 4 * INR m * INR k * rms ^ 2 in
  let err := flet q := fdiv num den in fsqrt q in
  if frac then (fdiv rms meanrate, flet e := err in fdiv e meanrate) else (Some rms, err).
(* varenergyspectrum.py:555-628 RmsSpectrum._spectrum_function; segment_size is a number (None: TypeError).  use_pi is not used. *)
Definition rms_spectrum (numba : bool) (srt : list tagged -> list tagged) (use_pi : bool) (ev1 : events) (ev2 : option events) (ivs : list (Q * Q)) (f0 f1 : R)
  (dt seg : Q) (frac : bool) : result (list (option R * option R)) :=
  let! gti := common_gti srt ev1 ev2 in
  let good := good_bins f0 f1 (default_freq seg dt) in
  let k := n_good good in
  let dnu := 1 / Q2R seg * INR k in
  map_result (fun eint =>
    let! sub := times_from_energy false ev1 eint in
    let! rate := get_average_ctrate sub gti seg None in
    let! noise := poisson_level AbsNorm (Some (Q2R rate)) None 0 in
    if negb (enough rate seg 10) then Ok (None, None)
    else match ev2 with
    | Some e2 =>
        let! sub2 := times_from_energy false e2 eint in
        let! rate2 := get_average_ctrate sub2 gti seg None in
        let! noise2 := poisson_level AbsNorm (Some (Q2R rate2)) None 0 in
        if negb (enough rate2 seg 10) then Ok (None, None)
        else
          let! res := avg_cs_from_timeseries numba sub sub2 gti (Some seg) dt AbsNorm true false true PAll None None None None false false in
          match res with
          | None => Ok (None, None)
          | Some t => let! p := mask_get good (c_power t) in
                      Ok (match ocmean p with
                          | Some mp => rms_row frac (cabs mp) dnu (sqrt (dnu * sqrt (noise * noise2))) (c_m t) k (c_mean t / Q2R dt)
                          | None => (None, None)
                          end)
          end
    | None =>
        let! res := avg_pds_from_timeseries numba sub gti (Some seg) dt AbsNorm true None None false in
        match res with
        | None => Ok (None, None)
        | Some t => let! p := mask_get good (p_power t) in
                    Ok (match omean p with
                        | Some mp => rms_row frac (Rabs (mp - noise)) dnu (sqrt (dnu * noise)) (p_m t) k (p_mean t / Q2R dt)
                        | None => (None, None)
                        end)
        end
    end) ivs.

(* varenergyspectrum.py:756-773 CountSpectrum *)
Definition count_spectrum (use_pi : bool) (ev : events) (ivs : list (Q * Q)) : result (list (R * R)) :=
  map_result (fun eint => let! sub := times_from_energy use_pi ev eint in Ok (INR (length sub), sqrt (INR (length sub)))) ivs.

(* varenergyspectrum.py:390-419 _construct_lightcurves with only_base=True and events2 = events1 *)
Definition base_lightcurve (srt : list tagged -> list tagged) (use_pi : bool) (ev : events) (dt : Q) (band : Q * Q) : result lightcurve :=
  let! gti := cross_two_gtis srt (ev_gti ev) (ev_gti ev) in
  let! g0 := get gti 0 in
  let! g1 := get_last gti in
  let! sub := times_from_energy use_pi ev band in
  make_lightcurve sub dt (Some (snd g1 - fst g0)%Q) (Some (fst g0)) (Some gti) false.
(* varenergyspectrum.py:707-718 ExcessVarianceSpectrum._spectrum_function: it returns its results and the constructor (varenergyspectrum.py:254)
   drops them; the attributes stay as they were made (nan).  excess_variance has no failures of its own here. *)
Definition excess_variance_spectrum (srt : list tagged -> list tagged) (use_pi : bool) (ev : events) (ivs : list (Q * Q)) (dt : Q) : result (list (option R * option R)) :=
  let! _ := map_result (base_lightcurve srt use_pi ev dt) ivs in
  Ok (map (fun _ => (None, None)) ivs).

(* fourier.py:712-755 raw_coherence; nan for a zero power *)
Definition oraw_coherence (cross : cx) (p1 p2 n1 n2 : R) (n_ave : nat) : option R :=
  let bsq := bias_term p1 p2 n1 n2 n_ave 1 in
  let num := cnorm2 cross - bsq in
  fdiv (if Rlt_dec num 0 then cnorm2 cross else num) (p1 * p2).
(* fourier.py:1137-1164 error_on_averaged_cross_spectrum: error of the phase, error of the modulus *)
Definition phase_error (common : bool) (cross : cx) (ps pr : R) (n_ave : nat) (ns nr : R) : option R :=
  if common then
    flet a := fdiv ps (cnorm2 cross - bias_term ps pr ns nr n_ave 1) in
    flet b := fdiv 1 (pr - nr) in
    flet c := fdiv pr (2 * INR n_ave) in fsqrt (c * (a - b))
  else flet g := oraw_coherence cross ps pr ns nr n_ave in flet q := fdiv (1 - g) (2 * g * INR n_ave) in fsqrt q.
Definition modulus_error (common : bool) (cross : cx) (ps pr : R) (n_ave : nat) (ns nr : R) : option R :=
  if common then
    flet fr := fdiv (cnorm2 cross - bias_term ps pr ns nr n_ave 1) (pr - nr) in
    flet c := fdiv pr (2 * INR n_ave) in fsqrt (c * (ps - fr))
  else flet q := fdiv (pr * ps) (INR n_ave) in fsqrt q.
(* varenergyspectrum.py:905, 1075: is the subject band part of the reference band? *)
Definition overlaps (srt : list tagged -> list tagged) (same : bool) (eint : Q * Q) (ref_band : gtis) : result bool :=
  if same then let! l := cross_two_gtis srt [eint] ref_band in Ok (Nat.ltb 0 (length l)) else Ok false.
(* varenergyspectrum.py:919-927: lag and its error; fs and cross are those of the good bins *)
Definition lag_row (cmean : cx) (fs : list R) (cross : list cx) (phi_e : option R) : option R * option R :=
  let csabs := map cabs cross in
  let fmean := fdiv (rlsum (map (fun p => fst p * snd p) (combine fs csabs))) (rlsum csabs) in
  ((flet f := fmean in fdiv (angle cmean) (2 * PI * f)), (flet e := phi_e in flet f := fmean in fdiv e (2 * PI * f))).
(* varenergyspectrum.py:831-927 LagSpectrum._spectrum_function.  Nothing measured in the reference band: None has no attribute meta.
   use_pi is not used. *)
Definition lag_spectrum (numba : bool) (srt : list tagged -> list tagged) (use_pi : bool) (ev1 : events) (ev2 : option events) (ivs : list (Q * Q)) (ref_band : gtis) (f0 f1 : R)
  (dt seg : Q) : result (list (option R * option R)) :=
  let! gti := common_gti srt ev1 ev2 in
  let! rb := get ref_band 0 in
  let! ref := times_from_energy false (match ev2 with Some e => e | None => ev1 end) rb in
  let! res := avg_pds_from_timeseries numba ref gti (Some seg) dt NoNorm true None None false in
  match res with
  | None => Err AttributeError
  | Some t =>
    let! ref_noise := poisson_level NoNorm None (Some (INR (length ref) / INR (p_m t))) 0 in
    let good := good_bins f0 f1 (p_freq t) in
    let! fs := mask_get good (p_freq t) in
    let! rp := mask_get good (p_power t) in
    map_result (fun eint =>
      let! sub := times_from_energy false ev1 eint in
      let! cres := avg_cs_from_timeseries numba sub ref gti (Some seg) dt NoNorm true false true PAll None None None None false false in
      let! pres := avg_pds_from_timeseries numba sub gti (Some seg) dt NoNorm true None None false in
      match cres, pres with
      | Some c, Some p =>
          let! noise := poisson_level NoNorm None (Some (INR (length sub) / INR (p_m p))) 0 in
          let! cross := mask_get good (c_power c) in
          let! sp := mask_get good (p_power p) in
          let! common := overlaps srt (match ev2 with None => true | _ => false end) eint ref_band in
          Ok (match ocmean cross, omean sp, omean rp with
              | Some cm, Some ms, Some mr => lag_row cm fs cross (phase_error common cm ms mr (n_good good * p_m t) noise ref_noise)
              | _, _, _ => (None, None)
              end)
      | _, _ => Ok (None, None)
      end) ivs
  end.

(* varenergyspectrum.py:1093-1122: the value is complex if return_complex *)
Definition covariance_row (complex frac : bool) (cmean : cx) (err : option R) (mean_ref ref_noise dnu meanrate : R) : option cx * option R :=
  let c := if complex then cmean else rtoc (cabs cmean) in
  let fac := flet q := fdiv dnu (mean_ref - ref_noise) in fsqrt q in
  let v := flet s := fac in Some (cscal c s) in
  let e := flet x := err in flet s := fac in Some (x * s) in
  if frac then ((flet z := v in flet i := fdiv 1 meanrate in Some (cscal z i)), (flet x := e in fdiv x meanrate)) else (v, e).
(* varenergyspectrum.py:1003-1122 ComplexCovarianceSpectrum._spectrum_function; minph is min_phot_per_segment.  Nothing measured in the
   reference band: None cannot be indexed.  use_pi is not used. *)
Definition covariance_spectrum (numba : bool) (srt : list tagged -> list tagged) (use_pi : bool) (complex frac : bool) (minph : Q) (ev1 : events) (ev2 : option events) (ivs : list (Q * Q))
  (ref_band : gtis) (f0 f1 : R) (dt seg : Q) : result (list (option cx * option R)) :=
  let! gti := common_gti srt ev1 ev2 in
  let! rb := get ref_band 0 in
  let! ref := times_from_energy false (match ev2 with Some e => e | None => ev1 end) rb in
  let! rate_ref := get_average_ctrate ref gti seg None in
  let! ref_noise := poisson_level AbsNorm (Some (Q2R rate_ref)) None 0 in
  let! res := avg_pds_from_timeseries numba ref gti (Some seg) dt AbsNorm true None None false in
  match res with
  | None => Err TypeError
  | Some t =>
    let good := good_bins f0 f1 (p_freq t) in
    let k := n_good good in
    let! rp := mask_get good (p_power t) in
    let dnu := INR k * (1 / Q2R seg) in
    map_result (fun eint =>
      let! sub := times_from_energy false ev1 eint in
      let! rate := get_average_ctrate sub gti seg None in
      if negb (enough rate seg minph) then Ok (None, None)
      else
        let! noise := poisson_level AbsNorm (Some (Q2R rate)) None 0 in
        let! cres := avg_cs_from_timeseries numba sub ref gti (Some seg) dt AbsNorm true false true PAll None None None None false false in
        let! pres := avg_pds_from_timeseries numba sub gti (Some seg) dt AbsNorm true None None false in
        match cres, pres with
        | Some c, Some p =>
            let! common := overlaps srt (match ev2 with None => true | _ => false end) eint ref_band in
            let! cross := mask_get good (c_power c) in
            let! sp := mask_get good (p_power p) in
            Ok (match ocmean cross, omean sp, omean rp with
                | Some cm, Some ms, Some mr =>
                    let cm := if common then csub cm (rtoc noise) else cm in
                    covariance_row complex frac cm (modulus_error common cm ms mr (p_m t * k) noise ref_noise) mr ref_noise dnu (p_mean p / Q2R dt)
                | _, _, _ => (None, None)
                end)
        | _, _ => Ok (None, None)
        end) ivs
  end.
