(* M_make.v: model of how power and cross spectra are made from event lists, light curves and lists of light curves
   (stingray/powerspectrum.py, stingray/crossspectrum.py), and of the dynamical power spectrum.  Times are exact rationals, powers exact
   reals; None is a value that is not finite.  Progress bars, warnings and the attributes lc1, lc2 are left out; norm is in lower case. *)
From Coq Require Import Reals Qreals.
From Verif Require Import Np Lib M_gti M_seg M_utils M_lc M_exvar Cplx M_fourier M_flux.
From Coq Require Import List Bool Arith.
Import ListNotations.
Open Scope Q_scope.

(* an EventList: times, GTIs and time resolution dt (0: not known) *)
Record evlist := mkEvl { e_time : list Q; e_gti : gtis; e_res : Q }.
(* a Lightcurve: times, counts, GTIs, dt, tseg, and the errors if err_dist is "gauss" *)
Record curve := mkCurve { l_time : list Q; l_counts : list Q; l_gti : gtis; l_dt : Q; l_tseg : Q; l_err : option (list Q) }.
Inductive input := Events (e : evlist) | Curve (l : curve).
Definition input_gti (d : input) : gtis := match d with Events e => e_gti e | Curve l => l_gti l end.
(* GTIs given by the user, or those of the data: powerspectrum.py:1309-1310, 1375-1376 *)
Definition or_own (gti : option gtis) (own : gtis) : gtis := match gti with Some g => g | None => own end.

(* powerspectrum.py:1574-1618: None has no attribute meta *)
Definition table_of (t : option pds_table) : result pds_table := match t with None => Err AttributeError | Some t => Ok t end.
(* powerspectrum.py:1256-1323 powerspectrum_from_events with 1186-1253 powerspectrum_from_time_array; the second component is the attribute
   gti (fourier.py:2357) *)
Definition powerspectrum_from_events (numba : bool) (ev : evlist) (dt : Q) (seg : option Q) (norm : normt) (common : bool) (gti : option gtis) (save : bool)
  : result (pds_table * gtis) :=
  let g := or_own gti (e_gti ev) in
  let! t := avg_pds_from_timeseries numba (e_time ev) g seg (suggest_compatible_dt (e_res ev) dt) norm common None None save in
  let! t := table_of t in
  Ok (t, g).
(* powerspectrum.py:1326-1391 powerspectrum_from_lightcurve *)
Definition powerspectrum_from_lightcurve (numba : bool) (lc : curve) (seg : option Q) (norm : normt) (common : bool) (gti : option gtis) (save : bool)
  : result (pds_table * gtis) :=
  let g := or_own gti (l_gti lc) in
  let! t := avg_pds_from_timeseries numba (l_time lc) g seg (l_dt lc) norm common (Some (l_counts lc)) (l_err lc) save in
  let! t := table_of t in
  Ok (t, g).
(* powerspectrum.py:1531-1558, crossspectrum.py:3095-3116 iterate_lc_counts for a list of light curves, segment_size given; the light curves
   are evenly sampled, so that the median step of their times is dt *)
Definition curve_fluxes (numba : bool) (srt : list tagged -> list tagged) (seg : Q) (common_gti : option gtis) (lc : curve) : result (list flux_item) :=
  let! g := match common_gti with None => Ok (l_gti lc) | Some c => cross_two_gtis srt c (l_gti lc) end in
  get_flux_iterable numba (l_time lc) g (Some seg) (Some (Z.to_nat (rint (seg / l_dt lc)))) (l_dt lc) (Some (l_counts lc)) (l_err lc).
Definition iterate_lc_counts (numba : bool) (srt : list tagged -> list tagged) (seg : Q) (common_gti : option gtis) (lcs : list curve) : result (list flux_item) :=
  let! l := map_result (curve_fluxes numba srt seg common_gti) lcs in Ok (concat l).
(* powerspectrum.py:1474-1566 powerspectrum_from_lc_iterable *)
Definition powerspectrum_from_lc_iterable (numba : bool) (srt : list tagged -> list tagged) (lcs : list curve) (dt seg : Q) (norm : normt) (common : bool)
  (gti : option gtis) (save : bool) : result pds_table :=
  let! it := iterate_lc_counts numba srt seg gti lcs in
  let! t := avg_pds (map real_item it) (Q2R dt) norm common save in
  table_of t.
(* crossspectrum.py:3028-3131 crossspectrum_from_lc_iterable: the two lists are gone through at the same time *)
Definition crossspectrum_from_lc_iterable (numba : bool) (srt : list tagged -> list tagged) (lcs1 lcs2 : list curve) (dt seg : Q) (norm : normt) (common fullspec : bool)
  (pt : ptype) (gti : option gtis) (save : bool) : result (option cs_table) :=
  let! it1 := iterate_lc_counts numba srt seg gti lcs1 in
  let! it2 := iterate_lc_counts numba srt seg gti lcs2 in
  avg_cs (map real_item it1) (map real_item it2) (Q2R dt) norm common fullspec pt true save.

(* crossspectrum.py:605-737 Crossspectrum.initial_checks and 2048-2082 AveragedCrossspectrum.initial_checks for data1 = data2;
   np.finfo(float).resolution is 1e-15 *)
Definition initial_checks (averaged : bool) (d : input) (norm : normt) (gti : option gtis) (dt : option Q) (seg : option Q) : result unit :=
  match norm with
  | OtherNorm => Err ValueError
  | _ =>
    let dt_is_invalid := match dt with None => true | Some v => qle v (1 # 1000000000000000) end in
    if match seg, gti with None, Some g => Nat.ltb 1 (length g) | _, _ => false end then Err TypeError
    else if match d with Events _ => dt_is_invalid | Curve _ => false end then Err ValueError
    else if (averaged && match seg with None => true | _ => false end)%bool then Err ValueError else Ok tt
  end.
(* powerspectrum.py:707-768 _initialize_from_any_input *)
Definition initialize_from (numba : bool) (d : input) (dt : option Q) (seg : option Q) (gti : option gtis) (norm : normt) (common save : bool) : result (pds_table * gtis) :=
  match d with
  | Events ev => match dt with None => Err TypeError | Some v => powerspectrum_from_events numba ev v seg norm common gti save end
  | Curve lc => powerspectrum_from_lightcurve numba lc seg norm common gti save
  end.
(* powerspectrum.py:100-122 Powerspectrum: gti is checked and not passed on *)
Definition new_powerspectrum (numba : bool) (d : input) (norm : normt) (gti : option gtis) (dt : option Q) : result (pds_table * gtis) :=
  let! _ := initial_checks false d norm gti dt None in
  initialize_from numba d dt None None norm true false.
(* powerspectrum.py:875-941 AveragedPowerspectrum *)
Definition new_averaged_powerspectrum (numba : bool) (d : input) (seg : option Q) (norm : normt) (gti : option gtis) (dt : option Q) (common save : bool)
  : result (pds_table * gtis) :=
  let! _ := initial_checks true d norm gti dt seg in
  initialize_from numba d dt seg None norm common save.

(* ---------- dynamical power spectra ---------- *)
Record dynamical := mkDynamical { y_cols : list (list R); y_conv : option R; y_freq : list R; y_time : list Q; y_df : R; y_meanrate : R; y_nphots : R }.
(* np.nanmean of the quotients of two arrays *)
Definition ratios (a b : list (list R)) : list R :=
  flat_map (fun p => match fdiv (fst p) (snd p) with Some v => [v] | None => [] end) (combine (concat a) (concat b)).
Definition nanmean_ratio (a b : list (list R)) : option R :=
  match ratios a b with [] => None | l => Some (rlsum l / INR (length l))%R end.
(* powerspectrum.py:1102-1135 DynamicalPowerspectrum._make_matrix *)
Definition make_matrix (numba : bool) (d : input) (seg : Q) (norm : normt) (gti : option gtis) (sample_time : option Q) : result dynamical :=
  let! tg := new_averaged_powerspectrum numba d (Some seg) norm gti sample_time true true in
  let t := fst tg in
  match p_subcs t, p_unnorm_subcs t with
  | Some cs, Some us =>
    let! iv := time_intervals_from_gtis (snd tg) seg 1 (1 # 100000) in
    Ok (mkDynamical cs (nanmean_ratio cs us) (p_freq t) (map (fun s => s + (1 # 2) * seg) (fst iv)) (p_df t) (p_nphots t / INR (p_n t) / p_dt t)%R (p_nphots t))
  | _, _ => Err AttributeError
  end.
(* powerspectrum.py:1023-1049 DynamicalPowerspectrum; both arguments given *)
Definition new_dynamical (numba : bool) (d : input) (seg : Q) (norm : normt) (gti : option gtis) (sample_time : option Q) : result dynamical :=
  let! st := match d with
             | Events _ => match sample_time with None => Err ValueError | Some v => Ok v end
             | Curve lc => if qlt (l_tseg lc) seg then Err ValueError else Ok (l_dt lc)
             end in
  if qlt seg (2 * st) then Err ValueError else make_matrix numba d seg norm gti sample_time.
