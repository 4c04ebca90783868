(* T_mkcross3.v: property theorems about what the constructors of cross spectra hand on and refuse (C148, C150 - C152). *)
From Coq Require Import Reals Qreals.
From Coq Require Import Lqa Lia Sorted.
From Verif Require Import Np Lib S_gti S_seg S_base S_utils S_flux S_fourier S_mkcross M_gti M_seg M_utils M_lc M_base M_exvar Cplx M_fourier M_flux M_norm M_make M_vspec M_mkcross P_mkcross3 P_mkcross4.
Open Scope Q_scope.

Theorem C148_events_is : forall numba srt ev1 ev2 dt seg norm common fullspec silent pt gti save g t,
  (gti = Some g \/ (gti = None /\ cross_two_gtis srt (e_gti ev1) (e_gti ev2) = Ok g)) ->
  crossspectrum_from_events numba srt ev1 ev2 dt seg norm common fullspec silent pt gti save = Ok t <->
  avg_cs_from_timeseries numba (e_time ev1) (e_time ev2) g seg (suggest_compatible_dt (e_res ev1) dt) norm common fullspec (silent || match seg with None => true | _ => false end)%bool pt
    None None None None true save = Ok (Some t).
Proof. exact events_is. Qed.
Print Assumptions C148_events_is.
Theorem C148_curves_is : forall numba srt lc1 lc2 seg norm common fullspec silent pt gti save g t,
  (gti = Some g \/ (gti = None /\ cross_two_gtis srt (l_gti lc1) (l_gti lc2) = Ok g)) ->
  crossspectrum_from_lightcurve numba srt lc1 lc2 seg norm common fullspec silent pt gti save = Ok t <->
  avg_cs_from_timeseries numba (l_time lc1) (l_time lc2) g seg (l_dt lc1) norm common fullspec (silent || match seg with None => true | _ => false end)%bool pt
    (Some (l_counts lc1)) (Some (l_counts lc2)) (l_err lc1) (match l_err lc1 with None => None | Some _ => l_err lc2 end) true save = Ok (Some t).
Proof. exact curves_is. Qed.
Print Assumptions C148_curves_is.
Theorem C148_no_common_error : forall numba srt ev1 ev2 dt seg norm common fullspec silent pt save e,
  cross_two_gtis srt (e_gti ev1) (e_gti ev2) = Err e ->
  crossspectrum_from_events numba srt ev1 ev2 dt seg norm common fullspec silent pt None save = Err e.
Proof. exact no_common_gti. Qed.
Print Assumptions C148_no_common_error.
Theorem C150_restricted : forall numba g ev ev',
  restricted numba g ev = Ok ev' -> g <> [] /\ well_formed g /\ e_gti ev' = g /\ e_res ev' = e_res ev /\
  (e_time ev <> [] -> nondecreasing (e_time ev) -> 0 < e_res ev \/ (0 <= e_res ev /\ gaps_between g) -> (numba = false \/ all_hold_bins g (gti_eps * e_res ev) (e_res ev) (e_time ev)) ->
   exists m, flags (bin_in g (gti_eps * e_res ev) (e_res ev)) (e_time ev) m /\ e_time ev' = select (e_time ev) m).
Proof. exact restricted_ok. Qed.
Print Assumptions C150_restricted.
Theorem C150_whole : forall numba srt av ev1 ev2 norm gti dt common fullspec silent pt save t r,
  new_cross_events numba srt av ev1 ev2 norm gti dt None common fullspec silent pt save = Ok (t, r) ->
  exists d g a b, dt = Some d /\ cross_two_gtis srt (e_gti ev1) (e_gti ev2) = Ok g /\ restricted numba g ev1 = Ok a /\ restricted numba g ev2 = Ok b /\
    crossspectrum_from_events numba srt a b d None norm common fullspec silent pt gti save = Ok t.
Proof. exact new_cross_one. Qed.
Print Assumptions C150_whole.
Theorem C150_segments : forall numba srt av ev1 ev2 norm gti dt seg common fullspec silent pt save t r,
  new_cross_events numba srt av ev1 ev2 norm gti dt (Some seg) common fullspec silent pt save = Ok (t, r) ->
  exists d, dt = Some d /\ crossspectrum_from_events numba srt ev1 ev2 d (Some seg) norm common fullspec silent pt gti save = Ok t.
Proof. exact new_cross_many. Qed.
Print Assumptions C150_segments.
Theorem C150_refused_error : forall numba srt av ev1 ev2 norm gti dt seg common fullspec silent pt save,
  norm = OtherNorm \/ pt = POther \/ (dt = None /\ (seg <> None \/ gti = None)) ->
  new_cross_events numba srt av ev1 ev2 norm gti dt seg common fullspec silent pt save = Err ValueError.
Proof. exact new_cross_refused. Qed.
Print Assumptions C150_refused_error.
Theorem C151_no_auxil_error : forall overlap t,
  c_auxil t = None -> acs_phase_lag overlap t = Err KeyError /\ acs_time_lag overlap t = Err KeyError.
Proof. exact no_auxil. Qed.
Print Assumptions C151_no_auxil_error.
Theorem C152_halves_errors : forall model s all s' all' h1 h2,
  sp_halves s = Some (h1, h2) -> deadtime_correct false model s all = Ok (s', all') ->
  (forall l, h_err h1 = Some l \/ h_unnorm_err h1 = Some l \/ h_err h2 = Some l \/ h_unnorm_err h2 = Some l -> length model = length l) ->
  exists h1' h2', sp_halves s' = Some (h1', h2') /\ corrected_opt model (h_err h1) (h_err h1') /\ corrected_opt model (h_unnorm_err h1) (h_unnorm_err h1') /\
    corrected_opt model (h_err h2) (h_err h2') /\ corrected_opt model (h_unnorm_err h2) (h_unnorm_err h2') /\ h_norm h1' = h_norm h1 /\ h_norm h2' = h_norm h2.
Proof. exact halves_errors. Qed.
Print Assumptions C152_halves_errors.
Theorem C152_refused_error : forall model s all,
  deadtime_correct true model s all = Err RuntimeError /\ (sp_power s = None -> deadtime_correct false model s all = Err TypeError).
Proof. exact deadtime_refused. Qed.
Print Assumptions C152_refused_error.
Theorem C152_rest : forall model s all s' all',
  deadtime_correct false model s all = Ok (s', all') ->
  sp_var1 s' = sp_var1 s /\ sp_var2 s' = sp_var2 s /\ sp_ptype s' = sp_ptype s /\ sp_gauss s' = sp_gauss s /\ sp_power_type s' = sp_power_type s /\ (all = None -> all' = None).
Proof. exact deadtime_rest. Qed.
Print Assumptions C152_rest.

Example C150_whole_nonvacuous : forall numba, exists t g a b, new_cross_events numba (isort_by t_end) false few1 few2 Frac None (Some 1) None true false true PAll false = Ok (t, (mkEvl [3; 4] [(2, 8)] 0, mkEvl [3; 5] [(2, 8)] 0)) /\
  restricted numba g few1 = Ok a /\ restricted numba g few2 = Ok b.
Proof.
  intros numba. destruct (few_cross numba None (or_introl eq_refl)) as (t & E & _). destruct (new_cross_one _ _ _ _ _ _ _ _ _ _ _ _ _ _ _ E) as (d & g & a & b & _ & _ & A & B & _). now exists t, g, a, b.
Qed.
Example C152_halves_nonvacuous : exists s' all' h1' h2',
  deadtime_correct false [1%R] (mkSpec false NoNorm (Some [(1%R, 0%R)]) None None None 1 2 2 2 false None None PAll (Some (mkHalf NoNorm [(1%R, 0%R)] (Some [(1%R, 0%R)]) [(1%R, 0%R)] None, mkHalf NoNorm [(1%R, 0%R)] None [(1%R, 0%R)] None))) None = Ok (s', all') /\
  sp_halves s' = Some (h1', h2') /\ h_err h1' = Some [(2%R, 0%R)].
Proof.
  do 4 eexists. split; [reflexivity|]. split; [reflexivity|]. cbn. unfold scaled_by, cscal, re, im. cbn. do 3 f_equal; field.
Qed.

