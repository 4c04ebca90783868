(* T_make2.v: more theorems about spectra made from event lists and lists of light curves, and about power colors (C142, C143, C146). *)
From Coq Require Import Reals Qreals.
From Coq Require Import Lqa Lia Sorted.
From Verif Require Import Np Lib S_gti S_seg S_utils S_flux S_fourier M_gti M_seg M_utils M_lc M_exvar Cplx M_fourier M_flux P_flux P_flux2 M_make P_make P_make2 M_power M_pcolor M_dynobj P_make3.
Open Scope Q_scope.

Theorem C142_events_any_mean : forall numba ev dt rq norm common gti save n,
  let dt' := suggest_compatible_dt (e_res ev) dt in let g := or_own gti (e_gti ev) in
  0 < dt' -> (0 < n)%nat -> snd (fix_segment_size rq dt' (1 # 100)) = Z.of_nat n -> nondecreasing (e_time ev) ->
  (exists a b, In (a, b) g /\ nq n * dt' < b - a + (1 # 100000)) ->
  let size := nq n * dt' in
  exists st, segment_grid g size (1 # 100000) st /\ st <> [] /\
    powerspectrum_from_events numba ev dt (Some rq) norm common gti save =
    match avg_pds (map (counts_segment (e_time ev) size n) st) (Q2R dt') norm common save with
    | Ok (Some t) => Ok (t, g)
    | Ok None => Err AttributeError
    | Err e => Err e
    end.
Proof. exact from_events_any. Qed.
Print Assumptions C142_events_any_mean.
Theorem C142_single : forall numba ev norm dt,
  (1 # 1000000000000000) < dt -> norm <> OtherNorm ->
  new_powerspectrum numba (Events ev) norm None (Some dt) = powerspectrum_from_events numba ev dt None norm true None false.
Proof. exact single_is. Qed.
Print Assumptions C142_single.
Theorem C142_single_curve : forall numba lc norm dt,
  norm <> OtherNorm -> new_powerspectrum numba (Curve lc) norm None dt = powerspectrum_from_lightcurve numba lc None norm true None false.
Proof. exact single_curve. Qed.
Print Assumptions C142_single_curve.
Theorem C142_no_dt_error : forall numba ev seg gti norm common save,
  initialize_from numba (Events ev) None seg gti norm common save = Err TypeError.
Proof. exact no_dt_error. Qed.
Print Assumptions C142_no_dt_error.
Theorem C142_list_common_gti : forall numba srt lcs gs dt seg norm common c save,
  Forall2 (fun lc g => cross_two_gtis srt c (l_gti lc) = Ok g) lcs gs ->
  powerspectrum_from_lc_iterable numba srt lcs dt seg norm common (Some c) save =
  powerspectrum_from_lc_iterable numba srt (map (fun x => with_gti (fst x) (snd x)) (combine lcs gs)) dt seg norm common None save.
Proof. exact list_common. Qed.
Print Assumptions C142_list_common_gti.
Theorem C143_lists_common_gti : forall numba srt lcs1 gs1 lcs2 gs2 dt seg norm common fullspec pt c save,
  Forall2 (fun lc g => cross_two_gtis srt c (l_gti lc) = Ok g) lcs1 gs1 -> Forall2 (fun lc g => cross_two_gtis srt c (l_gti lc) = Ok g) lcs2 gs2 ->
  crossspectrum_from_lc_iterable numba srt lcs1 lcs2 dt seg norm common fullspec pt (Some c) save =
  crossspectrum_from_lc_iterable numba srt (map (fun x => with_gti (fst x) (snd x)) (combine lcs1 gs1)) (map (fun x => with_gti (fst x) (snd x)) (combine lcs2 gs2)) dt seg norm common fullspec pt None save.
Proof. exact lists_common. Qed.
Print Assumptions C143_lists_common_gti.
Theorem C146_row : forall d noise col i f p x,
  nth_error (o_freq d) i = Some f -> nth_error col i = Some p -> nth_error noise i = Some x ->
  nth_error (column_rows d noise col) i = Some {| b_f := f; b_df := o_df d; b_p := p; b_noise := x; b_err := 0 |}.
Proof. exact column_row. Qed.
Print Assumptions C146_row.

Example C142_common_gti_nonvacuous : Forall2 (fun lc g => cross_two_gtis (isort_by t_end) [(0, 3)] (l_gti lc) = Ok g)
  [mkCurve [0; 1; 2; 3] [1; 2; 3; 4] [(0, 2)] 1 4 None; mkCurve [0; 1; 2; 3] [1; 2; 3; 4] [(1, 4)] 1 4 None] [[(0, 2)]; [(1, 3)]].
Proof. constructor; [vm_compute; reflexivity|]. constructor; [vm_compute; reflexivity|constructor]. Qed.

