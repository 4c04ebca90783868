(* P_make3.v: spectra with the mean of each segment, single spectra, GTIs common to a list of light curves, rows given to power_color. *)
From Coq Require Import Reals Qreals.
From Coq Require Import Lqa Lia.
From Verif Require Import Np Lib S_gti S_seg S_utils S_flux S_fourier M_gti M_seg M_utils M_lc M_exvar Cplx M_fourier M_flux P_flux P_flux2 P_avg M_make P_make M_power M_pcolor M_dynobj.
Open Scope Q_scope.

Lemma from_events_any numba ev dt rq norm common gti save n : let dt' := suggest_compatible_dt (e_res ev) dt in let g := or_own gti (e_gti ev) in
  0 < dt' -> (0 < n)%nat -> snd (fix_segment_size rq dt' (1 # 100)) = Z.of_nat n -> nondecreasing (e_time ev) ->
  (exists a b, In (a, b) g /\ nq n * dt' < b - a + (1 # 100000)) ->
  let size := nq n * dt' in
  exists st, segment_grid g size (1 # 100000) st /\ st <> [] /\
    powerspectrum_from_events numba ev dt (Some rq) norm common gti save =
    match avg_pds (map (counts_segment (e_time ev) size n) st) (Q2R dt') norm common save with
    | Ok (Some t) => Ok (t, g)
    | Ok None => Err AttributeError
    | Err e => Err e
    end.
Proof.
  intros dt' g Hd Hn F2 Ht Hg size. assert (F1 : fst (fix_segment_size rq dt' (1 # 100)) = nq n * dt') by (rewrite <- F2; reflexivity). pose proof (size_pos n dt' Hn Hd) as Hs. fold size in Hs.
  destruct (pds_events numba (e_time ev) g size dt' norm common save n Hd Hn (Qeq_refl _) Ht Hg) as (st & G & N & E). fold size in G, E.
  exists st. split; [exact G|]. split; [exact N|].
  assert (E0 : avg_pds_from_timeseries numba (e_time ev) g (Some rq) dt' norm common None None save = avg_pds (map (counts_segment (e_time ev) size n) st) (Q2R dt') norm common save).
  { rewrite <- E. unfold avg_pds_from_timeseries, segment_and_bins. unfold size. rewrite (fix_exact (nq n * dt') dt' n Hd (Qeq_refl _)), F1, F2. reflexivity. }
  unfold powerspectrum_from_events. fold dt' g. cbv zeta. rewrite E0. destruct (avg_pds _ _ _ _ _) as [[t|]|]; reflexivity.
Qed.
Lemma single_is numba ev norm dt : (1 # 1000000000000000) < dt -> norm <> OtherNorm ->
  new_powerspectrum numba (Events ev) norm None (Some dt) = powerspectrum_from_events numba ev dt None norm true None false.
Proof.
  intros Hv Hn. unfold new_powerspectrum, initial_checks. assert (Q : qle dt (1 # 1000000000000000) = false) by (apply qle_f; exact Hv). rewrite Q.
  destruct norm; try congruence; reflexivity.
Qed.
Lemma single_curve numba lc norm dt : norm <> OtherNorm -> new_powerspectrum numba (Curve lc) norm None dt = powerspectrum_from_lightcurve numba lc None norm true None false.
Proof.
  intros Hn. unfold new_powerspectrum, initial_checks. destruct norm; try congruence; reflexivity.
Qed.
Lemma no_dt_error numba ev seg gti norm common save : initialize_from numba (Events ev) None seg gti norm common save = Err TypeError.
Proof.
  reflexivity.
Qed.
(* a light curve with other GTIs *)
Definition with_gti (lc : curve) (g : gtis) : curve := mkCurve (l_time lc) (l_counts lc) g (l_dt lc) (l_tseg lc) (l_err lc).
Lemma iterate_common numba srt seg c lcs gs : Forall2 (fun lc g => cross_two_gtis srt c (l_gti lc) = Ok g) lcs gs ->
  iterate_lc_counts numba srt seg (Some c) lcs = iterate_lc_counts numba srt seg None (map (fun x => with_gti (fst x) (snd x)) (combine lcs gs)).
Proof.
  intros H. unfold iterate_lc_counts. f_equal. induction H as [|lc g lcs gs E H IH]; [reflexivity|]. cbn [combine map map_result fst snd]. rewrite IH.
  replace (curve_fluxes numba srt seg (Some c) lc) with (curve_fluxes numba srt seg None (with_gti lc g)); [reflexivity|]. unfold curve_fluxes. rewrite E. reflexivity.
Qed.
Lemma list_common numba srt lcs gs dt seg norm common c save : Forall2 (fun lc g => cross_two_gtis srt c (l_gti lc) = Ok g) lcs gs ->
  powerspectrum_from_lc_iterable numba srt lcs dt seg norm common (Some c) save =
  powerspectrum_from_lc_iterable numba srt (map (fun x => with_gti (fst x) (snd x)) (combine lcs gs)) dt seg norm common None save.
Proof.
  intros H. unfold powerspectrum_from_lc_iterable. now rewrite (iterate_common _ _ _ _ _ _ H).
Qed.
Lemma lists_common numba srt lcs1 gs1 lcs2 gs2 dt seg norm common fullspec pt c save :
  Forall2 (fun lc g => cross_two_gtis srt c (l_gti lc) = Ok g) lcs1 gs1 -> Forall2 (fun lc g => cross_two_gtis srt c (l_gti lc) = Ok g) lcs2 gs2 ->
  crossspectrum_from_lc_iterable numba srt lcs1 lcs2 dt seg norm common fullspec pt (Some c) save =
  crossspectrum_from_lc_iterable numba srt (map (fun x => with_gti (fst x) (snd x)) (combine lcs1 gs1)) (map (fun x => with_gti (fst x) (snd x)) (combine lcs2 gs2)) dt seg norm common fullspec pt None save.
Proof.
  intros H1 H2. unfold crossspectrum_from_lc_iterable. now rewrite (iterate_common _ _ _ _ _ _ H1), (iterate_common _ _ _ _ _ _ H2).
Qed.
Lemma column_row d noise col i f p x : nth_error (o_freq d) i = Some f -> nth_error col i = Some p -> nth_error noise i = Some x ->
  nth_error (column_rows d noise col) i = Some {| b_f := f; b_df := o_df d; b_p := p; b_noise := x; b_err := 0 |}.
Proof.
  intros Hf Hp Hx. unfold column_rows.
  assert (C : nth_error (combine (combine (o_freq d) col) noise) i = Some ((f, p), x)).
  { revert col noise i Hf Hp Hx. induction (o_freq d) as [|a l IH]; intros col noise i Hf Hp Hx; [destruct i; discriminate|].
    destruct col as [|b col]; [destruct i; discriminate|]. destruct noise as [|n noise]; [destruct i; discriminate|].
    destruct i as [|i]; cbn [nth_error combine] in *; [congruence|]. now apply IH. }
  now rewrite (map_nth_error _ _ _ C).
Qed.
