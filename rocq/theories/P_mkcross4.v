(* P_mkcross4.v: what the cross spectrum constructors hand on, and their errors. *)
From Coq Require Import Reals Qreals.
From Coq Require Import Lqa Lia Sorted.
From Verif Require Import Np Lib S_gti S_seg S_base S_utils S_flux S_fourier S_mkcross M_gti M_seg M_utils M_lc M_base M_exvar Cplx M_fourier M_flux M_norm M_make M_vspec M_mkcross P_gti_cross P_base P_mkcross2.
Open Scope Q_scope.

Lemma events_is numba srt ev1 ev2 dt seg norm common fullspec silent pt gti save g t : (gti = Some g \/ (gti = None /\ cross_two_gtis srt (e_gti ev1) (e_gti ev2) = Ok g)) ->
  crossspectrum_from_events numba srt ev1 ev2 dt seg norm common fullspec silent pt gti save = Ok t <->
  avg_cs_from_timeseries numba (e_time ev1) (e_time ev2) g seg (suggest_compatible_dt (e_res ev1) dt) norm common fullspec (silent || match seg with None => true | _ => false end)%bool pt
    None None None None true save = Ok (Some t).
Proof.
  intros G. unfold crossspectrum_from_events. assert (E : or_common srt gti (e_gti ev1) (e_gti ev2) = Ok g) by (destruct G as [->|[-> G]]; [reflexivity|exact G]).
  rewrite E. cbn [bind]. destruct (avg_cs_from_timeseries _ _ _ _ _ _ _ _ _ _ _ _ _ _ _ _ _) as [[x|]|e]; cbn [bind cs_of]; split; congruence.
Qed.
Lemma curves_is numba srt lc1 lc2 seg norm common fullspec silent pt gti save g t : (gti = Some g \/ (gti = None /\ cross_two_gtis srt (l_gti lc1) (l_gti lc2) = Ok g)) ->
  crossspectrum_from_lightcurve numba srt lc1 lc2 seg norm common fullspec silent pt gti save = Ok t <->
  avg_cs_from_timeseries numba (l_time lc1) (l_time lc2) g seg (l_dt lc1) norm common fullspec (silent || match seg with None => true | _ => false end)%bool pt
    (Some (l_counts lc1)) (Some (l_counts lc2)) (l_err lc1) (match l_err lc1 with None => None | Some _ => l_err lc2 end) true save = Ok (Some t).
Proof.
  intros G. unfold crossspectrum_from_lightcurve. assert (E : or_common srt gti (l_gti lc1) (l_gti lc2) = Ok g) by (destruct G as [->|[-> G]]; [reflexivity|exact G]).
  rewrite E. cbn [bind]. destruct (avg_cs_from_timeseries _ _ _ _ _ _ _ _ _ _ _ _ _ _ _ _ _) as [[x|]|e]; cbn [bind cs_of]; split; congruence.
Qed.
Lemma no_common_gti numba srt ev1 ev2 dt seg norm common fullspec silent pt save e : cross_two_gtis srt (e_gti ev1) (e_gti ev2) = Err e ->
  crossspectrum_from_events numba srt ev1 ev2 dt seg norm common fullspec silent pt None save = Err e.
Proof.
  intros E. unfold crossspectrum_from_events, or_common. rewrite E. reflexivity.
Qed.
(* the copy with the common GTIs *)
Lemma restricted_ok numba g ev ev' : restricted numba g ev = Ok ev' -> g <> [] /\ well_formed g /\ e_gti ev' = g /\ e_res ev' = e_res ev /\
  (e_time ev <> [] -> nondecreasing (e_time ev) -> 0 < e_res ev \/ (0 <= e_res ev /\ gaps_between g) -> (numba = false \/ all_hold_bins g (gti_eps * e_res ev) (e_res ev) (e_time ev)) ->
   exists m, flags (bin_in g (gti_eps * e_res ev) (e_res ev)) (e_time ev) m /\ e_time ev' = select (e_time ev) m).
Proof.
  intros H. unfold restricted in H. apply bind_ok in H. destruct H as ([] & C & H). apply bind_ok in H. destruct H as (m & M & H).
  apply check_gtis_iff in C. destruct C as [C1 C2]. assert (ev' = mkEvl (select (e_time ev) (fst m)) g (e_res ev)) as -> by congruence. cbn [e_gti e_res e_time].
  split; [exact C1|]. split; [exact C2|]. split; [reflexivity|]. split; [reflexivity|]. intros T S D B.
  destruct (mask_ok numba (e_time ev) g (e_res ev) T S C1 C2 D B) as (m' & n' & E & F). exists m'. split; [exact F|]. rewrite E in M. assert (m = (m', n')) as -> by congruence. reflexivity.
Qed.
Lemma new_cross_one numba srt av ev1 ev2 norm gti dt common fullspec silent pt save t r :
  new_cross_events numba srt av ev1 ev2 norm gti dt None common fullspec silent pt save = Ok (t, r) ->
  exists d g a b, dt = Some d /\ cross_two_gtis srt (e_gti ev1) (e_gti ev2) = Ok g /\ restricted numba g ev1 = Ok a /\ restricted numba g ev2 = Ok b /\
    crossspectrum_from_events numba srt a b d None norm common fullspec silent pt gti save = Ok t.
Proof.
  intros E. unfold new_cross_events in E. apply bind_ok in E. destruct E as (_ & _ & E). apply bind_ok in E. destruct E as (_ & _ & E).
  destruct dt as [dt|]; [|discriminate]. apply bind_ok in E. destruct E as (g & G & E). apply bind_ok in E. destruct E as (a & A & E). apply bind_ok in E. destruct E as (b & B & E).
  apply bind_ok in E. destruct E as (t' & T & E). assert (t' = t) as -> by congruence. exists dt, g, a, b. auto.
Qed.
Lemma new_cross_many numba srt av ev1 ev2 norm gti dt seg common fullspec silent pt save t r :
  new_cross_events numba srt av ev1 ev2 norm gti dt (Some seg) common fullspec silent pt save = Ok (t, r) ->
  exists d, dt = Some d /\ crossspectrum_from_events numba srt ev1 ev2 d (Some seg) norm common fullspec silent pt gti save = Ok t.
Proof.
  intros E. unfold new_cross_events in E. apply bind_ok in E. destruct E as (_ & _ & E). apply bind_ok in E. destruct E as (_ & _ & E).
  destruct dt as [dt|]; [|discriminate]. apply bind_ok in E. destruct E as (t' & T & E). assert (t' = t) as -> by congruence. exists dt. auto.
Qed.
Lemma new_cross_refused numba srt av ev1 ev2 norm gti dt seg common fullspec silent pt save :
  norm = OtherNorm \/ pt = POther \/ (dt = None /\ (seg <> None \/ gti = None)) ->
  new_cross_events numba srt av ev1 ev2 norm gti dt seg common fullspec silent pt save = Err ValueError.
Proof.
  unfold new_cross_events. intros [->|[->|[-> H]]].
  - reflexivity.
  - destruct norm; reflexivity.
  - destruct norm; [| | | |reflexivity]; destruct pt; try reflexivity; cbn [bind initial_checks];
    (destruct seg as [seg|]; [reflexivity|]); (destruct H as [H|H]; [congruence|]); subst gti; reflexivity.
Qed.
Lemma no_auxil overlap t : c_auxil t = None -> acs_phase_lag overlap t = Err KeyError /\ acs_time_lag overlap t = Err KeyError.
Proof.
  intros E. unfold acs_time_lag, acs_phase_lag. rewrite E. split; reflexivity.
Qed.
Lemma halves_errors model s all s' all' h1 h2 : sp_halves s = Some (h1, h2) -> deadtime_correct false model s all = Ok (s', all') ->
  (forall l, h_err h1 = Some l \/ h_unnorm_err h1 = Some l \/ h_err h2 = Some l \/ h_unnorm_err h2 = Some l -> length model = length l) ->
  exists h1' h2', sp_halves s' = Some (h1', h2') /\ corrected_opt model (h_err h1) (h_err h1') /\ corrected_opt model (h_unnorm_err h1) (h_unnorm_err h1') /\
    corrected_opt model (h_err h2) (h_err h2') /\ corrected_opt model (h_unnorm_err h2) (h_unnorm_err h2') /\ h_norm h1' = h_norm h1 /\ h_norm h2' = h_norm h2.
Proof.
  intros Eh E L. unfold deadtime_correct in E. destruct (sp_power s) as [p|]; [|discriminate].
  assert (ES : sp_halves s' = option_map (fun h => (half_corrected (map (fun m => 2 / m)%R model) (fst h), half_corrected (map (fun m => 2 / m)%R model) (snd h))) (sp_halves s)).
  { assert (X : forall (a b : spectrum) (c d : option (list (list cx) * list (list cx))), Ok (a, c) = Ok (b, d) -> a = b) by congruence. apply X in E. subst s'. reflexivity. }
  rewrite Eh in ES. cbn [option_map fst snd] in ES. do 2 eexists. split; [exact ES|]. unfold half_corrected. cbn [h_err h_unnorm_err h_norm].
  repeat split; apply corrected_opt_ok; intros l Hl; apply L; auto.
Qed.
Lemma deadtime_refused model s all : deadtime_correct true model s all = Err RuntimeError /\ (sp_power s = None -> deadtime_correct false model s all = Err TypeError).
Proof.
  split; [reflexivity|]. intros E. unfold deadtime_correct. rewrite E. reflexivity.
Qed.
Lemma deadtime_rest model s all s' all' : deadtime_correct false model s all = Ok (s', all') ->
  sp_var1 s' = sp_var1 s /\ sp_var2 s' = sp_var2 s /\ sp_ptype s' = sp_ptype s /\ sp_gauss s' = sp_gauss s /\ sp_power_type s' = sp_power_type s /\ (all = None -> all' = None).
Proof.
  intros E. unfold deadtime_correct in E. destruct (sp_power s) as [p|]; [|discriminate].
  assert (X : forall (a b : spectrum) (c d : option (list (list cx) * list (list cx))), Ok (a, c) = Ok (b, d) -> a = b /\ c = d) by (intros; split; congruence). apply X in E. destruct E as [E1 E2]. subst s' all'.
  repeat split. intros ->. reflexivity.
Qed.
