(* T_make.v: property theorems about power and cross spectra made from event lists, light curves and lists of light curves, and dynamical
   power spectra (C141 - C144). *)
From Coq Require Import Reals Qreals.
From Coq Require Import Lqa Lia Sorted.
From Verif Require Import Np Lib S_gti S_seg S_utils S_flux S_fourier M_gti M_seg M_utils M_lc M_exvar Cplx M_fourier M_flux P_flux P_flux2 M_make S_make P_make P_make2.
Open Scope Q_scope.

(* ---------- C141: GTIs given by the user ---------- *)
Theorem C141_averaged_ignored : forall numba d seg norm gti gti' dt common save,
  new_averaged_powerspectrum numba d (Some seg) norm gti dt common save = new_averaged_powerspectrum numba d (Some seg) norm gti' dt common save.
Proof. exact averaged_ignores. Qed.
Print Assumptions C141_averaged_ignored.
Theorem C141_single_ignored : forall numba d norm iv dt,
  new_powerspectrum numba d norm (Some [iv]) dt = new_powerspectrum numba d norm None dt.
Proof. exact single_ignores. Qed.
Print Assumptions C141_single_ignored.
Theorem C141_single_several : forall numba d norm iv iv' l dt,
  new_powerspectrum numba d norm (Some (iv :: iv' :: l)) dt = Err TypeError \/ norm = OtherNorm.
Proof. exact single_several. Qed.
Print Assumptions C141_single_several.
Theorem C141_events_replaced : forall numba t own res dt seg norm common g save,
  powerspectrum_from_events numba (mkEvl t own res) dt seg norm common (Some g) save = powerspectrum_from_events numba (mkEvl t g res) dt seg norm common None save.
Proof. exact events_replaced. Qed.
Print Assumptions C141_events_replaced.
Theorem C141_curve_replaced : forall numba t c own d ts e seg norm common g save,
  powerspectrum_from_lightcurve numba (mkCurve t c own d ts e) seg norm common (Some g) save = powerspectrum_from_lightcurve numba (mkCurve t c g d ts e) seg norm common None save.
Proof. exact curve_replaced. Qed.
Print Assumptions C141_curve_replaced.
Theorem C141_constructor_refuted : 
  exists ev g t gt, good (e_gti ev) /\ good g /\
  new_averaged_powerspectrum true (Events ev) (Some 2) Leahy (Some g) (Some 1) true false = Ok (t, gt) /\
  (forall st, segment_grid g 2 (1 # 100000) st -> length st = 1%nat) /\ p_m t = 3%nat /\ gt <> g.
Proof. exact averaged_gti_refuted. Qed.
Print Assumptions C141_constructor_refuted.
Theorem C141_own_refuted : 
  exists ev g t gt, good (e_gti ev) /\ good g /\
  powerspectrum_from_events true ev 1 (Some 2) Leahy true (Some g) false = Ok (t, gt) /\
  (forall st, segment_grid (e_gti ev) 2 (1 # 100000) st -> length st = 1%nat) /\ p_m t = 3%nat.
Proof. exact own_gti_refuted. Qed.
Print Assumptions C141_own_refuted.
(* ---------- C142: spectra of event lists and of lists of light curves ---------- *)
Theorem C142_events : forall numba ev dt rq norm gti save n,
  let dt' := suggest_compatible_dt (e_res ev) dt in let g := or_own gti (e_gti ev) in
  0 < dt' -> (0 < n)%nat -> snd (fix_segment_size rq dt' (1 # 100)) = Z.of_nat n -> nondecreasing (e_time ev) ->
  (exists a b, In (a, b) g /\ nq n * dt' < b - a + (1 # 100000)) -> norm <> OtherNorm ->
  let size := nq n * dt' in
  exists st, segment_grid g size (1 # 100000) st /\ st <> [] /\
    let us := filter (fun s => Nat.leb 2 (events_in (e_time ev) s (s + size))) st in
    let lc s := binned_counts (e_time ev) size n s in
    let nph := avg (fun s => INR (events_in (e_time ev) s (s + size))) us in
    let res := powerspectrum_from_events numba ev dt (Some rq) norm true gti save in
    (us = [] -> res = Err AttributeError) /\
    (us <> [] -> exists t kn, res = Ok (t, g) /\ kind norm None = Some kn /\ let f := factor kn (Q2R dt') n (nph / INR n) nph in
      p_m t = length us /\ p_n t = n /\ p_nphots t = nph /\ p_dt t = Q2R dt' /\ p_df t = (1 / (Q2R dt' * INR n))%R /\
      p_freq t = map (fun k => (INR k / (INR n * Q2R dt'))%R) (seq 1 (n_pos n)) /\
      p_power t = map (fun k => (avg (fun s => power_at (lc s) k) us * f)%R) (seq 1 (n_pos n)) /\
      p_subcs t = (if save then Some (map (fun s => map (fun k => (power_at (lc s) k * f)%R) (seq 1 (n_pos n))) us) else None) /\
      p_unnorm_subcs t = (if save then Some (map (fun s => map (power_at (lc s)) (seq 1 (n_pos n))) us) else None)).
Proof. exact from_events. Qed.
Print Assumptions C142_events.
Theorem C142_averaged : forall numba ev seg norm gti dt common save,
  (1 # 1000000000000000) < dt -> norm <> OtherNorm ->
  new_averaged_powerspectrum numba (Events ev) (Some seg) norm gti (Some dt) common save = powerspectrum_from_events numba ev dt (Some seg) norm common None save.
Proof. exact averaged_is. Qed.
Print Assumptions C142_averaged.
Theorem C142_averaged_curve : forall numba lc seg norm gti dt common save,
  norm <> OtherNorm ->
  new_averaged_powerspectrum numba (Curve lc) (Some seg) norm gti dt common save = powerspectrum_from_lightcurve numba lc (Some seg) norm common None save.
Proof. exact averaged_curve. Qed.
Print Assumptions C142_averaged_curve.
Theorem C142_checks : forall numba d seg norm gti dt common save,
  (norm = OtherNorm \/ (norm <> OtherNorm /\ seg = None /\ (match gti with Some g => (length g <= 1)%nat | None => True end)) ->
   new_averaged_powerspectrum numba d seg norm gti dt common save = Err ValueError) /\
  (forall e, d = Events e -> (dt = None \/ exists v, dt = Some v /\ v <= (1 # 1000000000000000)) -> seg <> None -> new_averaged_powerspectrum numba d seg norm gti dt common save = Err ValueError).
Proof. exact averaged_checks. Qed.
Print Assumptions C142_checks.
Theorem C142_list_joined : forall numba srt seg c l1 l2 r1 r2,
  iterate_lc_counts numba srt seg c l1 = Ok r1 -> iterate_lc_counts numba srt seg c l2 = Ok r2 ->
  iterate_lc_counts numba srt seg c (l1 ++ l2) = Ok (r1 ++ r2).
Proof. exact iterate_app. Qed.
Print Assumptions C142_list_joined.
Theorem C142_list : forall numba srt lcs dt seg norm common save n t,
  (2 <= n)%nat -> Forall (plain_curve seg n) lcs ->
  powerspectrum_from_lc_iterable numba srt lcs dt seg norm common None save = Ok t ->
  exists sts, Forall2 (fun lc st => st <> [] /\ bin_segments (l_time lc) (l_gti lc) seg (l_dt lc) n st) lcs sts /\
  avg_pds (cut_curves n lcs sts) (Q2R dt) norm common save = Ok (Some t).
Proof. exact iterable_pds. Qed.
Print Assumptions C142_list.
Theorem C142_list_one : forall numba srt lc seg norm common save n,
  (2 <= n)%nat -> plain_curve seg n lc -> seg = nq n * l_dt lc ->
  powerspectrum_from_lc_iterable numba srt [lc] (l_dt lc) seg norm common None save =
  let! tg := powerspectrum_from_lightcurve numba lc (Some seg) norm common None save in Ok (fst tg).
Proof. exact iterable_one. Qed.
Print Assumptions C142_list_one.
(* ---------- C143: cross spectra of lists of light curves ---------- *)
Theorem C143_segments : forall numba srt lcs1 lcs2 dt seg norm common fullspec pt save n t,
  (2 <= n)%nat -> Forall (plain_curve seg n) lcs1 -> Forall (plain_curve seg n) lcs2 ->
  crossspectrum_from_lc_iterable numba srt lcs1 lcs2 dt seg norm common fullspec pt None save = Ok t ->
  exists sts1 sts2, Forall2 (fun lc st => st <> [] /\ bin_segments (l_time lc) (l_gti lc) seg (l_dt lc) n st) lcs1 sts1 /\
  Forall2 (fun lc st => st <> [] /\ bin_segments (l_time lc) (l_gti lc) seg (l_dt lc) n st) lcs2 sts2 /\
  avg_cs (cut_curves n lcs1 sts1) (cut_curves n lcs2 sts2) (Q2R dt) norm common fullspec pt true save = Ok t.
Proof. exact iterable_cs. Qed.
Print Assumptions C143_segments.
Theorem C143_pairing_refuted : 
  exists lc1 lc2, good (l_gti lc1) /\ good (l_gti lc2) /\ l_time lc1 = l_time lc2 /\ l_counts lc1 = l_counts lc2 /\ forall srt,
  iterate_lc_counts true srt 2 None [lc1] = Ok [Some ([1; 2], None); Some ([3; 4], None)] /\
  iterate_lc_counts true srt 2 None [lc2] = Ok [Some ([3; 4], None); Some ([5; 6], None)].
Proof. exact pairing_refuted. Qed.
Print Assumptions C143_pairing_refuted.
(* ---------- C144: dynamical power spectra ---------- *)
Theorem C144_matrix : forall numba ev rq norm gti dt n,
  let dt' := suggest_compatible_dt (e_res ev) dt in
  (1 # 1000000000000000) < dt -> 2 * dt <= rq -> 0 < dt' -> (0 < n)%nat -> snd (fix_segment_size rq dt' (1 # 100)) = Z.of_nat n -> nondecreasing (e_time ev) ->
  (exists a b, In (a, b) (e_gti ev) /\ nq n * dt' < b - a + (1 # 100000) /\ rq < b - a + (1 # 100000)) -> norm <> OtherNorm ->
  let size := nq n * dt' in
  exists st starts, segment_grid (e_gti ev) size (1 # 100000) st /\ segment_grid (e_gti ev) rq (1 # 100000) starts /\
    let us := filter (fun s => Nat.leb 2 (events_in (e_time ev) s (s + size))) st in
    let lc s := binned_counts (e_time ev) size n s in
    let nph := avg (fun s => INR (events_in (e_time ev) s (s + size))) us in
    let ks := seq 1 (n_pos n) in
    let res := new_dynamical numba (Events ev) rq norm gti (Some dt) in
    (us = [] -> res = Err AttributeError) /\
    (us <> [] -> exists y kn, res = Ok y /\ kind norm None = Some kn /\ let f := factor kn (Q2R dt') n (nph / INR n) nph in
      y_cols y = map (fun s => map (fun k => (power_at (lc s) k * f)%R) ks) us /\
      y_time y = map (fun s => s + (1 # 2) * rq) starts /\
      y_freq y = map (fun k => (INR k / (INR n * Q2R dt'))%R) ks /\ y_df y = (1 / (Q2R dt' * INR n))%R /\
      y_nphots y = nph /\ y_meanrate y = (nph / INR n / Q2R dt')%R /\
      ((forall s k, In s us -> In k ks -> power_at (lc s) k = 0%R) -> y_conv y = None) /\
      ((exists s k, In s us /\ In k ks /\ power_at (lc s) k <> 0%R) -> y_conv y = Some f)).
Proof. exact dynamical_events. Qed.
Print Assumptions C144_matrix.
Theorem C144_matched : forall numba ev rq norm gti dt n y,
  let dt' := suggest_compatible_dt (e_res ev) dt in
  (1 # 1000000000000000) < dt -> 2 * dt <= rq -> 0 < dt' -> (0 < n)%nat -> rq == nq n * dt' -> nondecreasing (e_time ev) ->
  (exists a b, In (a, b) (e_gti ev) /\ rq < b - a + (1 # 100000)) -> norm <> OtherNorm ->
  (forall st s, segment_grid (e_gti ev) rq (1 # 100000) st -> In s st -> (2 <= events_in (e_time ev) s (s + rq))%nat) ->
  new_dynamical numba (Events ev) rq norm gti (Some dt) = Ok y -> length (y_cols y) = length (y_time y).
Proof. exact dynamical_matched. Qed.
Print Assumptions C144_matched.
Theorem C144_checks : forall numba d seg norm gti dt,
  (forall e, d = Events e -> dt = None -> new_dynamical numba d seg norm gti dt = Err ValueError) /\
  (forall e v, d = Events e -> dt = Some v -> seg < 2 * v -> new_dynamical numba d seg norm gti dt = Err ValueError) /\
  (forall c, d = Curve c -> l_tseg c < seg \/ seg < 2 * l_dt c -> new_dynamical numba d seg norm gti dt = Err ValueError).
Proof. exact dynamical_checks. Qed.
Print Assumptions C144_checks.
Theorem C144_quiet_refuted : 
  exists ev y, good (e_gti ev) /\ nondecreasing (e_time ev) /\
  new_dynamical true (Events ev) 2 Leahy None (Some 1) = Ok y /\ length (y_cols y) = 2%nat /\ length (y_time y) = 3%nat.
Proof. exact dynamical_quiet_refuted. Qed.
Print Assumptions C144_quiet_refuted.
Theorem C144_size_refuted : 
  exists ev y, good (e_gti ev) /\ nondecreasing (e_time ev) /\
  new_dynamical true (Events ev) (5 # 2) Leahy None (Some 1) = Ok y /\ length (y_cols y) = 5%nat /\ length (y_time y) = 4%nat.
Proof. exact dynamical_size_refuted. Qed.
Print Assumptions C144_size_refuted.

Example C142_nonvacuous : 0 < suggest_compatible_dt 0 1 /\ snd (fix_segment_size 2 (suggest_compatible_dt 0 1) (1 # 100)) = Z.of_nat 2 /\ nondecreasing six_times /\
  (exists a b, In (a, b) [(0, 6)] /\ nq 2 * suggest_compatible_dt 0 1 < b - a + (1 # 100000)) /\
  exists t, powerspectrum_from_events true (mkEvl six_times [(0, 6)] 0) 1 (Some 2) Frac true None false = Ok (t, [(0, 6)]) /\ p_m t = 3%nat.
Proof.
  split; [reflexivity|]. split; [reflexivity|]. split; [exact six_sorted|]. split; [exists 0, 6; split; [left; reflexivity|reflexivity]|].
  apply six_from; [discriminate|reflexivity].
Qed.
Example C142_list_nonvacuous : Forall (plain_curve 2 2) [mkCurve steps ticks [(0, 4)] 1 6 None; mkCurve steps ticks [(2, 6)] 1 6 None] /\
  forall srt, iterate_lc_counts true srt 2 None [mkCurve steps ticks [(0, 4)] 1 6 None; mkCurve steps ticks [(2, 6)] 1 6 None] =
  Ok [Some ([1; 2], None); Some ([3; 4], None); Some ([3; 4], None); Some ([5; 6], None)].
Proof.
  split; [|intros srt; vm_compute; reflexivity].
  assert (S : S_seg.increasing steps) by (cut (StronglySorted Qlt steps); [exact (proj1 (ss_nth Qlt _))|]; repeat constructor).
  repeat constructor; try exact S; try reflexivity; try (apply good_one; reflexivity).
Qed.
Example C144_nonvacuous : (1 # 1000000000000000) < 1 /\ 2 * 1 <= 2 /\ 2 == nq 2 * suggest_compatible_dt 0 1 /\
  (forall st s, segment_grid [(0, 6)] 2 (1 # 100000) st -> In s st -> (2 <= events_in six_times s (s + 2))%nat).
Proof.
  split; [reflexivity|]. split; [discriminate|]. split; [reflexivity|]. intros st s G H.
  pose proof (grid_known [(0, 6)] 2 [0; 2; 4] [2; 4; 6] ltac:(reflexivity) ltac:(vm_compute; reflexivity) st G) as F.
  apply In_nth_error in H. destruct H as (k & H).
  assert (X : exists x, In x [0; 2; 4] /\ s == x).
  { clear G. revert k H. induction F as [|a b l l' E F IH]; intros k H; [destruct k; discriminate|]. destruct k as [|k]; [|destruct (IH k H) as (x & A & B); exists x; split; [right; exact A|exact B]].
    injection H as <-. exists b. split; [left; reflexivity|exact E]. }
  destruct X as (x & Hx & E). rewrite (events_ext six_times s (s + 2) x (x + 2)) by lra.
  destruct Hx as [<-|[<-|[<-|[]]]]; vm_compute; lia.
Qed.

