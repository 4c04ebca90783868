(* T_mkcross.v: property theorems about cross spectra of two event lists (C148 - C150). *)
From Coq Require Import Reals Qreals.
From Coq Require Import Lra Lqa Lia Sorted.
From Verif Require Import Np Lib S_gti S_seg S_utils S_flux S_fourier M_gti M_seg M_utils M_lc M_base M_exvar Cplx M_fourier M_flux P_flux P_flux2 P_avg P_avgcs M_norm M_make P_make P_make2 M_vspec M_mkcross P_mkcross P_mkcross3.
Open Scope Q_scope.

(* ---------- C148: cross spectra of two event lists ---------- *)
Theorem C148_segments : forall numba srt ev1 ev2 dt rq norm fullspec silent pt gti save n g,
  or_common srt gti (e_gti ev1) (e_gti ev2) = Ok g ->
  let dt' := suggest_compatible_dt (e_res ev1) dt in
  0 < dt' -> (0 < n)%nat -> snd (fix_segment_size rq dt' (1 # 100)) = Z.of_nat n -> nondecreasing (e_time ev1) -> nondecreasing (e_time ev2) ->
  (exists a b, In (a, b) g /\ nq n * dt' < b - a + (1 # 100000)) -> norm <> OtherNorm -> pt <> POther ->
  let size := nq n * dt' in
  exists st, segment_grid g size (1 # 100000) st /\ st <> [] /\
    let us := filter (fun s => Nat.leb 2 (events_in (e_time ev1) s (s + size)) && Nat.leb 2 (events_in (e_time ev2) s (s + size)))%bool st in
    let lc1 s := binned_counts (e_time ev1) size n s in
    let lc2 s := binned_counts (e_time ev2) size n s in
    let nph1 := avg (fun s => INR (events_in (e_time ev1) s (s + size))) us in
    let nph2 := avg (fun s => INR (events_in (e_time ev2) s (s + size))) us in
    let nph := gmean nph1 nph2 in
    let ks := bins fullspec n in
    let res := crossspectrum_from_events numba srt ev1 ev2 dt (Some rq) norm true fullspec silent pt gti save in
    (us = [] -> res = Err AttributeError) /\
    (us <> [] -> exists t kn, res = Ok t /\ kind norm None = Some kn /\
      let f m := factor kn (Q2R dt') n (m / INR n)%R m in
      let z k := cavg (fun s => cross_at (lc1 s) (lc2 s) k) us in
      let u1 k := avg (fun s => power_at (lc1 s) k) us in
      let u2 k := avg (fun s => power_at (lc2 s) k) us in
      c_m t = length us /\ c_n t = n /\ c_dt t = Q2R dt' /\ c_nphots1 t = nph1 /\ c_nphots2 t = nph2 /\ c_nphots t = nph /\
      c_freq t = map (bin_freq n (Q2R dt')) ks /\ c_unnorm t = map z ks /\ c_power t = map (fun k => as_type pt (cscal (z k) (f nph))) ks /\
      c_auxil t = Some (map (fun k => as_type_r pt (u1 k * f nph1)%R) ks, map (fun k => as_type_r pt (u2 k * f nph2)%R) ks, (map u1 ks, map u2 ks)) /\
      c_subcs t = (if save then Some (map (fun s => map (fun k => as_type pt (cscal (cross_at (lc1 s) (lc2 s) k) (f nph))) ks) us,
                                      map (fun s => map (cross_at (lc1 s) (lc2 s)) ks) us) else None)).
Proof. exact cross_events. Qed.
Print Assumptions C148_segments.
Theorem C148_whole : forall numba srt ev1 ev2 dt norm fullspec silent pt gti save n a b,
  or_common srt gti (e_gti ev1) (e_gti ev2) = Ok [(a, b)] ->
  let dt' := suggest_compatible_dt (e_res ev1) dt in
  a < b -> (0 < n)%nat -> snd (fix_segment_size (b - a) dt' (1 # 100)) = Z.of_nat n ->
  (forall t, In t (e_time ev1) -> a <= t /\ t < b) -> (forall t, In t (e_time ev2) -> a <= t /\ t < b) -> norm <> OtherNorm -> pt <> POther ->
  let lc1 := binned_counts (e_time ev1) (b - a) n a in
  let lc2 := binned_counts (e_time ev2) (b - a) n a in
  let nph1 := INR (length (e_time ev1)) in
  let nph2 := INR (length (e_time ev2)) in
  let nph := gmean nph1 nph2 in
  let ks := bins fullspec n in
  let res := crossspectrum_from_events numba srt ev1 ev2 dt None norm true fullspec silent pt gti save in
  ((length (e_time ev1) < 2 \/ length (e_time ev2) < 2)%nat -> res = Err AttributeError) /\
  ((2 <= length (e_time ev1) /\ 2 <= length (e_time ev2))%nat -> exists t kn, res = Ok t /\ kind norm None = Some kn /\
    let f m := factor kn (Q2R dt') n (m / INR n)%R m in
    c_m t = 1%nat /\ c_n t = n /\ c_dt t = Q2R dt' /\ c_nphots1 t = nph1 /\ c_nphots2 t = nph2 /\ c_nphots t = nph /\
    c_freq t = map (bin_freq n (Q2R dt')) ks /\ c_unnorm t = map (cross_at lc1 lc2) ks /\ c_power t = map (fun k => as_type pt (cscal (cross_at lc1 lc2 k) (f nph))) ks /\
    c_auxil t = Some (map (fun k => as_type_r pt (power_at lc1 k * f nph1)%R) ks, map (fun k => as_type_r pt (power_at lc2 k * f nph2)%R) ks, (map (power_at lc1) ks, map (power_at lc2) ks))).
Proof. exact cross_whole. Qed.
Print Assumptions C148_whole.
Theorem C148_light_curves : forall numba srt lc1 lc2 rq norm fullspec silent pt gti save n g t,
  or_common srt gti (l_gti lc1) (l_gti lc2) = Ok g ->
  0 < l_dt lc1 -> well_formed g -> S_seg.increasing (l_time lc1) -> l_time lc2 = l_time lc1 -> length (l_counts lc1) = length (l_time lc1) -> length (l_counts lc2) = length (l_time lc1) ->
  l_err lc1 = None -> (2 <= n)%nat -> rq == nq n * l_dt lc1 ->
  crossspectrum_from_lightcurve numba srt lc1 lc2 (Some rq) norm true fullspec silent pt gti save = Ok t ->
  exists st kn, bin_segments (l_time lc1) g (nq n * l_dt lc1) (l_dt lc1) n st /\ kind norm None = Some kn /\
  let us := usable2 (map (lc_segment (l_counts lc1) None n) st) (map (lc_segment (l_counts lc2) None n) st) in
  let nph1 := avg (fun p => photons (fst p)) us in
  let nph2 := avg (fun p => photons (snd p)) us in
  let nph := gmean nph1 nph2 in
  let f m := factor kn (Q2R (l_dt lc1)) n (m / INR n)%R m in
  let ks := bins fullspec n in
  let z k := cavg (fun p => cross_at (s_flux (fst p)) (s_flux (snd p)) k) us in
  let u1 k := avg (fun p => power_at (s_flux (fst p)) k) us in
  let u2 k := avg (fun p => power_at (s_flux (snd p)) k) us in
  us <> [] /\ c_m t = length us /\ c_n t = n /\ c_dt t = Q2R (l_dt lc1) /\ c_nphots1 t = nph1 /\ c_nphots2 t = nph2 /\ c_nphots t = nph /\
  c_freq t = map (bin_freq n (Q2R (l_dt lc1))) ks /\ c_unnorm t = map z ks /\ c_power t = map (fun k => as_type pt (cscal (z k) (f nph))) ks /\
  c_auxil t = Some (map (fun k => as_type_r pt (u1 k * f nph1)%R) ks, map (fun k => as_type_r pt (u2 k * f nph2)%R) ks, (map u1 ks, map u2 ks)).
Proof. exact curve_cross. Qed.
Print Assumptions C148_light_curves.
(* ---------- C149: exchange of the two channels ---------- *)
Theorem C149_exchange : forall numba srt ev1 ev2 dt rq norm fullspec silent g save n t,
  e_res ev1 = e_res ev2 -> let dt' := suggest_compatible_dt (e_res ev1) dt in
  0 < dt' -> (0 < n)%nat -> snd (fix_segment_size rq dt' (1 # 100)) = Z.of_nat n -> nondecreasing (e_time ev1) -> nondecreasing (e_time ev2) ->
  (exists a b, In (a, b) g /\ nq n * dt' < b - a + (1 # 100000)) ->
  crossspectrum_from_events numba srt ev1 ev2 dt (Some rq) norm true fullspec silent PAll (Some g) save = Ok t ->
  exists t', crossspectrum_from_events numba srt ev2 ev1 dt (Some rq) norm true fullspec silent PAll (Some g) save = Ok t' /\
  c_freq t' = c_freq t /\ c_m t' = c_m t /\ c_n t' = c_n t /\ c_nphots t' = c_nphots t /\ c_nphots1 t' = c_nphots2 t /\ c_nphots2 t' = c_nphots1 t /\
  c_unnorm t' = map cconj (c_unnorm t) /\ c_power t' = map cconj (c_power t) /\
  exists p1 p2 u1 u2, c_auxil t = Some (p1, p2, (u1, u2)) /\ c_auxil t' = Some (p2, p1, (u2, u1)).
Proof. exact events_swap. Qed.
Print Assumptions C149_exchange.
Theorem C149_resolution_refuted : 
  exists ev1 ev2 dt seg g t t', good g /\ nondecreasing (e_time ev1) /\ nondecreasing (e_time ev2) /\
  (forall srt, crossspectrum_from_events true srt ev1 ev2 dt (Some seg) Leahy true false true PAll (Some g) false = Ok t /\
               crossspectrum_from_events true srt ev2 ev1 dt (Some seg) Leahy true false true PAll (Some g) false = Ok t') /\ c_dt t <> c_dt t' /\ c_n t <> c_n t'.
Proof. exact resolution_exists_refuted. Qed.
Print Assumptions C149_resolution_refuted.
(* ---------- C150: the event lists after the call ---------- *)
Theorem C150_kept : forall numba srt av ev1 ev2 norm gti dt seg common fullspec silent pt save r,
  new_cross_events numba srt av ev1 ev2 norm gti dt (Some seg) common fullspec silent pt save = Ok r -> snd r = (ev1, ev2).
Proof. exact inputs_kept. Qed.
Print Assumptions C150_kept.
Theorem C150_common : forall numba srt av ev1 ev2 norm gti dt common fullspec silent pt save t a b,
  new_cross_events numba srt av ev1 ev2 norm gti dt None common fullspec silent pt save = Ok (t, (a, b)) ->
  av = false /\ exists g, cross_two_gtis srt (e_gti ev1) (e_gti ev2) = Ok g /\ e_gti a = g /\ e_gti b = g /\
  e_time a = e_time ev1 /\ e_time b = e_time ev2 /\ e_res a = e_res ev1 /\ e_res b = e_res ev2.
Proof. exact inputs_common. Qed.
Print Assumptions C150_common.
Theorem C150_changed_refuted : 
  exists srt ev1 ev2 dt t a b, sorts_by t_end srt /\ good (e_gti ev1) /\ good (e_gti ev2) /\
  new_cross_events true srt false ev1 ev2 Frac None (Some dt) None true false true PAll false = Ok (t, (a, b)) /\ e_gti a <> e_gti ev1.
Proof. exact changed_refuted. Qed.
Print Assumptions C150_changed_refuted.

Example C148_nonvacuous : exists t, crossspectrum_from_events true (fun l => l) coarse2 coarse3 1 (Some 12) Leahy true false true PAll (Some [(0, 12)]) false = Ok t /\
  c_n t = 6%nat /\ or_common (fun l => l) (Some [(0, 12)]) (e_gti coarse2) (e_gti coarse3) = Ok [(0, 12)] /\ 0 < suggest_compatible_dt (e_res coarse2) 1 /\
  snd (fix_segment_size 12 (suggest_compatible_dt (e_res coarse2) 1) (1 # 100)) = Z.of_nat 6 /\ nondecreasing (e_time coarse2) /\ nondecreasing (e_time coarse3).
Proof.
  destruct (resolution_refuted (fun l => l) Leahy ltac:(discriminate)) as (t & t' & E & _ & _ & _ & N & _). exists t. split; [exact E|]. split; [exact N|].
  split; [reflexivity|]. split; [reflexivity|]. split; [reflexivity|]. exact coarse_sorted.
Qed.
Example C148_light_curves_nonvacuous : or_common (fun l => l) (Some [(0, 4)]) [(0, 4)] [(0, 4)] = Ok [(0, 4)] /\ well_formed [(0, 4)] /\
  S_seg.increasing [1 # 2; 3 # 2; 5 # 2; 7 # 2] /\ 2 == nq 2 * 1 /\
  exists t, crossspectrum_from_lightcurve true (fun l => l) (mkCurve [1 # 2; 3 # 2; 5 # 2; 7 # 2] [1; 2; 3; 4] [(0, 4)] 1 4 None) (mkCurve [1 # 2; 3 # 2; 5 # 2; 7 # 2] [2; 2; 1; 4] [(0, 4)] 1 4 None)
    (Some 2) NoNorm true false true PAll (Some [(0, 4)]) false = Ok t.
Proof.
  split; [reflexivity|]. split; [apply good_one; reflexivity|]. split; [cut (StronglySorted Qlt [1 # 2; 3 # 2; 5 # 2; 7 # 2]); [exact (proj1 (ss_nth Qlt _))|]; repeat constructor|].
  split; [reflexivity|].
  assert (F : forall c, length c = 4%nat -> get_flux_iterable true [1 # 2; 3 # 2; 5 # 2; 7 # 2] [(0, 4)] (Some (fst (fix_segment_size 2 1 (1 # 100)))) (Some 2%nat) 1 (Some c) None =
    Ok [Some (slice c 0 2, None); Some (slice c 2 4, None)]).
  { intros c Hc. destruct c as [|a [|b [|x [|y [|]]]]]; try discriminate. vm_compute. reflexivity. }
  unfold crossspectrum_from_lightcurve. cbn [or_common bind l_time l_dt l_counts l_err]. unfold avg_cs_from_timeseries. cbn [segment_and_bins bind fst snd].
  change (Z.to_nat (snd (fix_segment_size 2 1 (1 # 100)))) with 2%nat. rewrite !F by reflexivity. cbn [bind andb].
  rewrite (avg_cs_common _ _ _ NoNorm false PAll true false 2 ltac:(lia)).
  - set (us := usable2 _ _). assert (NE : us <> []).
    { unfold us, usable2. cbn [map real_item option_map combine flat_map]. unfold S_fourier.nonzero. cbn [s_flux fst slice skipn firstn Nat.sub map existsb].
      destruct (Req_EM_T (Q2R 1) 0) as [C|C]; [exfalso; unfold Q2R in C; cbn in C; Lra.lra|]. destruct (Req_EM_T (Q2R 2) 0) as [D|D]; [exfalso; unfold Q2R in D; cbn in D; Lra.lra|]. discriminate. }
    destruct us; [congruence|]. eexists. reflexivity.
  - intros u [H|[H|[]]] He; assert (IO : forall x y : seg, Some x = Some y -> x = y) by congruence; apply IO in H; subst u; now elim He.
  - intros u [H|[H|[]]] He; assert (IO : forall x y : seg, Some x = Some y -> x = y) by congruence; apply IO in H; subst u; now elim He.
  - intros p Hp. unfold usable2 in Hp. cbn [map real_item option_map combine flat_map app] in Hp. apply in_app_iff in Hp. destruct Hp as [Hp|Hp]; [|apply in_app_iff in Hp; destruct Hp as [Hp|[]]];
      destruct (_ && _)%bool in Hp; try destruct Hp as [<-|[]]; try destruct Hp; split; reflexivity.
Qed.
Example C149_nonvacuous : exists t, crossspectrum_from_events true (fun l => l) coarse2 (mkEvl [1; 5; 6] [(0, 12)] 2) 1 (Some 12) Leahy true false true PAll (Some [(0, 12)]) false = Ok t.
Proof.
  destruct coarse_sorted as [S2 _]. destruct (coarse_cross (fun l => l) coarse2 (mkEvl [1; 5; 6] [(0, 12)] 2) 2 6 Leahy) as (t & E & _); try assumption; try reflexivity; try discriminate; try lia; try (vm_compute; lia).
  - cbn [e_time]. cut (StronglySorted Qle [1; 5; 6]); [exact (proj1 (ss_nth Qle _))|]. repeat constructor; discriminate.
  - now exists t.
Qed.
Example C150_nonvacuous : forall numba, exists t, new_cross_events numba (isort_by t_end) false few1 few2 Frac None (Some 1) None true false true PAll false =
  Ok (t, (mkEvl [3; 4] [(2, 8)] 0, mkEvl [3; 5] [(2, 8)] 0)).
Proof.
  intros numba. destruct (few_cross numba None (or_introl eq_refl)) as (t & E & _). now exists t.
Qed.

