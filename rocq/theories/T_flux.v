(* T_flux.v: property theorems about light curves of segments and averages over them (C73-C75). *)
From Coq Require Import Reals Qreals Lqa Lia.
From Verif Require Import Np M_gti M_seg M_utils Cplx M_fourier M_flux S_gti S_seg S_utils S_flux S_fourier P_gti_final P_seg_cut P_flux P_flux2 P_flux3 P_flux4 P_segan4 P_avg.
Open Scope Q_scope.

(* ---------- C73: light curves of the segments ---------- *)
Theorem C73_events : forall numba times g size n dt errors,
  0 < size -> (0 < n)%nat -> nondecreasing times ->
  (exists a b, In (a, b) g /\ size < b - a + (1 # 100000)) ->
  exists st l, segment_grid g size (1 # 100000) st /\ st <> [] /\
    get_flux_iterable numba times g (Some size) (Some n) dt None errors = Ok l /\ map real_item l = map (counts_segment times size n) st.
Proof. exact flux_events. Qed.
Print Assumptions C73_events.
Theorem C73_binned : forall numba times g size n dt f errors l,
  0 < dt -> well_formed g -> increasing times ->
  get_flux_iterable numba times g (Some size) n dt (Some f) errors = Ok l ->
  let nbin := Z.to_nat (rint (size / dt)) in
  exists st, st <> [] /\
  l = map (fun s => if Nat.ltb nbin 2 then None else Some (firstn nbin (skipn s f), option_map (fun e => firstn nbin (skipn s e)) errors)) st /\
  (forall s, In s st -> exists a b, In (a, b) g /\
     forall k, (s <= k < s + nbin)%nat -> exists t, nth_error times k = Some t /\ bin_inside t dt ((1 # 1000) * dt) a b) /\
  (forall i j s s', (i < j)%nat -> nth_error st i = Some s -> nth_error st j = Some s' -> (s + nbin <= s')%nat) /\
  (forall a b p, In (a, b) g -> size <= b - a + 3 * (1 # 1000) * dt ->
     (forall k, (p <= k < p + nbin)%nat -> exists t, nth_error times k = Some t /\ bin_inside t dt ((1 # 1000) * dt) a b) ->
     exists s, In s st /\ (s <= p < s + nbin)%nat).
Proof. exact flux_binned. Qed.
Print Assumptions C73_binned.
Theorem C73_whole : forall numba times a b g n dt errors,
  let e := last (map snd ((a, b) :: g)) b in
  a < e -> (0 < n)%nat -> (forall t, In t times -> ~ t == e) ->
  exists it, get_flux_iterable numba times ((a, b) :: g) None (Some n) dt None errors = Ok [it] /\
  real_item it = if Nat.ltb (length times) 2 then None else Some {| s_flux := binned_counts times (e - a) n a; s_err := None |}.
Proof. exact flux_whole. Qed.
Print Assumptions C73_whole.
(* With segment_size=None the bins do not have width dt when the observation is not a multiple of dt, and events in the
   gaps between the intervals are counted. *)
Theorem C73_bin_width_refuted : 
  exists times t0 t1 dt n f t k v,
  good [(t0, t1)] /\ 0 < dt /\ nondecreasing times /\ segment_and_bins [(t0, t1)] None dt None = Ok (None, n) /\
  get_flux_iterable true times [(t0, t1)] None (Some n) dt None None = Ok [Some (f, None)] /\
  In t times /\ t0 + nq k * dt <= t /\ t < t0 + nq (S k) * dt /\ nth_error f k = Some v /\ v == 0.
Proof. exact bin_width_refuted. Qed.
Print Assumptions C73_bin_width_refuted.
Theorem C73_gaps_refuted : 
  exists times g dt n f t k v,
  good g /\ 0 < dt /\ nondecreasing times /\ segment_and_bins g None dt None = Ok (None, n) /\
  get_flux_iterable true times g None (Some n) dt None None = Ok [Some (f, None)] /\
  ~ covered_closed g t /\ (forall u, In u times -> ~ covered_closed g u -> u = t) /\ nth_error f k = Some v /\ v == 1.
Proof. exact outside_refuted. Qed.
Print Assumptions C73_gaps_refuted.

Example C73_nonvacuous : exists l, get_flux_iterable true [0; 1; 2; 4] [(0, 6)] (Some 3) (Some 3%nat) 1 None None = Ok l /\
  map (counts_segment [0; 1; 2; 4] 3 3) [0; 3] = map real_item l /\ length l = 2%nat.
Proof.
  destruct rex_flux as (f & E & F). eexists. split; [exact E|]. split; [|reflexivity]. unfold rex_times in *.
  cbn [map real_item option_map fst snd]. rewrite (q2r_list _ _ F). cbn [map]. rewrite q2r_1. reflexivity.
Qed.
Example C73_binned_nonvacuous : exists l,
  get_flux_iterable true [1 # 2; 3 # 2; 5 # 2; 7 # 2; 9 # 2] [(0, 5)] (Some 2) None 1 (Some [3; 4; 5; 6; 7]) (Some [1; 1; 1; 1; 2]) = Ok l /\
  l = [Some ([3; 4], Some [1; 1]); Some ([5; 6], Some [1; 1])].
Proof. eexists. split; [vm_compute; reflexivity|]. reflexivity. Qed.

(* ---------- C74: average count rate ---------- *)
Theorem C74_events : forall times g size,
  0 < size -> nondecreasing times -> (exists a b, In (a, b) g /\ size < b - a + (1 # 100000)) ->
  exists st r, segment_grid g size (1 # 100000) st /\ get_average_ctrate times g size None = Ok r /\
    r == nq (fold_right (fun s n => events_in times s (s + size) + n)%nat 0%nat st) / (nq (length st) * size).
Proof. exact ctrate_events. Qed.
Print Assumptions C74_events.
Theorem C74_binned : forall times g size f r dt,
  0 < dt -> well_formed g -> increasing times -> median (diffs times) = Some dt ->
  get_average_ctrate times g size (Some f) = Ok r ->
  exists l, get_flux_iterable true times g (Some size) None dt (Some f) None = Ok l /\
    ((2 <= rint (size / dt))%Z -> r == fold_right (fun it s => match it with Some fe => qsum (fst fe) | None => 0 end + s) 0 l / (nq (length l) * size)).
Proof. exact ctrate_binned. Qed.
Print Assumptions C74_binned.
(* Segments with fewer than two events are not used in the averaged spectra but enter the average rate. *)
Theorem C74_same_segments_refuted : 
  exists times g size dt r t, good g /\ nondecreasing times /\ 0 < dt /\
  get_average_ctrate times g size None = Ok r /\
  avg_pds_from_timeseries true times g (Some size) dt NoNorm true None None false = Ok (Some t) /\
  (p_mean t / p_dt t)%R <> Q2R r.
Proof. exact rate_refuted. Qed.
Print Assumptions C74_same_segments_refuted.

Example C74_nonvacuous : get_average_ctrate [0; 1; 2; 4] [(0, 6)] 3 None = Ok (4 # 6) /\
  exists r, get_average_ctrate [1 # 2; 3 # 2; 5 # 2; 7 # 2; 9 # 2] [(0, 5)] 2 (Some [3; 4; 5; 6; 7]) = Ok r /\ r == 9 # 2.
Proof. split; [vm_compute; reflexivity|]. eexists. split; [vm_compute; reflexivity|]. reflexivity. Qed.

(* ---------- C75: from events to averaged spectra ---------- *)
Theorem C75_power_spectrum : forall numba times g rq dt norm common subcs n,
  0 < dt -> (0 < n)%nat -> rq == nq n * dt -> nondecreasing times ->
  (exists a b, In (a, b) g /\ rq < b - a + (1 # 100000)) ->
  exists st, segment_grid g (nq n * dt) (1 # 100000) st /\ st <> [] /\
    avg_pds_from_timeseries numba times g (Some rq) dt norm common None None subcs =
    avg_pds (map (counts_segment times (nq n * dt) n) st) (Q2R dt) norm common subcs.
Proof. exact pds_events. Qed.
Print Assumptions C75_power_spectrum.
Theorem C75_power_spectrum_table : forall numba times g rq dt norm subcs n,
  0 < dt -> (0 < n)%nat -> rq == nq n * dt -> nondecreasing times ->
  (exists a b, In (a, b) g /\ rq < b - a + (1 # 100000)) -> norm <> OtherNorm ->
  let size := nq n * dt in
  exists st, segment_grid g size (1 # 100000) st /\
    let us := filter (fun s => Nat.leb 2 (events_in times s (s + size))) st in
    let lc s := binned_counts times size n s in
    let nph := avg (fun s => INR (events_in times s (s + size))) us in
    let res := avg_pds_from_timeseries numba times g (Some rq) dt norm true None None subcs in
    (us = [] -> res = Ok None) /\
    (us <> [] -> exists t kn, res = Ok (Some t) /\ kind norm None = Some kn /\
      p_m t = length us /\ p_n t = n /\ p_nphots t = nph /\ p_mean t = (nph / INR n)%R /\ p_df t = (1 / (Q2R dt * INR n))%R /\
      p_freq t = map (fun k => (INR k / (INR n * Q2R dt))%R) (seq 1 (n_pos n)) /\
      p_unnorm t = map (fun k => avg (fun s => power_at (lc s) k) us) (seq 1 (n_pos n)) /\
      p_power t = map (fun k => (avg (fun s => power_at (lc s) k) us * factor kn (Q2R dt) n (nph / INR n) nph)%R) (seq 1 (n_pos n))).
Proof. exact pds_events_common. Qed.
Print Assumptions C75_power_spectrum_table.
Theorem C75_cross_spectrum : forall numba times1 times2 g rq dt norm common fullspec silent pt auxil subcs n,
  0 < dt -> (0 < n)%nat -> rq == nq n * dt ->
  nondecreasing times1 -> nondecreasing times2 -> (exists a b, In (a, b) g /\ rq < b - a + (1 # 100000)) ->
  exists st, segment_grid g (nq n * dt) (1 # 100000) st /\ st <> [] /\
    avg_cs_from_timeseries numba times1 times2 g (Some rq) dt norm common fullspec silent pt None None None None auxil subcs =
    avg_cs (map (counts_segment times1 (nq n * dt) n) st) (map (counts_segment times2 (nq n * dt) n) st) (Q2R dt) norm common fullspec pt auxil subcs.
Proof. exact cs_events. Qed.
Print Assumptions C75_cross_spectrum.
(* the same for light curves *)
Theorem C75_power_spectrum_binned : forall numba times g rq dt norm common subcs n f errors res,
  0 < dt -> well_formed g -> increasing times -> (2 <= n)%nat -> rq == nq n * dt ->
  avg_pds_from_timeseries numba times g (Some rq) dt norm common (Some f) errors subcs = Ok res ->
  exists st, st <> [] /\ bin_segments times g (nq n * dt) dt n st /\ avg_pds (map (lc_segment f errors n) st) (Q2R dt) norm common subcs = Ok res.
Proof. exact pds_lc. Qed.
Print Assumptions C75_power_spectrum_binned.
Theorem C75_cross_spectrum_binned : forall numba times g rq dt norm common fullspec silent pt f1 f2 e1 e2 auxil subcs n res,
  0 < dt -> well_formed g -> increasing times -> (2 <= n)%nat -> rq == nq n * dt ->
  avg_cs_from_timeseries numba times times g (Some rq) dt norm common fullspec silent pt (Some f1) (Some f2) e1 e2 auxil subcs = Ok res ->
  exists st, st <> [] /\ bin_segments times g (nq n * dt) dt n st /\
  avg_cs (map (lc_segment f1 e1 n) st) (map (lc_segment f2 e2 n) st) (Q2R dt) norm common fullspec pt auxil subcs = Ok res.
Proof. exact cs_lc. Qed.
Print Assumptions C75_cross_spectrum_binned.

Example C75_nonvacuous : 0 < 1 /\ 3 == nq 3 * 1 /\ nondecreasing [0; 1; 2; 4] /\ (exists a b, In (a, b) [(0, 6)] /\ 3 < b - a + (1 # 100000)).
Proof.
  split; [reflexivity|]. split; [reflexivity|]. split; [apply nondec_dec; reflexivity|]. exists 0, 6. split; [now left|reflexivity].
Qed.
Example C75_binned_nonvacuous : good [(0, 5)] /\ increasing [1 # 2; 3 # 2; 5 # 2; 7 # 2; 9 # 2] /\ 2 == nq 2 * 1 /\
  exists t, avg_pds_from_timeseries true [1 # 2; 3 # 2; 5 # 2; 7 # 2; 9 # 2] [(0, 5)] (Some 2) 1 NoNorm true (Some [3; 4; 5; 6; 7]) None false = Ok t.
Proof.
  split; [apply good_dec; reflexivity|]. split; [apply incr_dec; reflexivity|]. split; [reflexivity|]. unfold avg_pds_from_timeseries.
  assert (Sb : segment_and_bins [(0, 5)] (Some 2) 1 (Some [3; 4; 5; 6; 7]) = Ok (Some 2, 2%nat)) by (vm_compute; reflexivity).
  rewrite Sb. cbn [bind fst snd].
  assert (E : get_flux_iterable true [1 # 2; 3 # 2; 5 # 2; 7 # 2; 9 # 2] [(0, 5)] (Some 2) (Some 2%nat) 1 (Some [3; 4; 5; 6; 7]) None = Ok [Some ([3; 4], None); Some ([5; 6], None)]) by (vm_compute; reflexivity).
  rewrite E. cbn [bind map real_item option_map fst snd].
  rewrite (avg_pds_common _ _ NoNorm false 2 ltac:(lia)).
  - destruct (usable _); eexists; reflexivity.
  - intros u [H|[H|[]]] He; injection H as <-; cbn in He; congruence.
  - intros u Hu. unfold usable in Hu. apply in_flat_map in Hu. destruct Hu as (o & Ho & Hu). destruct Ho as [<-|[<-|[]]]; match type of Hu with In _ (if ?c then _ else _) => destruct c; [destruct Hu as [<-|[]]; reflexivity|destruct Hu] end.
Qed.

