(* T_lc.v: property theorems about light curves and event lists (C21, C22, C54). *)
From Verif Require Import Np Lib S_gti S_seg S_utils S_lc M_gti M_seg M_utils M_lc P_seg_regions P_seg_cut P_lc_make P_lc_cache P_lc_join P_lc_binned.
From Coq Require Import Lqa.
Open Scope Q_scope.

(* ---------- C21 ---------- *)
(* s and len: the start and duration requested, or those of the GTIs, or those of the photons ([start_is], [duration_is]).
   n: number of whole bins in len (with the one per cent tolerance of the code). *)
Theorem C21_make_lightcurve : forall toa dt tseg tstart gti use_hist,
  0 < dt -> limits_known toa gti tstart tseg ->
  exists s len, start_is toa gti tstart s /\ duration_is toa gti tseg s len /\
  forall n : nat, inject_Z (Z.of_nat n) * dt <= len + dt * (1 # 100) -> len + dt * (1 # 100) < (inject_Z (Z.of_nat n) + 1) * dt ->
  exists lc, make_lightcurve toa dt tseg tstart gti use_hist = Ok lc /\
    lc_dt lc = dt /\ length (lc_time lc) = n /\ length (lc_counts lc) = n /\ ((0 < n)%nat -> lc_gti lc = gti) /\
    (forall i t, nth_error (lc_time lc) i = Some t -> t == bin_edge s dt i + dt / 2) /\
    (forall i c, nth_error (lc_counts lc) i = Some c ->
       c = inject_Z (Z.of_nat (count (within (bin_edge s dt i) (bin_edge s dt (S i))) toa))) /\
    sum_of (lc_counts lc) == inject_Z (Z.of_nat (count (within s (bin_edge s dt n)) toa)).
Proof. exact make_main. Qed.
Print Assumptions C21_make_lightcurve.
Theorem C21_from_lc : forall lc,
  length (lc_time lc) = length (lc_counts lc) ->
  from_lc lc = if existsb (fun c => 0 <? py_int c)%Z (lc_counts lc)
               then Ok (one_event_per_count (combine (lc_time lc) (map py_int (lc_counts lc))))
               else Err UnboundLocalError.
Proof. exact from_lc_main. Qed.
Print Assumptions C21_from_lc.
Theorem C21_round_trip : forall toa dt tseg tstart gti use_hist,
  0 < dt -> limits_known toa gti tstart tseg ->
  exists s len, start_is toa gti tstart s /\ duration_is toa gti tseg s len /\
  forall (n : nat) t0, inject_Z (Z.of_nat n) * dt <= len + dt * (1 # 100) -> len + dt * (1 # 100) < (inject_Z (Z.of_nat n) + 1) * dt ->
  In t0 toa -> within s (bin_edge s dt n) t0 = true ->
  exists lc ev, make_lightcurve toa dt tseg tstart gti use_hist = Ok lc /\ from_lc lc = Ok ev /\
    forall i, (i < n)%nat -> count (within (bin_edge s dt i) (bin_edge s dt (S i))) ev = count (within (bin_edge s dt i) (bin_edge s dt (S i))) toa.
Proof. exact round_trip. Qed.
Print Assumptions C21_round_trip.
Theorem C21_binned_timeseries : forall events attrs gti dt first last (n : nat),
  0 < dt -> nth_error gti 0 = Some first -> nth_error gti (length gti - 1) = Some last ->
  inject_Z (Z.of_nat n) * dt <= snd last - fst first -> snd last - fst first < (inject_Z (Z.of_nat n) + 1) * dt -> (0 < n)%nat ->
  exists times counts cols, to_binned_timeseries events attrs gti dt = Ok (times, counts, cols) /\
    length times = n /\ length counts = n /\ length cols = length attrs /\
    (forall i t, nth_error times i = Some t -> t == bin_edge (fst first) dt i + dt / 2) /\
    (forall i, (i < n)%nat -> exists c, nth_error counts i = Some c /\
       c == inject_Z (Z.of_nat (count (within (bin_edge (fst first) dt i) (bin_edge (fst first) dt (S i))) events))) /\
    (forall j w v, nth_error attrs j = Some w -> nth_error cols j = Some v -> length v = n /\
       forall i, (i < n)%nat -> exists c, nth_error v i = Some c /\
         c == content (within (bin_edge (fst first) dt i) (bin_edge (fst first) dt (S i))) (combine events w)).
Proof. exact binned_main. Qed.
Print Assumptions C21_binned_timeseries.
Theorem C21_energy_mask : forall en r i e,
  nth_error en i = Some e ->
  nth_error (get_energy_mask en r) i = Some (within (fst r) (snd r) e).
Proof. exact energy_mask_main. Qed.
Print Assumptions C21_energy_mask.
Theorem C21_compatible_dt : forall own dt,
  0 < own -> 0 <= dt ->
  (exists k : Z, (1 <= k)%Z /\ suggest_compatible_dt own dt == inject_Z k * own /\
     (own <= dt -> Qabs (dt - suggest_compatible_dt own dt) <= own / 2)) \/
  (suggest_compatible_dt own dt = dt /\ Qabs (own - dt) <= (1 # 100000000) + (1 # 10000) * dt).
Proof. exact compatible_dt_main. Qed.
Print Assumptions C21_compatible_dt.
Theorem C21_to_lc : forall events own gti dt tstart tseg,
  0 <= dt ->
  exists w, to_lc events own gti dt tstart tseg = make_lightcurve events w tseg tstart gti false /\
    (own <= 0 -> w = dt) /\
    (0 < own -> (exists k : Z, (1 <= k)%Z /\ w == inject_Z k * own /\ (own <= dt -> Qabs (dt - w) <= own / 2)) \/
                (w = dt /\ Qabs (own - dt) <= (1 # 100000000) + (1 # 10000) * dt)).
Proof. exact to_lc_main. Qed.
Print Assumptions C21_to_lc.
Theorem C21_dark_from_lc_error : forall lc,
  length (lc_time lc) = length (lc_counts lc) ->
  (forall c, In c (lc_counts lc) -> c < 1) -> from_lc lc = Err UnboundLocalError.
Proof. exact from_lc_dark. Qed.
Print Assumptions C21_dark_from_lc_error.
Theorem C21_last_photon_refuted : 
  exists toa dt lc, make_lightcurve toa dt None None None false = Ok lc /\
  length toa = 3%nat /\ sum_of (lc_counts lc) == 2.
Proof. exact last_photon_dropped. Qed.
Print Assumptions C21_last_photon_refuted.

Example C21_nonvacuous : exists lc ev, limits_known [1 # 10; 12 # 10; 13 # 10; 35 # 10] None (Some 0) (Some 4) /\
  make_lightcurve [1 # 10; 12 # 10; 13 # 10; 35 # 10] 1 (Some 4) (Some 0) None false = Ok lc /\
  Forall2 Qeq (lc_counts lc) [1; 2; 0; 1] /\ from_lc lc = Ok ev /\ Forall2 Qeq ev [1 # 2; 3 # 2; 3 # 2; 7 # 2].
Proof.
  do 2 eexists. split; [split; right; split; discriminate|]. split; [vm_compute; reflexivity|]. split; [repeat constructor|]. split; [vm_compute; reflexivity|]. repeat constructor.
Qed.
Example C21_binned_nonvacuous : exists t c v, to_binned_timeseries [1 # 10; 12 # 10; 13 # 10; 35 # 10] [[1; 2; 3; 4]] [(0, 2); (3, 9 # 2)] 1 = Ok (t, c, [v]) /\
  Forall2 Qeq c [1; 2; 0; 1] /\ Forall2 Qeq v [1; 5; 0; 4] /\ inject_Z (Z.of_nat 4) * 1 <= (9 # 2) - 0 /\ (9 # 2) - 0 < (inject_Z (Z.of_nat 4) + 1) * 1.
Proof. do 3 eexists. split; [vm_compute; reflexivity|]. split; [repeat constructor|]. split; [repeat constructor|]. split; [discriminate|reflexivity]. Qed.
Example C21_dt_nonvacuous : suggest_compatible_dt (3 # 10) 1 == 9 # 10 /\ (0 : Q) < 3 # 10.
Proof. split; reflexivity. Qed.

(* ---------- C22 ---------- *)
(* h is any sequence of reads and assignments; the view w says which data, errors and times were assigned last. *)
Theorem C22_values : forall perr h time dt mask lm po ic values err,
  length values = length time ->
  let s := run perr h (fresh time dt mask lm po ic values err) in
  let w := see_all h (first_view time mask ic values err) in
  snd (get_counts s) = Some (as_counts dt (v_data w)) /\ snd (get_countrate s) = Some (as_rates dt (v_data w)) /\
  snd (get_bin_lo s) = map (fun t => t - (1 # 2) * dt) (v_time w) /\
  snd (get_bin_hi s) = map (fun t => t + (1 # 2) * dt) (v_time w) /\ st_time s = v_time w.
Proof. exact cache_values. Qed.
Print Assumptions C22_values.
Theorem C22_explicit_errors : forall perr h time dt mask lm po ic values err e,
  length values = length time ->
  let s := run perr h (fresh time dt mask lm po ic values err) in
  let w := see_all h (first_view time mask ic values err) in
  v_err w = Some e -> snd (get_counts_err perr s) = Ok (as_counts dt e) /\ snd (get_countrate_err s) = as_rates dt e.
Proof. exact cache_errors. Qed.
Print Assumptions C22_explicit_errors.
Theorem C22_meancounts_partial : forall perr h time dt mask lm po ic values err,
  length values = length time ->
  forallb keeps_gti h = true ->
  let s := run perr h (fresh time dt mask lm po ic values err) in
  let w := see_all h (first_view time mask ic values err) in
  exists m, snd (get_meancounts s) = Ok m /\ average_is (select (as_counts dt (v_data w)) mask) m.
Proof. exact cache_meancounts. Qed.
Print Assumptions C22_meancounts_partial.
Theorem C22_meanrate_partial : forall perr h time dt mask lm po ic values err,
  length values = length time ->
  forallb keeps_all h = true ->
  let s := run perr h (fresh time dt mask lm po ic values err) in
  exists m, snd (get_meanrate s) = Ok m /\ average_is (select (as_rates dt (if ic then Counts values else Rates values)) mask) m.
Proof. exact cache_meanrate. Qed.
Print Assumptions C22_meanrate_partial.
Theorem C22_meanrate_refuted : 
  exists perr time values new m r,
  let s := run perr [RdMeanRate; WrCounts new] (fresh time 1 [true; true] false true true values None) in
  snd (get_meanrate s) = Ok m /\ snd (get_countrate s) = Some r /\ ~ average_is (select r [true; true]) m.
Proof. exact meanrate_stale. Qed.
Print Assumptions C22_meanrate_refuted.
Theorem C22_means_after_gti_refuted : 
  exists perr time values m m',
  let s := run perr [RdMeanRate; RdMeanCounts; WrGti [true; false]] (fresh time 1 [true; true] false true true values None) in
  snd (get_meanrate s) = Ok m /\ snd (get_meancounts s) = Ok m' /\
  ~ average_is (select values [true; false]) m /\ ~ average_is (select values [true; false]) m'.
Proof. exact means_stale_gti. Qed.
Print Assumptions C22_means_after_gti_refuted.
Theorem C22_default_errors_refuted : 
  exists perr time values new e,
  let s := run perr [RdCountsErr; WrCounts new] (fresh time 1 [true; true] false true true values None) in
  snd (get_counts_err perr s) = Ok e /\ e = perr values /\ perr values <> perr new /\
  snd (get_counts s) = Some new.
Proof. exact counts_err_stale. Qed.
Print Assumptions C22_default_errors_refuted.
Theorem C22_read_order_refuted : 
  exists perr time values,
  let s0 := fresh time 1 [true; true] false true true values None in
  snd (get_counts_err perr s0) = Ok (perr values) /\
  snd (get_counts_err perr (run perr [RdRateErr] s0)) = Ok [0; 0] /\ perr values <> [0; 0] /\
  snd (get_countrate_err s0) = [0; 0] /\ snd (get_countrate_err (run perr [RdCountsErr] s0)) <> [0; 0].
Proof. exact rate_err_first. Qed.
Print Assumptions C22_read_order_refuted.

Example C22_nonvacuous : let h := [RdMeanCounts; RdRate; WrCounts [4; 6]; RdMeanCounts; WrRate [9; 9; 9]; WrRate [3; 5]] in
  let s := run (fun l => l) h (fresh [0; 2] 2 [true; true] false true true [2; 2] None) in
  snd (get_counts s) = Some [6; 10] /\ (exists m, snd (get_meancounts s) = Ok m /\ m == 8) /\ forallb keeps_gti h = true.
Proof. split; [reflexivity|]. split; [eexists; split; [vm_compute; reflexivity|reflexivity]|reflexivity]. Qed.

(* ---------- C54 ---------- *)
Theorem C54_lightcurve_join : forall s_start s_edge a b start_a start_b ga gb r g,
  distinct_times a -> distinct_times b -> lc_join s_start s_edge a b start_a start_b ga gb = Ok (r, g) ->
  join_gtis s_start s_edge ga gb = Ok g /\ distinct_times r /\
  (forall t va vb, value_at a t va -> value_at b t vb ->
     exists c e, value_at r t (c, e) /\ average_is [fst va; fst vb] c /\ average_is [snd va; snd vb] e) /\
  (forall t va, value_at a t va -> no_value_at b t -> value_at r t va) /\
  (forall t vb, value_at b t vb -> no_value_at a t -> value_at r t vb) /\
  (forall t, no_value_at a t -> no_value_at b t -> no_value_at r t).
Proof. exact join_main. Qed.
Print Assumptions C54_lightcurve_join.

Example C54_nonvacuous : exists r g, distinct_times [(1, (4, 1)); (2, (6, 1))] /\
  lc_join (isort_by fst) (isort_by fst) [(1, (4, 1)); (2, (6, 1))] [(2, (8, 3)); (3, (5, 1))] (1 # 2) (3 # 2) [(1 # 2, 5 # 2)] [(3 # 2, 7 # 2)] = Ok (r, g) /\
  Forall2 (fun x y => fst x == fst y /\ fst (snd x) == fst (snd y)) r [(1, (4, 1)); (2, (7, 2)); (3, (5, 1))].
Proof.
  do 2 eexists. split; [intros [|[|i]] [|[|j]] a b H1 H2 H; cbn [nth_error] in *; try reflexivity; try (destruct i; discriminate); try (destruct j; discriminate); injection H1 as <-; injection H2 as <-; discriminate|].
  split; [vm_compute; reflexivity|]. repeat constructor.
Qed.

