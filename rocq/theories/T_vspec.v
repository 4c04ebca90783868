(* T_vspec.v: property theorems about rms, count, excess variance, lag and covariance spectra against energy (C128 - C133). *)
From Coq Require Import Reals Qreals.
From Verif Require Import Np Lib S_gti S_seg S_utils S_flux S_fourier M_gti M_seg M_utils M_lc M_exvar Cplx M_fourier M_flux M_vspec S_vspec P_lag P_gti_cross P_vspec P_vspec2 P_vspec3 P_vspec4 P_vspec5 P_vspec6.
From Coq Require Import Reals Qreals List Bool Arith Lra Lia.
Import ListNotations.
Open Scope R_scope.

(* ---------- C128: rms spectra ---------- *)
Theorem C128_one_list : forall numba srt (up frac : bool) f0 f1 seg dt n st ev en ivs,
  observed (ev_gti ev) seg dt n st -> photons_with (ev_time ev) (ev_energy ev) en ->
  exists rows, rms_spectrum numba srt up ev None ivs f0 f1 dt seg frac = Ok rows /\
    Forall2 (fun iv v => rms_auto_is frac (band_times (ev_time ev) en iv) n dt st (chosen n dt f0 f1) v) ivs rows.
Proof. exact rms_one. Qed.
Print Assumptions C128_one_list.
Theorem C128_two_lists : forall numba srt (up frac : bool) f0 f1 g seg dt n st e1 e2 en1 en2 ivs,
  cross_two_gtis srt (ev_gti e1) (ev_gti e2) = Ok g -> observed g seg dt n st ->
  photons_with (ev_time e1) (ev_energy e1) en1 -> photons_with (ev_time e2) (ev_energy e2) en2 ->
  exists rows, rms_spectrum numba srt up e1 (Some e2) ivs f0 f1 dt seg frac = Ok rows /\
    Forall2 (fun iv v => rms_cross_is frac (band_times (ev_time e1) en1 iv) (band_times (ev_time e2) en2 iv) n dt st (chosen n dt f0 f1) v) ivs rows.
Proof. exact rms_two. Qed.
Print Assumptions C128_two_lists.
Theorem C128_error_units_refuted : 
  exists power width noise m k rate c, 0 < c /\ 0 < rate /\
  rms_row true (c ^ 2 * power) width (c * noise) m k (c * rate) <> rms_row true power width noise m k rate.
Proof. exact rms_error_refuted. Qed.
Print Assumptions C128_error_units_refuted.
Example C128_nonvacuous : observed (ev_gti ev16) 4 1 4 [0%Q] /\ photons_with (ev_time ev16) (ev_energy ev16) (repeat 1%Q 16) /\
  chosen 4 1 (1 / 8) 1 = [1%nat] /\ 10 <= mean_photons (band_times (ev_time ev16) (repeat 1%Q 16) (1, 2)%Q) (nq 4 * 1) [0%Q] /\
  raw_power (band_times (ev_time ev16) (repeat 1%Q 16) (1, 2)%Q) 1 4 (busy_in (band_times (ev_time ev16) (repeat 1%Q 16) (1, 2)%Q) (nq 4 * 1) [0%Q]) 1 = 256.
Proof.
  split; [exact ev16_setup|]. split; [exact ev16_photons|]. split; [exact ev16_bins|]. split; [rewrite ev16_rate; lra|]. rewrite ev16_busy. exact ev16_power.
Qed.
(* ---------- C129: options of the spectra ---------- *)
Theorem C129_rms_column : forall numba srt u1 u2 e1 e2 ivs f0 f1 dt seg frac,
  rms_spectrum numba srt u1 e1 e2 ivs f0 f1 dt seg frac = rms_spectrum numba srt u2 e1 e2 ivs f0 f1 dt seg frac.
Proof. exact rms_energy. Qed.
Print Assumptions C129_rms_column.
Theorem C129_lag_column : forall numba srt u1 u2 e1 e2 ivs rb f0 f1 dt seg,
  lag_spectrum numba srt u1 e1 e2 ivs rb f0 f1 dt seg = lag_spectrum numba srt u2 e1 e2 ivs rb f0 f1 dt seg.
Proof. exact lag_energy. Qed.
Print Assumptions C129_lag_column.
Theorem C129_covariance_column : forall numba srt u1 u2 c frac mp e1 e2 ivs rb f0 f1 dt seg,
  covariance_spectrum numba srt u1 c frac mp e1 e2 ivs rb f0 f1 dt seg = covariance_spectrum numba srt u2 c frac mp e1 e2 ivs rb f0 f1 dt seg.
Proof. exact cov_energy. Qed.
Print Assumptions C129_covariance_column.
Theorem C129_use_pi_refuted : 
  exists ev iv f0 f1 dt seg, (exists rows, count_spectrum true ev [iv] = Ok rows) /\
  forall numba srt frac, rms_spectrum numba srt true ev None [iv] f0 f1 dt seg frac = Err TypeError.
Proof. exact use_pi_refuted. Qed.
Print Assumptions C129_use_pi_refuted.
Theorem C129_reference_refuted : 
  exists e1 e2 en1 iv rb f0 f1 dt seg, nondecreasing (ev_time e1) /\ ev_energy e1 = Some en1 /\ (10 <= length (band_times (ev_time e1) en1 rb))%nat /\ ev_gti e1 = [(0, seg)]%Q /\ ev_gti e2 = [(0, seg)]%Q /\
  forall numba, lag_spectrum numba (isort_by t_end) false e1 (Some e2) [iv] [rb] f0 f1 dt seg = Err AttributeError.
Proof. exact reference_refuted. Qed.
Print Assumptions C129_reference_refuted.
(* ---------- C130: counts ---------- *)
Theorem C130_counts : forall (up : bool) ev en ivs,
  column up ev = Some en -> length en = length (ev_time ev) ->
  count_spectrum up ev ivs = Ok (map (fun iv => (INR (length (filter (in_range iv) en)), sqrt (INR (length (filter (in_range iv) en))))) ivs).
Proof. exact count_main. Qed.
Print Assumptions C130_counts.
Theorem C130_no_column_error : forall up ev iv ivs,
  column up ev = None -> count_spectrum up ev (iv :: ivs) = Err TypeError.
Proof. exact count_none. Qed.
Print Assumptions C130_no_column_error.
Open Scope Q_scope.
Theorem C130_total : forall en edges,
  nondecreasing edges -> edges <> [] ->
  fold_right Nat.add 0%nat (map (fun iv => length (filter (in_range iv) en)) (energy_intervals edges)) = length (filter (in_range (hd 0 edges, last edges 0)) en).
Proof. exact count_total. Qed.
Print Assumptions C130_total.
Theorem C130_centres : forall edges i a b,
  nth_error edges i = Some a -> nth_error edges (S i) = Some b -> nth_error (energy_centers (energy_intervals edges)) i = Some ((a + b) / 2).
Proof. exact centers_mid. Qed.
Print Assumptions C130_centres.
Open Scope R_scope.
Example C130_nonvacuous : column false ex_ev = Some [1; 2; 1; 1; 1; 2; 1; 1]%Q /\ nondecreasing [1; 2; 3]%Q /\
  map (fun iv => length (filter (in_range iv) [1; 2; 1; 1; 1; 2; 1; 1]%Q)) (energy_intervals [1; 2; 3]%Q) = [6; 2]%nat.
Proof. split; [reflexivity|]. split; [|reflexivity]. apply P_flux3.nondec_dec. reflexivity. Qed.
(* ---------- C131: excess variance ---------- *)
Theorem C131_nan : forall srt up ev ivs dt rows,
  excess_variance_spectrum srt up ev ivs dt = Ok rows -> length rows = length ivs /\ Forall (fun v => v = (None, None)) rows.
Proof. exact excess_nan. Qed.
Print Assumptions C131_nan.
Theorem C131_excess_variance_refuted : 
  exists ev iv dt rows, excess_variance_spectrum (isort_by t_end) false ev [iv] dt = Ok rows /\ rows = [(None, None)] /\
  exists lc, base_lightcurve (isort_by t_end) false ev dt iv = Ok lc /\ M_lc.lc_counts lc = [1; 1; 3; 1]%Q.
Proof. exact excess_refuted. Qed.
Print Assumptions C131_excess_variance_refuted.
(* ---------- C132: lags ---------- *)
Theorem C132_one_list : forall numba srt (up : bool) f0 f1 seg dt n st ev en ivs rb,
  sorts_by t_end srt -> observed (ev_gti ev) seg dt n st -> photons_with (ev_time ev) (ev_energy ev) en -> proper rb -> Forall proper ivs ->
  let ref := band_times (ev_time ev) en rb in
  (busy_in ref (nq n * dt) st = [] -> lag_spectrum numba srt up ev None ivs [rb] f0 f1 dt seg = Err AttributeError) /\
  (busy_in ref (nq n * dt) st <> [] -> exists rows, lag_spectrum numba srt up ev None ivs [rb] f0 f1 dt seg = Ok rows /\
     Forall2 (fun iv v => exists common, (common = true <-> share iv rb) /\ lag_is common (band_times (ev_time ev) en iv) ref n dt st (chosen n dt f0 f1) v) ivs rows).
Proof. exact lag_one. Qed.
Print Assumptions C132_one_list.
Theorem C132_two_lists : forall numba srt (up : bool) f0 f1 g seg dt n st e1 e2 en1 en2 ivs rb,
  sorts_by t_end srt -> cross_two_gtis srt (ev_gti e1) (ev_gti e2) = Ok g -> observed g seg dt n st ->
  photons_with (ev_time e1) (ev_energy e1) en1 -> photons_with (ev_time e2) (ev_energy e2) en2 -> proper rb -> Forall proper ivs ->
  let ref := band_times (ev_time e2) en2 rb in
  (busy_in ref (nq n * dt) st = [] -> lag_spectrum numba srt up e1 (Some e2) ivs [rb] f0 f1 dt seg = Err AttributeError) /\
  (busy_in ref (nq n * dt) st <> [] -> exists rows, lag_spectrum numba srt up e1 (Some e2) ivs [rb] f0 f1 dt seg = Ok rows /\
     Forall2 (fun iv v => lag_is false (band_times (ev_time e1) en1 iv) ref n dt st (chosen n dt f0 f1) v) ivs rows).
Proof. exact lag_two. Qed.
Print Assumptions C132_two_lists.
Theorem C132_bound : forall common a r n dt st f0 f1 v x,
  0 < f0 -> lag_is common a r n dt st (chosen n dt f0 f1) v -> fst v = Some x -> Rabs x <= 1 / (2 * f0).
Proof. exact lag_bound. Qed.
Print Assumptions C132_bound.
Theorem C132_self : forall common a n dt st ks v x,
  lag_is common a a n dt st ks v -> fst v = Some x -> x = 0.
Proof. exact lag_self. Qed.
Print Assumptions C132_self.
Theorem C132_delay : forall common a r n dt st k d v x,
  (0 < n)%nat -> (0 < dt)%Q -> (1 <= k)%nat -> (2 * (k * d) <= n)%nat ->
  (forall s, In s (busy_both a r (nq n * dt) st) -> delayed d (binned_counts r (nq n * dt) n s) (binned_counts a (nq n * dt) n s)) ->
  lag_is common a r n dt st [k] v -> fst v = Some x -> x = INR d * Q2R dt.
Proof. exact lag_delay. Qed.
Print Assumptions C132_delay.
Example C132_nonvacuous : sorts_by t_end (isort_by t_end) /\ proper (1, 2)%Q /\ share (1, 2)%Q (1, 2)%Q /\ ~ share (1, 2)%Q (2, 3)%Q /\
  (let a := band_times (ev_time ev16) (repeat 1%Q 16) (1, 2)%Q in
   busy_in a (nq 4 * 1) [0%Q] <> [] /\ rlsum (map (fun k => cabs (raw_cross a a 1 4 (busy_both a a (nq 4 * 1) [0%Q]) k)) (chosen 4 1 (1 / 8) 1)) <> 0) /\
  delayed 1 [16; 0; 0; 0] [0; 16; 0; 0] /\ (2 * (1 * 1) <= 4)%nat.
Proof.
  split; [apply isort_sorts|]. split; [reflexivity|]. split; [exists 1%Q; split; reflexivity|]. split.
  { intros (e & H1 & H2). unfold in_range in *. cbn [fst snd] in *. apply andb_true_iff in H1, H2. destruct H1 as [_ H1], H2 as [H2 _]. qb. apply (Qlt_not_le _ _ H1 H2). }
  split.
  { cbv zeta. rewrite both_same, ev16_busy, ev16_bins. split; [discriminate|]. cbn [map]. rewrite raw_cross_self, ev16_power. change (rlsum [cabs (rtoc 256)]) with (cabs (rtoc 256) + 0). unfold rtoc. rewrite cabs_real, Rabs_right by lra. lra. }
  split; [|lia]. split; [reflexivity|]. intros j Hj. cbn [length] in Hj. destruct j as [|[|[|[|j]]]]; try reflexivity. lia.
Qed.
(* ---------- C133: covariance ---------- *)
Theorem C133_one_list : forall numba srt (up complex frac : bool) minph f0 f1 seg dt n st ev en ivs rb,
  sorts_by t_end srt -> observed (ev_gti ev) seg dt n st -> photons_with (ev_time ev) (ev_energy ev) en -> proper rb -> Forall proper ivs ->
  let ref := band_times (ev_time ev) en rb in
  (busy_in ref (nq n * dt) st = [] -> covariance_spectrum numba srt up complex frac minph ev None ivs [rb] f0 f1 dt seg = Err TypeError) /\
  (busy_in ref (nq n * dt) st <> [] -> exists rows, covariance_spectrum numba srt up complex frac minph ev None ivs [rb] f0 f1 dt seg = Ok rows /\
     Forall2 (fun iv v => exists common, (common = true <-> share iv rb) /\ covariance_is complex frac (Q2R minph) common (band_times (ev_time ev) en iv) ref n dt st (chosen n dt f0 f1) v) ivs rows).
Proof. exact cov_one. Qed.
Print Assumptions C133_one_list.
Theorem C133_two_lists : forall numba srt (up complex frac : bool) minph f0 f1 g seg dt n st e1 e2 en1 en2 ivs rb,
  sorts_by t_end srt -> cross_two_gtis srt (ev_gti e1) (ev_gti e2) = Ok g -> observed g seg dt n st ->
  photons_with (ev_time e1) (ev_energy e1) en1 -> photons_with (ev_time e2) (ev_energy e2) en2 -> proper rb -> Forall proper ivs ->
  let ref := band_times (ev_time e2) en2 rb in
  (busy_in ref (nq n * dt) st = [] -> covariance_spectrum numba srt up complex frac minph e1 (Some e2) ivs [rb] f0 f1 dt seg = Err TypeError) /\
  (busy_in ref (nq n * dt) st <> [] -> exists rows, covariance_spectrum numba srt up complex frac minph e1 (Some e2) ivs [rb] f0 f1 dt seg = Ok rows /\
     Forall2 (fun iv v => covariance_is complex frac (Q2R minph) false (band_times (ev_time e1) en1 iv) ref n dt st (chosen n dt f0 f1) v) ivs rows).
Proof. exact cov_two. Qed.
Print Assumptions C133_two_lists.
Theorem C133_modulus : forall frac minph common a r n dt st ks v w,
  (0 < n)%nat -> (0 < dt)%Q ->
  covariance_is false frac minph common a r n dt st ks v -> covariance_is true frac minph common a r n dt st ks w -> fst v = option_map (fun z => rtoc (cabs z)) (fst w).
Proof. exact cov_modulus. Qed.
Print Assumptions C133_modulus.
Theorem C133_self : forall complex frac minph a n dt st ks v z,
  (0 < n)%nat -> (0 < dt)%Q -> covariance_is complex frac minph true a a n dt st ks v -> fst v = Some z ->
  let us := busy_in a (nq n * dt) st in
  let power := avg (fun k => raw_power a dt n us k * abs_factor n dt) ks - abs_noise (mean_photons a (nq n * dt) st) n dt in
  0 < power /\ z = rtoc (scaled_by frac (mean_photons a (nq n * dt) us / length_of n dt) (rms_of power (INR (length ks) / length_of n dt))).
Proof. exact cov_self. Qed.
Print Assumptions C133_self.
(* mean power 128, noise 8: the covariance is defined *)
Example C133_nonvacuous : let a := band_times (ev_time ev16) (repeat 1%Q 16) (1, 2)%Q in
  abs_noise (mean_photons a (nq 4 * 1) [0%Q]) 4 1 < avg (fun k => raw_power a 1 4 (busy_in a (nq 4 * 1) [0%Q]) k * abs_factor 4 1) (chosen 4 1 (1 / 8) 1).
Proof.
  cbv zeta. rewrite ev16_busy, ev16_bins, ev16_rate, avg_one, ev16_power. unfold abs_noise, abs_factor, length_of. rewrite INR_IZR_INZ. unfold Q2R. cbn. lra.
Qed.

