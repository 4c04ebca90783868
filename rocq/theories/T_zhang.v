(* T_zhang.v: property theorems about the dead time model (C99, C100, C101). *)
From Coq Require Import Reals.
From Verif Require Import Np Lib M_utils Cplx M_espec S_zhang M_zhang P_zhang P_zhang2 P_zhang3 P_stirling P_stirling2 P_stirling3.
From Coq Require Import Lra Lia.
Open Scope R_scope.

(* ---------- C99: incident and detected rates ---------- *)
Theorem C99_detected : forall td r,
  0 <= td -> 0 < r -> r_det td r = Ok (r / (1 + r * td)).
Proof. exact r_det_value. Qed.
Print Assumptions C99_detected.
Theorem C99_inverse : forall td r,
  0 <= td -> 0 < r -> exists r0, r_det td r = Ok r0 /\ r_in td r0 = Ok r /\ 0 < r0 <= r /\ r0 * td < 1.
Proof. exact rates_inverse. Qed.
Print Assumptions C99_inverse.
Theorem C99_inverse_detected : forall td r0,
  0 <= td -> 0 < r0 -> r0 * td < 1 -> exists r, r_in td r0 = Ok r /\ r_det td r = Ok r0 /\ r0 <= r.
Proof. exact rates_inverse2. Qed.
Print Assumptions C99_inverse_detected.
Theorem C99_limit : forall td tb r,
  0 <= td -> 0 < r -> exists r0, r_det td r = Ok r0 /\ limit_a r td tb = Ok ((r0 * tb) ^ 2).
Proof. exact limit_value. Qed.
Print Assumptions C99_limit.
Theorem C99_saturated_error : forall td,
  td <> 0 -> r_in td (1 / td) = Err ZeroDivisionError.
Proof. exact rate_saturated. Qed.
Print Assumptions C99_saturated_error.

Example C99_nonvacuous : r_det (1 / 400) 100 = Ok 80 /\ r_in (1 / 400) 80 = Ok 100.
Proof. split; [rewrite r_det_value by lra|rewrite r_in_value by lra]; f_equal; lra. Qed.

(* ---------- C100: terms of the model ---------- *)
Theorem C100_poisson_small : forall x m,
  (m < 50)%nat -> e_m_x_x_over_factorial x m = poisson x m.
Proof. exact emx_poisson. Qed.
Print Assumptions C100_poisson_small.
Theorem C100_poisson : forall x m,
  0 <= x -> Rabs (e_m_x_x_over_factorial x m - poisson x m) <= / 10 ^ 10 * poisson x m.
Proof. exact emx_close. Qed.
Print Assumptions C100_poisson.

Theorem C100_gn_small : forall x n, 0 <= x -> (n <= 50)%nat ->
  let g := gn x n in g <= poisson_deficit x n /\ poisson_deficit x n - g <= / 10 ^ 15 * g /\ 0 <= g.
Proof. exact gn_close. Qed.
Print Assumptions C100_gn_small.
Theorem C100_gn : forall x n, 0 <= x -> Rabs (gn x n - poisson_deficit x n) <= 2 * / 10 ^ 10 * poisson_deficit x n.
Proof. exact gn_close_all. Qed.
Print Assumptions C100_gn.
Theorem C100_h_small : forall k n td tb tau,
  0 < tau -> 0 < tb -> (n <= 50)%nat ->
  h_term k n td tb tau <= time_left k n td tb tau /\
  time_left k n td tb tau - h_term k n td tb tau <= / 10 ^ 15 * (tau / tb * INR n).
Proof. exact h_close. Qed.
Print Assumptions C100_h_small.
Theorem C100_h : forall k n td tb tau,
  0 < tau -> 0 < tb ->
  Rabs (h_term k n td tb tau - time_left k n td tb tau) <= 2 * / 10 ^ 10 * (tau / tb * INR n).
Proof. exact h_close_all. Qed.
Print Assumptions C100_h.
Theorem C100_a_zero_all_terms : forall r0 td tb tau M,
  0 < td -> 0 < tb -> (floor_nat (tb / td * 2 + 1) <= M)%nat -> (1 <= M)%nat ->
  a_single_k 0 r0 td tb tau = r0 * tb * (1 + 2 * rs M (fun i => h_term 1 (S i) td tb tau)).
Proof. exact a_zero_complete. Qed.
Print Assumptions C100_a_zero_all_terms.
Theorem C100_time_left_range : forall k n td tb tau,
  0 < tau -> 0 < tb -> 0 <= td -> 0 <= time_left k n td tb tau <= INR k.
Proof. exact time_left_range. Qed.
Print Assumptions C100_time_left_range.
Theorem C100_time_left_monotone : forall k k' n td tb tau,
  0 < tau -> 0 < tb -> (k <= k')%nat -> time_left k n td tb tau <= time_left k' n td tb tau.
Proof. exact time_left_monotone. Qed.
Print Assumptions C100_time_left_monotone.
Theorem C100_a0_all_terms : forall r0 td tb tau M,
  0 < td -> 0 < tb -> (floor_nat (tb / td * 2 + 1) <= M)%nat -> (1 <= M)%nat ->
  a0 r0 td tb tau = r0 * tb * (1 + 2 * rs M (fun i => h_term 1 (S i) td tb tau)).
Proof. exact a0_complete. Qed.
Print Assumptions C100_a0_all_terms.
Theorem C100_a_all_terms : forall k r0 td tb tau M,
  0 < td -> 0 < tb -> (floor_nat (INR (k + 2) * tb / td) <= M)%nat ->
  a_single_k (S k) r0 td tb tau = r0 * tb * rs M (fun i => h_term (k + 2) (S i) td tb tau - 2 * h_term (k + 1) (S i) td tb tau + h_term k (S i) td tb tau).
Proof. exact a_complete. Qed.
Print Assumptions C100_a_all_terms.

Example C100_nonvacuous : h_term 1 1 2 1 (1 / 2) = 0 /\ h_term 2 1 2 1 (1 / 2) = 0 /\ time_left 3 1 1 1 1 = 1 + exp (- (2)) /\ (2 <= 50)%nat.
Proof.
  split; [apply h_beyond; cbn; lra|]. split.
  - unfold h_term, gn. cbv zeta. destruct (Rlt_dec (INR 2 * 1 - INR 1 * 2) 0) as [N|_]; [cbn in N; lra|].
    cbn [gn_loop]. replace ((INR 2 * 1 - INR 1 * 2) / (1 / 2)) with 0 by (cbn; lra). rewrite emx_poisson by lia.
    unfold poisson. cbn [pow fact INR Nat.sub]. rewrite Ropp_0, exp_0. destruct (gn_stop _ _ _ _); lra.
  - split; [|lia]. unfold time_left. cbv zeta. destruct (Rlt_dec ((INR 3 * 1 - INR 1 * 1) / 1) 0) as [N|_]; [cbn in N; lra|].
    unfold poisson_deficit, poisson. rewrite rs_S, rs_0. cbn [pow fact INR]. replace (- ((1 + 1 + 1) * 1 - 1 * 1) / 1) with (- (2)) by lra.
    replace (- (((1 + 1 + 1) * 1 - 1 * 1) / 1)) with (- (2)) by lra. lra.
Qed.

(* ---------- C101: power spectrum with dead time ---------- *)
Theorem C101_power : forall h rate td tb L,
  0 < rate -> 0 <= td -> 0 < tb -> (1 <= h)%nat -> (2 * h <= L)%nat ->
  exists r0 f P, r_det td rate = Ok r0 /\ pds_model_zhang (2 * h) rate td tb L true = Ok (f, P) /\ length f = h /\ length P = h /\
  (forall j, (j < h)%nat -> nth_error f j = Some (INR j / (INR (2 * h) * tb))) /\
  (forall j, (0 < j < h)%nat -> nth_error P j = Some (leahy_mean (2 * h) (r0 * tb) (fun k => a_single_k k r0 td tb (1 / rate)) j)).
Proof. exact zhang_main. Qed.
Print Assumptions C101_power.
Theorem C101_detected : forall N r r0 td tb L,
  0 < r -> 0 <= td -> r_det td r = Ok r0 ->
  pds_model_zhang N r0 td tb L false = pds_model_zhang N r td tb L true.
Proof. exact zhang_detected. Qed.
Print Assumptions C101_detected.
Theorem C101_constant_moments : forall N mu A c j,
  (0 < j < N)%nat -> leahy_mean N mu (fun k => A k - c) j = leahy_mean N mu A j.
Proof. exact leahy_shift. Qed.
Print Assumptions C101_constant_moments.
Theorem C101_background : forall interp freqs td rate tb L bkg n,
  0 < td -> 0 <= bkg -> 0 < rate + bkg -> (rate + bkg) * td < 1 -> 0 < tb -> (1 <= n)%nat ->
  exists ri f P, r_in td (rate + bkg) = Ok ri /\ pds_model_zhang (n * 2) ri td tb L true = Ok (f, P) /\
  non_paralyzable_dead_time_model interp freqs td rate (Some tb) L bkg (Some n) =
    Ok (interp f (map (fun p => 2 + (p - 2) * (rate / (rate + bkg))) P) freqs).
Proof. exact dead_time_main. Qed.
Print Assumptions C101_background.
Theorem C101_default_bin_time : forall interp freqs td rate L bkg n_approx F,
  In F freqs -> (forall g, In g freqs -> g <= F) -> 0 < F ->
  non_paralyzable_dead_time_model interp freqs td rate None L bkg n_approx = non_paralyzable_dead_time_model interp freqs td rate (Some (1 / (2 * F))) L bkg n_approx /\
  (10 <= F -> model_size freqs None = Ok (floor_nat F * 2)%nat).
Proof. exact dead_time_default. Qed.
Print Assumptions C101_default_bin_time.
Theorem C101_too_short_error : forall N rate td tb L,
  (N < 2)%nat -> 0 < rate -> 0 <= td -> 0 < tb -> pds_model_zhang N rate td tb L true = Err ZeroDivisionError.
Proof. exact zhang_too_short. Qed.
Print Assumptions C101_too_short_error.
Theorem C101_unphysical_error : forall interp freqs td rate tb L bkg n,
  0 < td -> 1 < (rate + bkg) * td ->
  non_paralyzable_dead_time_model interp freqs td rate tb L bkg n = Err ValueError.
Proof. exact dead_time_unphysical. Qed.
Print Assumptions C101_unphysical_error.
Theorem C101_saturated_error : forall interp freqs td tb L bkg n,
  0 < td ->
  non_paralyzable_dead_time_model interp freqs td (1 / td - bkg) (Some tb) L bkg (Some n) = Err ZeroDivisionError.
Proof. exact dead_time_saturated. Qed.
Print Assumptions C101_saturated_error.
Theorem C101_odd_refuted : 
  exists N rate td tb L f P, pds_model_zhang N rate td tb L true = Ok (f, P) /\ 0 < rate /\ 0 < td /\ 0 < tb /\ (N <= L)%nat /\
  exists j v, nth_error f j = Some v /\ v <> INR j / (INR N * tb) /\
  exists r0, r_det td rate = Ok r0 /\ nth_error P j = Some (leahy_mean N (r0 * tb) (fun k => a_single_k k r0 td tb (1 / rate)) j).
Proof. exact zhang_odd_refuted. Qed.
Print Assumptions C101_odd_refuted.
Theorem C101_bins_refuted : 
  exists freqs size, model_size freqs None = Ok size /\ length freqs = 2%nat /\ size = (2 * 100)%nat.
Proof. exact bins_refuted. Qed.
Print Assumptions C101_bins_refuted.

Example C101_nonvacuous : exists f P, pds_model_zhang 8 100 (1 / 400) (1 / 200) 60 true = Ok (f, P) /\ length P = 4%nat /\ nth_error f 3 = Some (3 / (8 * (1 / 200))) /\
  80 * (1 / 400) < 1.
Proof.
  destruct (zhang_main 4 100 (1 / 400) (1 / 200) 60) as (r0 & f & P & _ & E & _ & L & F & _); [lra|lra|lra|lia|lia|]. exists f, P. split; [exact E|]. split; [exact L|].
  split; [rewrite F by lia; f_equal; cbn; lra|lra].
Qed.

