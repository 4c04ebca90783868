(* T_stats.v: property theorems about stats.py (C35, C36, C62, C63). *)
From Verif Require Import Np M_stats S_stats P_stats P_pval.
From Coq Require Import Reals Lra Lia.
Open Scope R_scope.

(* ---------- C35 ---------- *)
Theorem C35_pulsed_fraction : 
  (forall a, a <> -1 -> a_from_pf (pf_from_a a) = a) /\
  (forall p, p <> 2 -> pf_from_a (a_from_pf p) = p) /\
  (forall a b, 0 <= a -> a < b -> pf_from_a a < pf_from_a b) /\
  (forall p q, p < q -> q < 2 -> a_from_pf p < a_from_pf q) /\
  (forall a, 0 <= a <= 1 -> 0 <= pf_from_a a <= 1) /\
  (forall p, 0 <= p <= 1 -> 0 <= a_from_pf p <= 1).
Proof. exact pf_a_main. Qed.
Print Assumptions C35_pulsed_fraction.
Theorem C35_signal_power : 
  forall n, 0 < n ->
  (forall a, 0 <= a -> a_from_ssig (ssig_from_a a n) n = a) /\
  (forall s, 0 <= s -> ssig_from_a (a_from_ssig s n) n = s) /\
  (forall a b, 0 <= a -> a < b -> ssig_from_a a n < ssig_from_a b n) /\
  (forall s t, 0 <= s -> s < t -> a_from_ssig s n < a_from_ssig t n) /\
  (forall p, 0 <= p -> p < 2 -> pf_from_ssig (ssig_from_pf p n) n = p) /\
  (forall s, 0 <= s -> ssig_from_pf (pf_from_ssig s n) n = s).
Proof. exact ssig_main. Qed.
Print Assumptions C35_signal_power.

Example C35_nonvacuous : 0 <= 1 / 2 <= 1 /\ pf_from_a (1 / 2) <> 1 / 2 /\ ssig_from_a (1 / 10) 30000 = 150.
Proof. unfold pf_from_a, ssig_from_a. repeat split; lra. Qed.

(* ---------- C36 ---------- *)
Theorem C36_value : forall p n,
  0 < p <= 1 -> (0 < n)%nat ->
  p_multitrial p n = if Rlt_dec (p * INR n) (exp (-7)) then p * INR n else at_least_one p n.
Proof. exact multi_value. Qed.
Print Assumptions C36_value.
Theorem C36_bounds : forall p n,
  0 < p <= 1 -> (0 < n)%nat ->
  p <= p_multitrial p n <= p * INR n /\ p_multitrial p n <= 1 /\
  at_least_one p n <= p_multitrial p n <= at_least_one p n + exp (-7) * exp (-7) / 2.
Proof. exact multi_bounds. Qed.
Print Assumptions C36_bounds.
Theorem C36_more_trials_partial : forall p n,
  0 < p <= 1 -> (0 < n)%nat ->
  (p * INR (S n) < exp (-7) \/ exp (-7) <= p * INR n) ->
  p_multitrial p n <= p_multitrial p (S n).
Proof. exact multi_mono. Qed.
Print Assumptions C36_more_trials_partial.
Theorem C36_larger_probability_partial : forall p q n,
  0 < p -> p <= q -> q <= 1 -> (0 < n)%nat ->
  (q * INR n < exp (-7) \/ exp (-7) <= p * INR n) ->
  p_multitrial p n <= p_multitrial q n.
Proof. exact multi_mono_p. Qed.
Print Assumptions C36_larger_probability_partial.
Theorem C36_more_trials_refuted : 
  exists p n, 0 < p <= 1 /\ (0 < n)%nat /\ p_multitrial p (S n) < p_multitrial p n.
Proof. exact multi_not_mono. Qed.
Print Assumptions C36_more_trials_refuted.
Theorem C36_single_value : forall p n,
  0 < p < 1 -> (0 < n)%nat ->
  p_single_trial p n =
  if Rlt_dec p (exp (-7)) then Some (p / INR n)
  else if Rlt_dec (1 - p) (1 / 10 ^ 15 * 1000) then None
  else Some (1 - Rpower (1 - p) (1 / INR n)).
Proof. exact single_value. Qed.
Print Assumptions C36_single_value.
Theorem C36_multi_of_single : forall p n q,
  0 < p < 1 -> (0 < n)%nat -> p_single_trial p n = Some q ->
  0 < q < 1 /\ p_multitrial q n = p.
Proof. exact multi_of_single. Qed.
Print Assumptions C36_multi_of_single.
Theorem C36_single_of_multi_partial : forall p n,
  0 < p < 1 -> (0 < n)%nat ->
  (p * INR n < exp (-7) \/ exp (-7) <= at_least_one p n /\ 1 / 10 ^ 12 <= (1 - p) ^ n) ->
  p_single_trial (p_multitrial p n) n = Some p.
Proof. exact single_of_multi. Qed.
Print Assumptions C36_single_of_multi_partial.
Theorem C36_single_of_multi_refuted : 
  exists p n q, 0 < p < 1 /\ (0 < n)%nat /\
  p_single_trial (p_multitrial p n) n = Some q /\ q <> p.
Proof. exact single_of_multi_refuted. Qed.
Print Assumptions C36_single_of_multi_refuted.
Theorem C36_nan_refuted : 
  exists p n, 0 < p < 1 /\ (0 < n)%nat /\ p_single_trial (p_multitrial p n) n = None.
Proof. exact single_nan. Qed.
Print Assumptions C36_nan_refuted.
Theorem C36_single_defined : forall eps n,
  0 < eps <= 1 - 1 / 10 ^ 12 -> (0 < n)%nat -> exists e, p_single_trial eps n = Some e.
Proof. exact single_defined. Qed.
Print Assumptions C36_single_defined.

Example C36_nonvacuous : 0 < 1 / 4 < 1 /\ (0 < 2)%nat /\ exp (-7) <= at_least_one (1 / 4) 2 /\
  1 / 10 ^ 12 <= (1 - 1 / 4) ^ 2 /\ exp (-7) <= 1 / 4 * INR 2 /\ (exists q, p_single_trial (1 / 4) 2 = Some q).
Proof.
  assert (B := exp7_bounds). unfold at_least_one. cbn [pow INR]. repeat split; try lra; try lia.
  apply single_defined; [cbn [pow]; lra|lia].
Qed.

(* ---------- C62: classical p-values ---------- *)
Theorem C62_classical_pvalue_partial : forall power n,
  0 < power -> (0 < n)%nat -> INR n <= 10 ^ 15 -> power * INR n <= 30000 ->
  exists p, classical_pvalue power n = Ok (Fin p) /\
    p <= chi2_even_sf (power * INR n) n <= p * (1 + INR n / 10 ^ 15).
Proof. exact pavnosig_main. Qed.
Print Assumptions C62_classical_pvalue_partial.
Theorem C62_zero_power_error : forall n,
  (0 < n)%nat -> classical_pvalue 0 n = Ok NaN.
Proof. exact pavnosig_zero. Qed.
Print Assumptions C62_zero_power_error.
Theorem C62_large_products_refuted : 
  exists power n, 0 < power /\ (0 < n)%nat /\
  classical_pvalue power n = Ok (Fin 0) /\ 1 / 2 <= chi2_even_sf (power * INR n) n.
Proof. exact classical_zero_refuted. Qed.
Print Assumptions C62_large_products_refuted.

Example C62_nonvacuous : 0 < 40 /\ (0 < 2)%nat /\ INR 2 <= 10 ^ 15 /\ 40 * INR 2 <= 30000.
Proof. cbn [pow INR]. repeat split; try lra; lia. Qed.

(* ---------- C63: detection levels ---------- *)
Theorem C63_pds_level : forall sf isf eps ntrial ns nr l,
  survival sf isf -> 0 < eps < 1 ->
  (0 < ntrial)%nat -> (0 < ns)%nat -> (0 < nr)%nat ->
  pds_detection_level isf eps ntrial ns nr = Some l ->
  pds_probability sf l ntrial ns nr = eps /\
  (forall x, l < x -> pds_probability sf x ntrial ns nr < eps) /\
  (forall x, 0 <= x -> x < l -> exp (-7) <= eps -> eps < pds_probability sf x ntrial ns nr).
Proof. exact pds_level_main. Qed.
Print Assumptions C63_pds_level.
Theorem C63_z2_level : forall sf isf eps ntrial n ns l,
  survival sf isf -> 0 < eps < 1 ->
  (0 < ntrial)%nat -> (0 < n)%nat -> (0 < ns)%nat ->
  z2_n_detection_level isf n eps ntrial ns = Some l ->
  z2_n_probability sf l n ntrial ns = eps /\
  (forall x, l < x -> z2_n_probability sf x n ntrial ns < eps) /\
  (forall x, 0 <= x -> x < l -> exp (-7) <= eps -> eps < z2_n_probability sf x n ntrial ns).
Proof. exact z2_level_main. Qed.
Print Assumptions C63_z2_level.
Theorem C63_fold_level : forall sf isf eps ntrial nbin l,
  survival sf isf -> 0 < eps < 1 ->
  (0 < ntrial)%nat -> (1 < nbin)%nat ->
  fold_detection_level isf nbin eps ntrial = Some l ->
  fold_profile_probability sf l nbin ntrial = eps /\
  (forall x, l < x -> fold_profile_probability sf x nbin ntrial < eps) /\
  (forall x, 0 <= x -> x < l -> exp (-7) <= eps -> eps < fold_profile_probability sf x nbin ntrial).
Proof. exact fold_level_main. Qed.
Print Assumptions C63_fold_level.
Theorem C63_below_level_refuted : 
  exists sf isf eps ntrial l x, survival sf isf /\ 0 < eps < 1 /\ (0 < ntrial)%nat /\
  pds_detection_level isf eps ntrial 1 1 = Some l /\ 0 <= x /\ x < l /\ pds_probability sf x ntrial 1 1 < eps.
Proof. exact below_level_refuted. Qed.
Print Assumptions C63_below_level_refuted.

Example C63_nonvacuous : survival toy_sf toy_isf /\ 0 < 1 / 100 < 1 /\ exp (-7) <= 1 / 100 /\
  exists l, pds_detection_level toy_isf (1 / 100) 10 3 2 = Some l.
Proof.
  split; [exact toy_survival|]. split; [lra|]. split; [assert (B := exp7_bounds); lra|].
  unfold pds_detection_level. destruct (single_defined (1 / 100) 10 ltac:(cbn [pow]; lra) ltac:(lia)) as [e ->]. eexists. reflexivity.
Qed.

