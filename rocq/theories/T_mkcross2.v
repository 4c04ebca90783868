(* T_mkcross2.v: property theorems about error bars and lags of cross spectra, dead time correction and normalization (C151 - C153). *)
From Verif Require Import Np Lib S_fourier S_vspec S_mkcross Cplx M_exvar M_fourier M_norm M_vspec M_mkcross P_avg P_exvar P_vspec3 P_mkcross2.
From Coq Require Import Reals List Arith Lra Lia.
Import ListNotations.
Open Scope R_scope.

(* ---------- C151: error bars and lags ---------- *)
Theorem C151_bound : forall (A : Type) (l1 l2 : A -> list R) us k,
  cnorm2 (cavg (fun s => cross_at (l1 s) (l2 s) k) us) <= avg (fun s => power_at (l1 s) k) us * avg (fun s => power_at (l2 s) k) us.
Proof. exact (@bin_cauchy). Qed.
Print Assumptions C151_bound.
Theorem C151_error : forall z p1 p2 m n1 n2 a b,
  (0 < m)%nat -> cnorm2 z <= p1 * p2 -> cross_power_error false z p1 p2 m n1 n2 = (a, b) ->
  0 <= a /\ 0 <= b /\ 2 * INR m * (a * a) = p1 * p2 + re z * re z - im z * im z /\ 2 * INR m * (b * b) = p1 * p2 - re z * re z + im z * im z.
Proof. exact power_error. Qed.
Print Assumptions C151_error.
Theorem C151_error_sum : forall z p1 p2 m n1 n2 a b,
  (0 < m)%nat -> cnorm2 z <= p1 * p2 -> cross_power_error false z p1 p2 m n1 n2 = (a, b) ->
  a * a + b * b = p1 * p2 / INR m.
Proof. exact power_error_sum. Qed.
Print Assumptions C151_error_sum.
Theorem C151_overlap : forall z p1 p2 m n1 n2,
  (0 < m)%nat ->
  let x := p2 / (2 * INR m) * (p1 - (cnorm2 z - bias_of p1 p2 n1 n2 m) / (p2 - n2)) in
  let d := sqrt (2 / INR m) * sqrt (n1 * n2) / 2 in
  (p2 <> n2 -> 0 <= x -> cross_power_error true z p1 p2 m n1 n2 = (sqrt x, sqrt x)) /\
  (p2 = n2 \/ x < 0 -> cross_power_error true z p1 p2 m n1 n2 = (d, d)).
Proof. exact overlap_error. Qed.
Print Assumptions C151_overlap.
Theorem C151_same : forall cross p1 p2 m r1 r2 n1 n2,
  (0 < m)%nat ->
  raw_cross_errors cross p1 p2 m r1 r2 n1 n2 = map (fun q => cross_power_error false (fst q) (fst (snd q)) (snd (snd q)) m n1 n2) (combine cross (combine p1 p2)).
Proof. exact raw_errors_same. Qed.
Print Assumptions C151_same.
Theorem C151_phase_lag : forall overlap t p1 p2 u1 u2,
  c_auxil t = Some (p1, p2, (u1, u2)) -> length u1 = length (c_unnorm t) -> length u2 = length (c_unnorm t) -> (0 < c_m t)%nat ->
  exists l, acs_phase_lag overlap t = Ok l /\ length l = length (c_unnorm t) /\
  forall i z a b, nth_error (c_unnorm t) i = Some z -> nth_error u1 i = Some a -> nth_error u2 i = Some b ->
    exists e, nth_error l i = Some (angle z, e) /\ phase_error_is overlap z a b (c_m t) (c_nphots1 t) (c_nphots2 t) e.
Proof. exact phase_lag_ok. Qed.
Print Assumptions C151_phase_lag.
Theorem C151_time_lag : forall overlap t l i ph e f,
  acs_phase_lag overlap t = Ok l -> nth_error l i = Some (ph, e) -> nth_error (c_freq t) i = Some f ->
  exists l', acs_time_lag overlap t = Ok l' /\ nth_error l' i = Some (ph / (2 * PI * f), option_map (fun e => e / (2 * PI * f)) e).
Proof. exact time_lag_ok. Qed.
Print Assumptions C151_time_lag.
Theorem C151_many : forall z p1 p2 m n1 n2 e,
  (500 < m)%nat -> 0 < p1 -> 0 < p2 -> 0 < cnorm2 z -> cnorm2 z <= p1 * p2 -> phase_error_is false z p1 p2 m n1 n2 e ->
  exists v, e = Some v /\ 0 <= v /\ 2 * INR m * cnorm2 z * (v * v) = p1 * p2 - cnorm2 z.
Proof. exact phase_error_many. Qed.
Print Assumptions C151_many.
(* ---------- C152: dead time ---------- *)
Theorem C152_corrected : forall model s all p,
  sp_power s = Some p -> length model = length p ->
  (forall l, sp_err s = Some l \/ sp_unnorm s = Some l \/ sp_unnorm_err s = Some l -> length model = length l) ->
  exists s' all', deadtime_correct false model s all = Ok (s', all') /\ corrected_opt model (sp_power s) (sp_power s') /\ corrected_opt model (sp_err s) (sp_err s') /\
  corrected_opt model (sp_unnorm s) (sp_unnorm s') /\ corrected_opt model (sp_unnorm_err s) (sp_unnorm_err s') /\
  sp_norm s' = sp_norm s /\ sp_dt s' = sp_dt s /\ sp_n s' = sp_n s /\ sp_nph1 s' = sp_nph1 s /\ sp_nph2 s' = sp_nph2 s.
Proof. exact deadtime_ok. Qed.
Print Assumptions C152_corrected.
Theorem C152_halves : forall model s all s' all' h1 h2,
  sp_halves s = Some (h1, h2) -> length model = length (h_unnorm h1) -> length model = length (h_unnorm h2) ->
  deadtime_correct false model s all = Ok (s', all') ->
  exists h1' h2', sp_halves s' = Some (h1', h2') /\ corrected model (h_unnorm h1) (h_unnorm h1') /\ corrected model (h_unnorm h2) (h_unnorm h2') /\
  h_power h1' = h_power h1 /\ h_power h2' = h_power h2.
Proof. exact deadtime_halves. Qed.
Print Assumptions C152_halves.
Theorem C152_segments : forall model s all1 all2 s' a1 a2,
  deadtime_correct false model s (Some (all1, all2)) = Ok (s', Some (a1, a2)) ->
  (forall l, In l all1 \/ In l all2 -> length model = length l) -> Forall2 (corrected model) all1 a1 /\ Forall2 (corrected model) all2 a2.
Proof. exact deadtime_segments. Qed.
Print Assumptions C152_segments.
(* the power spectra of the two channels: the raw powers are corrected, the powers are not *)
Theorem C152_halves_refuted : exists model s s' h1 h2 h1' h2' all, sp_halves s = Some (h1, h2) /\ h_norm h1 = NoNorm /\ h_power h1 = h_unnorm h1 /\
  deadtime_correct false model s None = Ok (s', all) /\ sp_halves s' = Some (h1', h2') /\ h_norm h1' = NoNorm /\ h_power h1' <> h_unnorm h1'.
Proof.
  exists [1]. exists (mkSpec false NoNorm (Some [(1, 0)]) None None None 1 2 2 2 false None None PAll (Some (mkHalf NoNorm [(1, 0)] None [(1, 0)] None, mkHalf NoNorm [(1, 0)] None [(1, 0)] None))).
  do 6 eexists. split; [reflexivity|]. split; [reflexivity|]. split; [reflexivity|]. split; [reflexivity|]. split; [reflexivity|]. split; [reflexivity|].
  cbn. intros C. assert (X : forall a b c d : R, [(a, b)] = [(c, d)] -> a = c) by congruence. apply X in C. cbn in C. lra.
Qed.
Print Assumptions C152_halves_refuted.
(* ---------- C153: deprecated normalization functions ---------- *)
Theorem C153_counts : forall unnorm tseg nbins n1 n2 norm pt,
  pt <> POther ->
  normalize_crossspectrum unnorm tseg nbins n1 n2 norm pt =
  match kind norm None with
  | Some k => Ok (map (fun z => as_type pt (cscal z (factor k (tseg / INR nbins) nbins (sqrt (n1 * n2) / INR nbins) (sqrt (n1 * n2))))) unnorm)
  | None => Err ValueError
  end.
Proof. exact normalize_counts. Qed.
Print Assumptions C153_counts.
Theorem C153_gauss : forall unnorm mean var dt n norm pt,
  pt <> POther -> dt <> 0 ->
  normalize_crossspectrum_gauss unnorm mean var dt n norm pt =
  match kind norm (Some var) with
  | Some k => Ok (map (fun z => as_type pt (cscal z (factor k dt n (mean * dt) 0))) unnorm)
  | None => Err ValueError
  end.
Proof. exact normalize_gauss. Qed.
Print Assumptions C153_gauss.
(* the documentation: "For 'none' normalization, imaginary part is returned as well"; power_type="real" is the default *)
Theorem C153_none_refuted : exists u tseg n n1 n2 p, 0 < tseg /\ (0 < n)%nat /\ normalize_crossspectrum u tseg n n1 n2 NoNorm PReal = Ok p /\ p <> u.
Proof.
  exists [(0, 1)], 1, 1%nat, 1, 1. eexists. split; [lra|]. split; [lia|]. rewrite normalize_counts by discriminate. split; [reflexivity|].
  cbn. intros C. assert (X : forall a b c d : R, [(a, b)] = [(c, d)] -> b = d) by congruence. apply X in C. lra.
Qed.
Print Assumptions C153_none_refuted.

Example C151_nonvacuous : cnorm2 (1, 0) <= 2 * 2 /\ 0 < cnorm2 (1, 0) /\ (500 < 501)%nat /\ exists a b, cross_power_error false (1, 0) 2 2 1 1 1 = (a, b).
Proof. split; [unfold cnorm2; cbn; lra|]. split; [unfold cnorm2; cbn; lra|]. split; [apply Nat.ltb_lt; reflexivity|]. destruct (cross_power_error false (1, 0) 2 2 1 1 1) as [a b]. now exists a, b. Qed.
Example C151_overlap_nonvacuous : cross_power_error true (1, 0) 2 1 501 1 1 = (sqrt (2 / INR 501) * sqrt (1 * 1) / 2, sqrt (2 / INR 501) * sqrt (1 * 1) / 2).
Proof. apply (overlap_error (1, 0) 2 1 501 1 1); [lia|]. now left. Qed.
(* powers at the level of the model become 2 *)
Example C152_nonvacuous : forall m s', m <> 0 ->
  deadtime_correct false [m] (mkSpec false Leahy (Some [(m, 0)]) None None None 1 2 2 2 false None None PAll None) None = Ok s' -> sp_power (fst s') = Some [(2, 0)].
Proof.
  intros m s' Hm E. cbn in E. assert (X : forall a b : spectrum * option (list (list cx) * list (list cx)), Ok a = Ok b -> a = b) by congruence. apply X in E. subst s'. cbn [fst sp_power].
  unfold scaled_by, cscal, re, im. cbn. do 2 f_equal. f_equal; field; assumption.
Qed.
Example C153_nonvacuous : normalize_crossspectrum [(1, 0)] 2 2 1 1 Leahy PAll = Ok [(2, 0)].
Proof.
  rewrite normalize_counts by discriminate. cbn [kind factor map as_type]. rewrite Rmult_1_r, sqrt_1. do 2 f_equal. unfold cscal, re, im. cbn. f_equal; field.
Qed.

