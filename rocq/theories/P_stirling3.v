(* P_stirling3.v: the approximate Poisson terms of the dead time model and the sums over them *)
From Verif Require Import Np Lib M_utils Cplx M_espec S_zhang M_zhang P_zhang P_zhang2 P_stirling P_stirling2.
From Coq Require Import Reals List Arith Lra Lia.
Import ListNotations.
Open Scope R_scope.

(* ---- the exponential between polynomials ---- *)
Definition poly (a b c d e f : R) (y : R) : R := a + b * y + c * y ^ 2 + d * y ^ 3 + e * y ^ 4 + f * y ^ 5.
Lemma poly_derive a b c d e f y : derivable_pt_lim (poly a b c d e f) y (poly b (2 * c) (3 * d) (4 * e) (5 * f) 0 y).
Proof.
  replace (poly b (2 * c) (3 * d) (4 * e) (5 * f) 0 y) with (0 + b * 1 + c * (INR 2 * y ^ 1) + d * (INR 3 * y ^ 2) + e * (INR 4 * y ^ 3) + f * (INR 5 * y ^ 4)).
  2:{ unfold poly. replace (INR 2) with 2 by (cbn; lra). replace (INR 3) with 3 by (cbn; lra). replace (INR 4) with 4 by (cbn; lra). replace (INR 5) with 5 by (cbn; lra). ring. }
  unfold poly.
  apply (derivable_pt_lim_plus (fun y => a + b * y + c * y ^ 2 + d * y ^ 3 + e * y ^ 4) (fun y => f * y ^ 5)); [|apply (derivable_pt_lim_scal (fun y => y ^ 5)), pow_derive].
  apply (derivable_pt_lim_plus (fun y => a + b * y + c * y ^ 2 + d * y ^ 3) (fun y => e * y ^ 4)); [|apply (derivable_pt_lim_scal (fun y => y ^ 4)), pow_derive].
  apply (derivable_pt_lim_plus (fun y => a + b * y + c * y ^ 2) (fun y => d * y ^ 3)); [|apply (derivable_pt_lim_scal (fun y => y ^ 3)), pow_derive].
  apply (derivable_pt_lim_plus (fun y => a + b * y) (fun y => c * y ^ 2)); [|apply (derivable_pt_lim_scal (fun y => y ^ 2)), pow_derive].
  apply (derivable_pt_lim_plus (fun _ => a) (fun y => b * y)); [apply derivable_pt_lim_const|apply (derivable_pt_lim_scal id), derivable_pt_lim_id].
Qed.
Lemma poly_0 a b c d e f : poly a b c d e f 0 = a.
Proof. unfold poly. cbn [pow]. ring. Qed.
Lemma exp_above b c d e f : (forall y, 0 <= y <= 1 / 2 -> poly b (2 * c) (3 * d) (4 * e) (5 * f) 0 y <= exp y) -> forall y, 0 <= y <= 1 / 2 -> poly 1 b c d e f y <= exp y.
Proof.
  intros H y Y. pose proof (increasing_from_0 (fun z => exp z - poly 1 b c d e f z) (fun z => exp z - poly b (2 * c) (3 * d) (4 * e) (5 * f) 0 z) y ltac:(lra)) as I.
  cbv beta in I. rewrite exp_0, poly_0 in I. assert (1 - 1 <= exp y - poly 1 b c d e f y); [|lra]. apply I.
  - intros z Z. apply (derivable_pt_lim_minus exp (poly 1 b c d e f)); [apply derivable_pt_lim_exp|apply poly_derive].
  - intros z Z. pose proof (H z ltac:(lra)). lra.
Qed.
Lemma exp_below b c d e f : (forall y, 0 <= y <= 1 / 2 -> exp y <= poly b (2 * c) (3 * d) (4 * e) (5 * f) 0 y) -> forall y, 0 <= y <= 1 / 2 -> exp y <= poly 1 b c d e f y.
Proof.
  intros H y Y. pose proof (increasing_from_0 (fun z => poly 1 b c d e f z - exp z) (fun z => poly b (2 * c) (3 * d) (4 * e) (5 * f) 0 z - exp z) y ltac:(lra)) as I.
  cbv beta in I. rewrite exp_0, poly_0 in I. assert (1 - 1 <= poly 1 b c d e f y - exp y); [|lra]. apply I.
  - intros z Z. apply (derivable_pt_lim_minus (poly 1 b c d e f) exp); [apply poly_derive|apply derivable_pt_lim_exp].
  - intros z Z. pose proof (H z ltac:(lra)). lra.
Qed.
Lemma exp_half_le : forall y, 0 <= y <= 1 / 2 -> exp y <= 2.
Proof.
  intros y Y. pose proof (exp_ineq1_le (- y)) as H. assert (E : exp (- y) * exp y = 1) by (rewrite <- exp_plus, Rplus_opp_l; apply exp_0). pose proof (exp_pos y). nra.
Qed.
Lemma exp_lower4 y : 0 <= y <= 1 / 2 -> poly 1 1 (1 / 2) (1 / 6) (1 / 24) 0 y <= exp y.
Proof.
  revert y. apply exp_above. intros y Y. replace (poly 1 (2 * (1 / 2)) (3 * (1 / 6)) (4 * (1 / 24)) (5 * 0) 0 y) with (poly 1 1 (1 / 2) (1 / 6) 0 0 y) by (unfold poly; field). revert y Y.
  apply exp_above. intros y Y. replace (poly 1 (2 * (1 / 2)) (3 * (1 / 6)) (4 * 0) (5 * 0) 0 y) with (poly 1 1 (1 / 2) 0 0 0 y) by (unfold poly; field). revert y Y.
  apply exp_above. intros y Y. replace (poly 1 (2 * (1 / 2)) (3 * 0) (4 * 0) (5 * 0) 0 y) with (1 + y) by (unfold poly; field). apply exp_ineq1_le.
Qed.
Lemma exp_upper4 y : 0 <= y <= 1 / 2 -> exp y <= poly 1 1 (1 / 2) (1 / 6) (1 / 24) (1 / 60) y.
Proof.
  revert y. apply exp_below. intros y Y. replace (poly 1 (2 * (1 / 2)) (3 * (1 / 6)) (4 * (1 / 24)) (5 * (1 / 60)) 0 y) with (poly 1 1 (1 / 2) (1 / 6) (1 / 12) 0 y) by (unfold poly; field). revert y Y.
  apply exp_below. intros y Y. replace (poly 1 (2 * (1 / 2)) (3 * (1 / 6)) (4 * (1 / 12)) (5 * 0) 0 y) with (poly 1 1 (1 / 2) (1 / 3) 0 0 y) by (unfold poly; field). revert y Y.
  apply exp_below. intros y Y. replace (poly 1 (2 * (1 / 2)) (3 * (1 / 3)) (4 * 0) (5 * 0) 0 y) with (poly 1 1 1 0 0 0 y) by (unfold poly; field). revert y Y.
  apply exp_below. intros y Y. replace (poly 1 (2 * 1) (3 * 0) (4 * 0) (5 * 0) 0 y) with (poly 1 2 0 0 0 0 y) by (unfold poly; field). revert y Y.
  apply exp_below. intros y Y. replace (poly 2 (2 * 0) (3 * 0) (4 * 0) (5 * 0) 0 y) with 2 by (unfold poly; field). now apply exp_half_le.
Qed.

(* ---- the factor of the code ---- *)
Definition series (w : R) : R := 1 + w / 12 + w ^ 2 / 288 - 139 / 51840 * w ^ 3 - 571 / 2488320 * w ^ 4.
Lemma stirling_factor_series m : (1 <= m)%nat -> stirling_factor (INR m) = series (/ INR m).
Proof.
  intros M. assert (0 < INR m) by (apply lt_0_INR; lia). unfold stirling_factor, stirling_parameters, series. rewrite !rs_S, rs_0. cbn [nth]. field. lra.
Qed.
Lemma series_exp w : 0 <= w <= 1 / 50 -> Rabs (exp (w / 12 - w ^ 3 / 360) - series w) <= w ^ 5 / 10000 /\ 1 <= series w.
Proof.
  intros W. set (r := w / 12 - w ^ 3 / 360). assert (R0 : 0 <= r <= w / 12).
  { unfold r. pose proof (pow_le w 3 ltac:(lra)). cbn [pow] in *. nra. }
  pose proof (exp_lower4 r ltac:(lra)) as L. pose proof (exp_upper4 r ltac:(lra)) as U.
  assert (E : poly 1 1 (1 / 2) (1 / 6) (1 / 24) 0 r - series w = w ^ 5 * (- 1 / 103680 + w * (1 / 259200 - 1 / 3732480) + w ^ 2 / 3110400 + w ^ 3 / 74649600 - w ^ 4 / 279936000 - w ^ 5 / 3359232000 + w ^ 7 / 403107840000)).
  { unfold poly, series, r. field. }
  set (q := - 1 / 103680 + w * (1 / 259200 - 1 / 3732480) + w ^ 2 / 3110400 + w ^ 3 / 74649600 - w ^ 4 / 279936000 - w ^ 5 / 3359232000 + w ^ 7 / 403107840000) in *.
  assert (pw : forall k, 0 <= w ^ k <= 1). { intros k. split; [apply pow_le; lra|]. rewrite <- (pow1 k). apply pow_incr. lra. }
  assert (Q : - (1 / 50000) <= q <= 1 / 50000). { unfold q. pose proof (pw 2%nat). pose proof (pw 3%nat). pose proof (pw 4%nat). pose proof (pw 5%nat). pose proof (pw 7%nat). lra. }
  pose proof (pw 5%nat) as P5.
  assert (R5 : 0 <= r ^ 5 <= w ^ 5 / 100000). { split; [apply pow_le; lra|]. apply Rle_trans with ((w / 12) ^ 5); [apply pow_incr; lra|]. replace ((w / 12) ^ 5) with (w ^ 5 / 248832) by field. lra. }
  assert (X : poly 1 1 (1 / 2) (1 / 6) (1 / 24) (1 / 60) r = poly 1 1 (1 / 2) (1 / 6) (1 / 24) 0 r + r ^ 5 / 60) by (unfold poly; field).
  assert (Y : - (w ^ 5 / 50000) <= w ^ 5 * q <= w ^ 5 / 50000) by nra.
  split.
  - apply Rabs_le. lra.
  - unfold series. pose proof (pw 2%nat). assert (w ^ 3 <= w * (1 / 50)) by (cbn [pow]; nra). assert (w ^ 4 <= w * (1 / 50)) by (cbn [pow] in *; assert (w * (w * (w * 1)) <= 1 / 50) by nra; nra). lra.
Qed.
Lemma exp_small y : 0 <= y <= 1 / 2 -> exp y - 1 <= 2 * y.
Proof. intros Y. pose proof (exp_upper4 y Y) as U. unfold poly in U. assert (y ^ 2 <= y / 2) by (cbn [pow]; nra). assert (y ^ 3 <= y / 2) by (cbn [pow] in *; nra). assert (y ^ 4 <= y / 2) by (cbn [pow] in *; nra). assert (y ^ 5 <= y / 2) by (cbn [pow] in *; nra). lra. Qed.
Lemma stirling_ratio m : (50 <= m)%nat -> Rabs (exp (rest m + err m) / stirling_factor (INR m) - 1) <= / 10 ^ 10.
Proof.
  intros M. assert (Im : 50 <= INR m) by (replace 50 with (INR 50) by (cbn; lra); apply le_INR; exact M).
  rewrite stirling_factor_series by lia. set (w := / INR m). assert (W0 : 0 < w) by (apply Rinv_0_lt_compat; lra).
  assert (W1 : w <= 1 / 50) by (unfold w; replace (1 / 50) with (/ 50) by field; apply Rinv_le_contravar; lra).
  destruct (series_exp w ltac:(lra)) as [A B]. pose proof (err_bound m ltac:(lia)) as [E0 E1]. fold w in E1. unfold rest. fold w.
  assert (W5 : 0 < w ^ 5 <= / 312500000). { split; [apply pow_lt; exact W0|]. replace (/ 312500000) with ((1 / 50) ^ 5) by field. apply pow_incr. lra. }
  rewrite exp_plus. set (er := exp (w / 12 - w ^ 3 / 360)) in *. assert (ER : 0 < er <= 2).
  { split; [apply exp_pos|]. unfold er. apply exp_half_le. pose proof (pow_lt w 3 W0). cbn [pow] in *. split; [nra|lra]. }
  pose proof (exp_small (err m) ltac:(lra)) as S. pose proof (exp_ineq1_le (err m)) as S0.
  assert (I : / series w <= 1) by (rewrite <- Rinv_1; apply Rinv_le_contravar; lra). assert (I0 : 0 < / series w) by (apply Rinv_0_lt_compat; lra).
  assert (N : Rabs (er * exp (err m) - series w) <= w ^ 5 / 32).
  { replace (er * exp (err m) - series w) with ((er - series w) + er * (exp (err m) - 1)) by ring. eapply Rle_trans; [apply Rabs_triang|]. rewrite (Rabs_pos_eq (er * _)) by nra. nra. }
  replace (er * exp (err m) / series w - 1) with ((er * exp (err m) - series w) * / series w) by (field; lra).
  rewrite Rabs_mult, (Rabs_pos_eq (/ series w)) by lra. pose proof (Rabs_pos (er * exp (err m) - series w)).
  assert (w ^ 5 / 32 <= / 10 ^ 10). { replace (10 ^ 10) with 10000000000 by ring. lra. }
  nra.
Qed.

(* ---- Poisson terms ---- *)
Lemma fact_stirling m : (1 <= m)%nat -> INR (fact m) = sqrt (2 * PI * INR m) * (INR m / exp 1) ^ m * exp (rest m + err m).
Proof.
  intros M. assert (Im : 0 < INR m) by (apply lt_0_INR; lia). pose proof PI_RGT_0 as P. pose proof (exp_pos 1) as E1.
  assert (Q : 0 < INR m / exp 1) by (apply Rdiv_lt_0_compat; lra).
  assert (S0 : 0 < 2 * PI * INR m) by (apply Rmult_lt_0_compat; lra). pose proof (sqrt_lt_R0 _ S0) as S1. pose proof (pow_lt _ m Q) as PQ. pose proof (exp_pos (rest m + err m)) as X.
  rewrite <- (exp_ln (INR (fact m))) by apply P_zhang.fact_pos. rewrite (log_fact m M).
  assert (L1 : exp (1 / 2 * ln (2 * PI) + 1 / 2 * ln (INR m)) = sqrt (2 * PI * INR m)).
  { rewrite <- Rpower_sqrt by exact S0. unfold Rpower. f_equal. rewrite (ln_mult (2 * PI) (INR m)) by lra. field. }
  assert (L2 : exp (INR m * ln (INR m) - INR m) = (INR m / exp 1) ^ m).
  { rewrite <- Rpower_pow by exact Q. unfold Rpower. f_equal. unfold Rdiv. rewrite ln_mult, ln_Rinv, ln_exp by (try assumption; apply Rinv_0_lt_compat; assumption). ring. }
  rewrite <- L1, <- L2, <- !exp_plus. f_equal. field.
Qed.
Lemma emx_close x m : 0 <= x -> Rabs (e_m_x_x_over_factorial x m - poisson x m) <= / 10 ^ 10 * poisson x m.
Proof.
  intros X. pose proof (poisson_nonneg x m X) as PN. assert (E10 : 0 < / 10 ^ 10) by (apply Rinv_0_lt_compat, pow_lt; lra).
  destruct (le_lt_dec 50 m) as [M|M].
  2:{ rewrite emx_poisson by exact M. rewrite Rminus_diag_eq by reflexivity. rewrite Rabs_R0. apply Rmult_le_pos; lra. }
  assert (Im : 50 <= INR m) by (replace 50 with (INR 50) by (cbn; lra); apply le_INR; exact M).
  unfold e_m_x_x_over_factorial. replace (if Req_EM_T x 0 then (m =? 0)%nat else false) with false.
  2:{ destruct (Req_EM_T x 0); [|reflexivity]. symmetry. apply Nat.eqb_neq. lia. }
  replace (m <? 50)%nat with false by (symmetry; apply Nat.ltb_ge; exact M). cbn [orb].
  replace (if Rlt_dec 1 x then if Rlt_dec (INR m * Rmax (log10 x) 1) 50 then true else false else false) with false.
  2:{ destruct (Rlt_dec 1 x); [|reflexivity]. destruct (Rlt_dec (INR m * Rmax (log10 x) 1) 50) as [H|]; [|reflexivity]. pose proof (Rmax_r (log10 x) 1). nra. }
  assert (EQ : 1 / sqrt (2 * PI * INR m) * (x * exp (1 - x / INR m) / INR m) ^ m / stirling_factor (INR m) = poisson x m * (exp (rest m + err m) / stirling_factor (INR m))).
  { unfold poisson. rewrite (fact_stirling m) by lia. pose proof PI_RGT_0 as P. pose proof (exp_pos 1) as E1. pose proof (exp_pos (rest m + err m)) as E2.
    assert (S1 : 0 < sqrt (2 * PI * INR m)) by (apply sqrt_lt_R0, Rmult_lt_0_compat; lra).
    assert (SF : 1 <= stirling_factor (INR m)). { rewrite stirling_factor_series by lia. apply series_exp. split; [left; apply Rinv_0_lt_compat; lra|]. replace (1 / 50) with (/ 50) by field. apply Rinv_le_contravar; lra. }
    assert (Q : 0 < INR m / exp 1) by (apply Rdiv_lt_0_compat; lra). pose proof (pow_lt _ m Q) as PQ.
    assert (F : (x * exp (1 - x / INR m) / INR m) ^ m = exp (- x) * x ^ m / (INR m / exp 1) ^ m).
    { replace (exp (- x)) with (exp (- (x / INR m)) ^ m). 2:{ rewrite <- Rpower_pow by apply exp_pos. unfold Rpower. rewrite ln_exp. f_equal. field. lra. }
      change (exp (- (x / INR m)) ^ m * x ^ m / (INR m / exp 1) ^ m) with (exp (- (x / INR m)) ^ m * x ^ m * / (INR m / exp 1) ^ m). rewrite <- pow_inv, <- !Rpow_mult_distr. f_equal. unfold Rminus. rewrite exp_plus. field. lra. }
    rewrite F. field. repeat split; lra. }
  rewrite EQ. replace (poisson x m * (exp (rest m + err m) / stirling_factor (INR m)) - poisson x m) with (poisson x m * (exp (rest m + err m) / stirling_factor (INR m) - 1)) by ring.
  rewrite Rabs_mult, (Rabs_pos_eq (poisson x m)) by exact PN. rewrite Rmult_comm. apply Rmult_le_compat_r; [exact PN|]. apply stirling_ratio. exact M.
Qed.
Lemma abs_bounds a b e : Rabs (a - b) <= e -> b - e <= a <= b + e.
Proof. intros H. destruct (Rcase_abs (a - b)) as [C|C]; [rewrite Rabs_left in H by exact C|rewrite Rabs_right in H by exact C]; lra. Qed.
Section All_n.
Variables (x : R) (n : nat).
Hypothesis Hx : 0 <= x.
Let term (m : nat) : R := poisson x m * INR (n - m).
Let term' (m : nat) : R := e_m_x_x_over_factorial x m * INR (n - m).
Lemma all_term_nonneg m : 0 <= term m.
Proof. unfold term. pose proof (poisson_nonneg x m Hx). pose proof (pos_INR (n - m)). nra. Qed.
Lemma all_term_half m : 2 * x < INR m -> 2 * term (S m) <= term m.
Proof.
  intros H. unfold term. rewrite poisson_next. pose proof (poisson_nonneg x m Hx) as P.
  assert (Q : x / INR (S m) <= 1 / 2).
  { rewrite S_INR. apply (Rmult_le_reg_r (INR m + 1)); [lra|]. unfold Rdiv. rewrite Rmult_assoc, Rinv_l by lra. lra. }
  assert (Q0 : 0 <= x / INR (S m)) by (unfold Rdiv; apply Rmult_le_pos; [exact Hx|left; apply Rinv_0_lt_compat, lt_0_INR; lia]).
  assert (I : INR (n - S m) <= INR (n - m)) by (apply le_INR; lia). pose proof (pos_INR (n - S m)).
  assert (x / INR (S m) * INR (n - S m) <= 1 / 2 * INR (n - m)) by (apply Rmult_le_compat; assumption). nra.
Qed.
Lemma all_tail_small steps : forall m, 2 * x < INR m -> rs steps (fun i => term (S m + i)) <= term m.
Proof.
  induction steps as [|k IH]; intros m H; [rewrite rs_0; apply all_term_nonneg|].
  rewrite rs_first, Nat.add_0_r. assert (H' : 2 * x < INR (S m)) by (rewrite S_INR; lra). pose proof (IH (S m) H') as T. pose proof (all_term_half m H).
  rewrite (rs_ext k _ (fun i => term (S (S m) + i))) by (intros; f_equal; lia). lra.
Qed.
Lemma term_close m : (1 - / 10 ^ 10) * term m <= term' m <= (1 + / 10 ^ 10) * term m.
Proof. unfold term, term'. pose proof (abs_bounds _ _ _ (emx_close x m Hx)). pose proof (pos_INR (n - m)). nra. Qed.
Lemma all_stop_small m s : (m < n)%nat -> gn_stop x m (term' m) s = true -> 0 < s /\ 2 * x < INR m /\ term m <= 2 * / 10 ^ 15 * s.
Proof.
  intros Hm. unfold gn_stop. destruct (Req_EM_T x 0) as [|Nx]; [discriminate|]. destruct (Rlt_dec 0 s) as [Hs|]; [|discriminate].
  destruct (Rlt_dec (2 * x) (INR m)) as [H2|]; [|discriminate]. destruct (Rlt_dec precision_digits _) as [H|]; [|discriminate]. intros _.
  split; [exact Hs|]. split; [exact H2|].
  assert (T0 : 0 < term m). { unfold term. apply Rmult_lt_0_compat; [apply poisson_pos; lra|apply lt_0_INR; lia]. }
  pose proof (term_close m) as [TC _]. assert (E10 : / 10 ^ 10 <= 1 / 2). { replace (10 ^ 10) with 10000000000 by ring. lra. }
  assert (T : 0 < term' m) by nra.
  assert (Q : 0 < term' m / s) by (unfold Rdiv; apply Rmult_lt_0_compat; [exact T|now apply Rinv_0_lt_compat]).
  rewrite Rabs_pos_eq in H by lra. unfold log10, precision_digits in H. assert (L10 : 0 < ln 10) by (rewrite <- ln_1; apply ln_increasing; lra).
  assert (LN : ln (term' m / s) < - (15 * ln 10)).
  { apply (Rmult_lt_reg_r (/ ln 10)); [now apply Rinv_0_lt_compat|]. unfold Rdiv in H at 1. replace (- (15 * ln 10) * / ln 10) with (-15) by (field; lra). lra. }
  assert (E : ln (/ 10 ^ 15) = - (15 * ln 10)). { rewrite ln_Rinv by (apply pow_lt; lra). f_equal. rewrite ln_pow by lra. cbn. lra. }
  rewrite <- E in LN. apply ln_lt_inv in LN; [|exact Q|apply Rinv_0_lt_compat, pow_lt; lra].
  assert (term' m <= / 10 ^ 15 * s).
  { apply (Rmult_le_reg_r (/ s)); [now apply Rinv_0_lt_compat|]. rewrite Rmult_assoc, Rinv_r by lra. unfold Rdiv in LN. lra. }
  nra.
Qed.
Lemma all_loop_close steps : forall m s t, (m + steps = n)%nat -> 0 <= t -> Rabs (s - t) <= / 10 ^ 10 * t ->
  let r := gn_loop x n steps m s in let total := t + rs steps (fun i => term (m + i)) in Rabs (r - total) <= 2 * / 10 ^ 10 * total.
Proof.
  assert (E15 : 0 < / 10 ^ 15 <= / 100000 * / 10 ^ 10). { split; [apply Rinv_0_lt_compat, pow_lt; lra|]. replace (10 ^ 15) with (100000 * 10 ^ 10) by ring. rewrite Rinv_mult. lra. }
  assert (E10 : 0 < / 10 ^ 10 <= 1 / 2). { split; [apply Rinv_0_lt_compat, pow_lt; lra|]. replace (10 ^ 10) with 10000000000 by ring. lra. }
  set (e := / 10 ^ 10) in *. set (f := / 10 ^ 15) in *.
  induction steps as [|k IH]; intros m s t Hm Ht C; cbn [gn_loop]; cbv zeta.
  - rewrite rs_0, Rplus_0_r. nra.
  - fold (term' m). pose proof (all_term_nonneg m) as T. rewrite rs_first, Nat.add_0_r.
    rewrite (rs_ext k _ (fun i => term (S m + i))) by (intros; f_equal; lia).
    pose proof (term_close m) as TC. fold e in TC. pose proof (abs_bounds _ _ _ C) as CB.
    destruct (gn_stop x m (term' m) (s + term' m)) eqn:E.
    + apply all_stop_small in E; [|lia]. destruct E as (E1 & E2 & E3). fold f in E3. pose proof (all_tail_small k m E2) as T2.
      set (tail := rs k (fun i => term (S m + i))) in *.
      assert (0 <= tail) by (apply rs_nonneg; intros; apply all_term_nonneg).
      assert (term m <= 4 * f * (t + term m)) by nra. apply Rabs_le. nra.
    + rewrite <- Rplus_assoc. apply (IH (S m) (s + term' m) (t + term m)); [lia|lra|]. apply Rabs_le. lra.
Qed.
Lemma gn_close_all : Rabs (gn x n - poisson_deficit x n) <= 2 * / 10 ^ 10 * poisson_deficit x n.
Proof.
  assert (E : poisson_deficit x n = 0 + rs n (fun i => term (0 + i))).
  { rewrite Rplus_0_l. unfold poisson_deficit. apply rs_ext. intros m Hm. cbn [Nat.add]. unfold term. now rewrite minus_INR by lia. }
  rewrite E. unfold gn. apply all_loop_close; [lia|lra|]. rewrite Rminus_0_r, Rabs_R0. lra.
Qed.
End All_n.
Lemma deficit_range x n : 0 <= x -> 0 <= poisson_deficit x n <= INR n.
Proof.
  intros Hx. split.
  - apply rs_nonneg. intros m Hm. pose proof (poisson_nonneg x m Hx). assert (INR m <= INR n) by (apply le_INR; lia). nra.
  - rewrite <- (deficit_zero n). destruct (Rle_lt_or_eq_dec 0 x Hx) as [P|P]; [|rewrite <- P; lra].
    destruct (MVT_cor2 (fun y => poisson_deficit y n) (fun y => - cdf n y) 0 x P) as (c & E & Hc); [intros; apply deficit_derive|].
    assert (0 <= cdf n c) by (apply rs_nonneg; intros; apply poisson_nonneg; lra). nra.
Qed.
Lemma h_close_all k n td tb tau : 0 < tau -> 0 < tb ->
  Rabs (h_term k n td tb tau - time_left k n td tb tau) <= 2 * / 10 ^ 10 * (tau / tb * INR n).
Proof.
  intros Ht Hb. unfold h_term. cbv zeta. pose proof (Rinv_0_lt_compat _ Ht) as It. pose proof (Rinv_0_lt_compat _ Hb) as Ib.
  assert (E10 : 0 < / 10 ^ 10) by (apply Rinv_0_lt_compat, pow_lt; lra). assert (Q : 0 < tau / tb) by (unfold Rdiv; nra). pose proof (pos_INR n) as Pn.
  destruct (Rlt_dec (INR k * tb - INR n * td) 0) as [L|L].
  - unfold time_left. cbv zeta. destruct (Rlt_dec _ 0) as [_|N]; [|exfalso; apply N, neg_div; [nra|exact Ht]].
    rewrite Rminus_0_r, Rabs_R0. nra.
  - assert (F : 0 <= INR k * tb - INR n * td) by lra. rewrite time_left_excess by assumption. set (x := (INR k * tb - INR n * td) / tau).
    assert (Hx : 0 <= x) by (unfold x, Rdiv; apply Rmult_le_pos; lra). pose proof (gn_close_all x n Hx) as G. pose proof (deficit_range x n Hx) as D.
    unfold excess. replace (INR k - INR n * (td + tau) / tb + tau / tb * gn x n) with (tau / tb * (x - INR n + gn x n)) by (unfold x; field; lra).
    replace (tau / tb * (x - INR n + gn x n) - tau / tb * (x - INR n + poisson_deficit x n)) with (tau / tb * (gn x n - poisson_deficit x n)) by ring.
    rewrite Rabs_mult, (Rabs_pos_eq (tau / tb)) by lra. replace (2 * / 10 ^ 10 * (tau / tb * INR n)) with (tau / tb * (2 * / 10 ^ 10 * INR n)) by ring.
    apply Rmult_le_compat_l; [lra|]. eapply Rle_trans; [exact G|]. apply Rmult_le_compat_l; lra.
Qed.
Lemma a_zero_complete r0 td tb tau M : 0 < td -> 0 < tb -> (floor_nat (tb / td * 2 + 1) <= M)%nat -> (1 <= M)%nat ->
  a_single_k 0 r0 td tb tau = r0 * tb * (1 + 2 * rs M (fun i => h_term 1 (S i) td tb tau)).
Proof. intros. change (a_single_k 0 r0 td tb tau) with (a0 r0 td tb tau). now apply a0_complete. Qed.
