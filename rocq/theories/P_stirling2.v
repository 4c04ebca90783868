(* P_stirling2.v: Stirling's series with a bound on its error *)
From Verif Require Import P_stirling.
From Coq Require Import Reals List Arith Lra Lia.
Import ListNotations.
Open Scope R_scope.

Lemma increasing_from_0 (f f' : R -> R) (b : R) : 0 <= b -> (forall c, 0 <= c <= b -> derivable_pt_lim f c (f' c)) -> (forall c, 0 <= c <= b -> 0 <= f' c) -> f 0 <= f b.
Proof.
  intros B D P. destruct (Req_dec b 0) as [->|N]; [lra|]. destruct (MVT_cor2 f f' 0 b ltac:(lra) D) as (c & E & C).
  pose proof (P c ltac:(lra)). assert (0 <= f' c * (b - 0)) by (apply Rmult_le_pos; lra). lra.
Qed.
(* logarithm of (1 + t) / (1 - t) *)
Definition atanh2 (t : R) : R := ln (1 + t) - ln (1 - t).
Lemma atanh2_derive t : 0 <= t < 1 -> derivable_pt_lim atanh2 t (2 / (1 - t * t)).
Proof.
  intros T. replace (2 / (1 - t * t)) with (/ (1 + t) * (0 + 1) - / (1 - t) * (0 - 1)) by (field; nra).
  apply (derivable_pt_lim_minus (fun y => ln (1 + y)) (fun y => ln (1 - y))).
  - apply (derivable_pt_lim_comp (fun y => 1 + y) ln); [|apply derivable_pt_lim_ln; lra].
    apply (derivable_pt_lim_plus (fun _ => 1) id); [apply derivable_pt_lim_const|apply derivable_pt_lim_id].
  - apply (derivable_pt_lim_comp (fun y => 1 - y) ln); [|apply derivable_pt_lim_ln; lra].
    apply (derivable_pt_lim_minus (fun _ => 1) id); [apply derivable_pt_lim_const|apply derivable_pt_lim_id].
Qed.
Lemma pow_derive n t : derivable_pt_lim (fun y => y ^ S n) t (INR (S n) * t ^ n).
Proof. pose proof (derivable_pt_lim_pow t (S n)) as H. cbn [pred] in H. exact H. Qed.
Definition atanh_poly (t : R) : R := 2 * t + 2 / 3 * t ^ 3 + 2 / 5 * t ^ 5.
Lemma atanh_poly_derive t : derivable_pt_lim atanh_poly t (2 + 2 * t ^ 2 + 2 * t ^ 4).
Proof.
  replace (2 + 2 * t ^ 2 + 2 * t ^ 4) with (2 * 1 + 2 / 3 * (INR 3 * t ^ 2) + 2 / 5 * (INR 5 * t ^ 4)) by (replace (INR 3) with 3 by (cbn; lra); replace (INR 5) with 5 by (cbn; lra); field).
  apply (derivable_pt_lim_plus (fun y => 2 * y + 2 / 3 * y ^ 3) (fun y => 2 / 5 * y ^ 5)).
  - apply (derivable_pt_lim_plus (fun y => 2 * y) (fun y => 2 / 3 * y ^ 3)); [apply (derivable_pt_lim_scal id), derivable_pt_lim_id|apply (derivable_pt_lim_scal (fun y => y ^ 3)), pow_derive].
  - apply (derivable_pt_lim_scal (fun y => y ^ 5)), pow_derive.
Qed.
Lemma atanh_lower t : 0 <= t < 1 -> atanh_poly t <= atanh2 t.
Proof.
  intros T. pose proof (increasing_from_0 (fun y => atanh2 y - atanh_poly y) (fun y => 2 / (1 - y * y) - (2 + 2 * y ^ 2 + 2 * y ^ 4)) t ltac:(lra)) as H.
  assert (atanh2 0 - atanh_poly 0 <= atanh2 t - atanh_poly t).
  { apply H.
    - intros c C. apply (derivable_pt_lim_minus atanh2 atanh_poly); [apply atanh2_derive; lra|apply atanh_poly_derive].
    - intros c C. assert (0 < 1 - c * c) by nra. replace (2 / (1 - c * c) - (2 + 2 * c ^ 2 + 2 * c ^ 4)) with (2 * c ^ 6 / (1 - c * c)) by (field; lra).
      apply Rmult_le_pos; [|left; apply Rinv_0_lt_compat; assumption]. pose proof (pow_le c 6 ltac:(lra)). lra. }
  unfold atanh2 in H0 at 1. unfold atanh_poly in H0 at 1. rewrite Rplus_0_r, Rminus_0_r in H0. cbn [pow] in H0. lra.
Qed.
Lemma atanh_upper t : 0 <= t < 1 -> atanh2 t <= atanh_poly t + 2 * t ^ 7 / (1 - t * t).
Proof.
  intros T. assert (Q : 0 < 1 - t * t) by nra.
  destruct (Req_dec t 0) as [->|N].
  { unfold atanh2, atanh_poly. rewrite Rplus_0_r, Rminus_0_r. cbn [pow]. replace (2 * (0 * (0 * (0 * (0 * (0 * (0 * (0 * 1))))))) / (1 - 0 * 0)) with 0 by field. lra. }
  destruct (MVT_cor2 (fun y => atanh2 y - atanh_poly y) (fun y => 2 / (1 - y * y) - (2 + 2 * y ^ 2 + 2 * y ^ 4)) 0 t ltac:(lra)) as (c & E & C).
  { intros c C. apply (derivable_pt_lim_minus atanh2 atanh_poly); [apply atanh2_derive; lra|apply atanh_poly_derive]. }
  assert (Z : atanh2 0 - atanh_poly 0 = 0) by (unfold atanh2, atanh_poly; rewrite Rplus_0_r, Rminus_0_r; cbn [pow]; lra).
  assert (0 < 1 - c * c) by nra.
  assert (B : 2 / (1 - c * c) - (2 + 2 * c ^ 2 + 2 * c ^ 4) <= 2 * t ^ 6 / (1 - t * t)).
  { replace (2 / (1 - c * c) - (2 + 2 * c ^ 2 + 2 * c ^ 4)) with (2 * c ^ 6 * / (1 - c * c)) by (field; lra). unfold Rdiv.
    apply Rmult_le_compat; [pose proof (pow_le c 6 ltac:(lra)); lra|left; apply Rinv_0_lt_compat; assumption| |apply Rinv_le_contravar; nra].
    pose proof (pow_incr c t 6 ltac:(lra)). lra. }
  apply (Rmult_le_compat_r t) in B; [|lra]. replace (2 * t ^ 6 / (1 - t * t) * t) with (2 * t ^ 7 / (1 - t * t)) in B by (field; lra). rewrite Rminus_0_r in E. lra.
Qed.

(* logarithm of n! without its main part *)
Definition theta (n : nat) : R := ln (INR (fact n)) + INR n - (INR n + 1 / 2) * ln (INR n).
Definition rest (n : nat) : R := / INR n / 12 - (/ INR n) ^ 3 / 360.
Definition err (n : nat) : R := theta n - rest n - 1 / 2 * ln (2 * PI).
Lemma theta_step n : (1 <= n)%nat -> theta n - theta (S n) = (INR n + 1 / 2) * (ln (INR n + 1) - ln (INR n)) - 1.
Proof.
  intros N. assert (In : 0 < INR n) by (apply lt_0_INR; lia). unfold theta. rewrite fact_simpl, mult_INR, S_INR. rewrite ln_mult by (try lra; apply fact_pos). ring.
Qed.
Lemma theta_step_t n : (1 <= n)%nat -> let t := / (2 * INR n + 1) in theta n - theta (S n) = atanh2 t / (2 * t) - 1.
Proof.
  intros N t. assert (In : 0 < INR n) by (apply lt_0_INR; lia). rewrite (theta_step n N). assert (T : 0 < t) by (apply Rinv_0_lt_compat; lra).
  assert (E1 : 1 + t = 2 * t * (INR n + 1)) by (unfold t; field; lra). assert (E2 : 1 - t = 2 * t * INR n) by (unfold t; field; lra).
  unfold atanh2. rewrite E1, E2. rewrite (ln_mult (2 * t) (INR n + 1)), (ln_mult (2 * t) (INR n)) by lra.
  replace (INR n + 1 / 2) with (/ (2 * t)) by (unfold t; field; lra). unfold Rdiv. ring.
Qed.
Lemma err_step n : (1 <= n)%nat -> 0 <= err n - err (S n) <= 1 / 250 * ((/ INR n) ^ 5 - (/ INR (S n)) ^ 5).
Proof.
  intros N. assert (In : 1 <= INR n) by (apply (le_INR 1); exact N).
  pose proof (theta_step_t n N) as Th. cbv zeta in Th. set (t := / (2 * INR n + 1)) in *.
  assert (T : 0 < t < 1). { unfold t. split; [apply Rinv_0_lt_compat; lra|]. rewrite <- Rinv_1. apply Rinv_lt_contravar; lra. }
  pose proof (atanh_lower t ltac:(lra)) as Lo. pose proof (atanh_upper t ltac:(lra)) as Up.
  set (p := INR n * (INR n + 1)). assert (P : 2 <= p) by (unfold p; nra).
  assert (Et : t * t = / (4 * p + 1)) by (unfold t, p; field; split; nra).
  assert (R0 : rest n - rest (S n) = / p / 12 - / p ^ 2 / 120 - / p ^ 3 / 360).
  { unfold rest, p. rewrite S_INR. field. lra. }
  assert (B1 : (atanh_poly t) / (2 * t) = 1 + t * t / 3 + (t * t) * (t * t) / 5) by (unfold atanh_poly; field; lra).
  assert (B2 : 2 * t ^ 7 / (1 - t * t) / (2 * t) = (t * t) * (t * t) * (t * t) / (1 - t * t)) by (field; nra).
  assert (Lo' : t * t / 3 + (t * t) * (t * t) / 5 <= theta n - theta (S n)).
  { rewrite Th. apply (Rmult_le_compat_r (/ (2 * t))) in Lo; [|left; apply Rinv_0_lt_compat; lra]. unfold Rdiv in *. lra. }
  assert (Up' : theta n - theta (S n) <= t * t / 3 + (t * t) * (t * t) / 5 + (t * t) * (t * t) * (t * t) / (1 - t * t)).
  { rewrite Th. apply (Rmult_le_compat_r (/ (2 * t))) in Up; [|left; apply Rinv_0_lt_compat; lra]. rewrite Rmult_plus_distr_r in Up. unfold Rdiv in *. lra. }
  rewrite Et in Lo', Up'.
  assert (D : err n - err (S n) = (theta n - theta (S n)) - (rest n - rest (S n))) by (unfold err; ring). rewrite D, R0.
  assert (A1 : / (4 * p + 1) / 3 + / (4 * p + 1) * / (4 * p + 1) / 5 - (/ p / 12 - / p ^ 2 / 120 - / p ^ 3 / 360) = (10 * p ^ 2 + 11 * p + 1) * / (360 * p ^ 3 * (4 * p + 1) ^ 2)).
  { field. lra. }
  assert (W : 0 < / (360 * p ^ 3 * (4 * p + 1) ^ 2)). { apply Rinv_0_lt_compat. repeat apply Rmult_lt_0_compat; try lra; apply pow_lt; lra. }
  split.
  - assert (0 <= (10 * p ^ 2 + 11 * p + 1) * / (360 * p ^ 3 * (4 * p + 1) ^ 2)) by (apply Rmult_le_pos; nra). lra.
  - assert (U : / p ^ 3 <= 1 / 5 * ((/ INR n) ^ 5 - (/ INR (S n)) ^ 5)).
    { rewrite S_INR. replace ((/ INR n) ^ 5 - (/ (INR n + 1)) ^ 5) with ((5 * p ^ 2 + 5 * p + 1) * / p ^ 5) by (unfold p; field; lra).
      replace (/ p ^ 3) with (p ^ 2 * / p ^ 5) by (field; lra). assert (0 < / p ^ 5) by (apply Rinv_0_lt_compat, pow_lt; lra). nra. }
    assert (V : (10 * p ^ 2 + 11 * p + 1) * / (360 * p ^ 3 * (4 * p + 1) ^ 2) + / (4 * p + 1) * / (4 * p + 1) * / (4 * p + 1) / (1 - / (4 * p + 1)) <= 1 / 50 * / p ^ 3).
    { replace (/ (4 * p + 1) * / (4 * p + 1) * / (4 * p + 1) / (1 - / (4 * p + 1))) with (90 * p ^ 2 * / (360 * p ^ 3 * (4 * p + 1) ^ 2)) by (field; lra).
      replace (1 / 50 * / p ^ 3) with (36 / 5 * (4 * p + 1) ^ 2 * / (360 * p ^ 3 * (4 * p + 1) ^ 2)) by (field; lra). nra. }
    lra.
Qed.
Lemma err_range n k : (1 <= n)%nat -> 0 <= err n - err (n + k) <= 1 / 250 * ((/ INR n) ^ 5 - (/ INR (n + k)) ^ 5).
Proof.
  intros N. induction k as [|k IH]; [rewrite Nat.add_0_r; lra|]. replace (n + S k)%nat with (S (n + k)) by lia. pose proof (err_step (n + k) ltac:(lia)). lra.
Qed.
Lemma inv_pow5 n : (1 <= n)%nat -> 0 <= (/ INR n) ^ 5 <= / INR n.
Proof.
  intros N. assert (In : 1 <= INR n) by (apply (le_INR 1); exact N). assert (I0 : 0 < / INR n) by (apply Rinv_0_lt_compat; lra).
  assert (I1 : / INR n <= 1) by (rewrite <- Rinv_1; apply Rinv_le_contravar; lra). split; [apply pow_le; lra|]. cbn [pow].
  assert (0 <= / INR n * / INR n <= 1) by nra. assert (0 <= / INR n * / INR n * (/ INR n * / INR n) <= 1) by nra. nra.
Qed.
Lemma log_central n : (1 <= n)%nat -> 2 * ln (central n) = - 2 * (2 * theta n - theta (2 * n)) - ln (INR n) + ln 2.
Proof.
  intros N. assert (In : 0 < INR n) by (apply lt_0_INR; lia). unfold central, theta. rewrite mult_INR. replace (INR 2) with 2 by reflexivity.
  pose proof (fact_pos n). pose proof (fact_pos (2 * n)). assert (0 < 4 ^ n) by (apply pow_lt; lra).
  assert (Q : 0 < INR (fact n) * INR (fact n)) by nra.
  unfold Rdiv. rewrite (ln_mult (INR (fact (2 * n)))), ln_Rinv, (ln_mult (4 ^ n)), (ln_mult (INR (fact n))), (ln_mult 2 (INR n)); try assumption; try lra; [|nra|apply Rinv_0_lt_compat; nra].
  replace (ln (4 ^ n)) with (2 * INR n * ln 2); [field|].
  replace 4 with (2 * 2) by lra. rewrite Rpow_mult_distr, <- pow_add. rewrite <- (Rpower_pow (n + n) 2) by lra. unfold Rpower. rewrite ln_exp, plus_INR. ring.
Qed.
Lemma theta_double n : (1 <= n)%nat -> 0 <= 2 * theta n - theta (2 * n) - 1 / 2 * ln (2 * PI) <= / INR n.
Proof.
  intros N. assert (In : 1 <= INR n) by (apply (le_INR 1); exact N). pose proof PI_RGT_0 as P. pose proof (central_pos n) as C. pose proof (central_bounds n N) as [B1 B2].
  pose proof (log_central n N) as L. assert (C2 : 0 < central n * central n) by nra.
  assert (E : ln (PI / 2 * (central n * central n)) = ln (2 * PI) - 2 * ln 2 + 2 * ln (central n)).
  { rewrite ln_mult by lra. rewrite (ln_mult (central n)) by lra. unfold Rdiv. rewrite ln_mult, ln_Rinv by lra. rewrite (ln_mult 2 PI) by lra. ring. }
  assert (U : ln (PI / 2 * (central n * central n)) <= - (ln 2 + ln (INR n))).
  { rewrite <- ln_mult, <- ln_Rinv by lra. destruct (Rle_lt_or_eq_dec _ _ B2) as [Q|Q]; [left; apply ln_increasing; [nra|exact Q]|right; f_equal; exact Q]. }
  assert (V : - ln (2 * INR n + 1) <= ln (PI / 2 * (central n * central n))).
  { rewrite <- ln_Rinv by lra. assert (0 < / (2 * INR n + 1)) by (apply Rinv_0_lt_compat; lra). destruct (Rle_lt_or_eq_dec _ _ B1) as [Q|Q]; [left; apply ln_increasing; [assumption|exact Q]|right; f_equal; exact Q]. }
  assert (W : ln (2 * INR n + 1) <= ln 2 + ln (INR n) + / INR n).
  { replace (2 * INR n + 1) with (2 * INR n * (1 + / INR n / 2)) by (field; lra). assert (I0 : 0 < / INR n) by (apply Rinv_0_lt_compat; lra). rewrite ln_mult, ln_mult by lra.
    pose proof (exp_ineq1_le (/ INR n / 2)) as X. assert (ln (1 + / INR n / 2) <= / INR n / 2). { rewrite <- (ln_exp (/ INR n / 2)) at 2. destruct (Rle_lt_or_eq_dec _ _ X) as [Q|Q]; [left; apply ln_increasing; [lra|exact Q]|right; f_equal; exact Q]. } lra. }
  rewrite E in U, V. rewrite L in U, V. split; lra.
Qed.
Lemma err_small n : (1 <= n)%nat -> Rabs (err n) <= 2 * / INR n.
Proof.
  intros N. assert (In : 1 <= INR n) by (apply (le_INR 1); exact N). pose proof (theta_double n N) as T. pose proof (err_range n n N) as [E0 E1]. pose proof (inv_pow5 n N) as [Q0 Q1].
  replace (n + n)%nat with (2 * n)%nat in E0, E1 by lia. pose proof (inv_pow5 (2 * n) ltac:(lia)) as [Q2 _].
  assert (I0 : 0 < / INR n) by (apply Rinv_0_lt_compat; lra). assert (I1 : / INR n <= 1) by (rewrite <- Rinv_1; apply Rinv_le_contravar; lra).
  assert (R2 : 2 * rest n - rest (2 * n) = / INR n / 8 - (/ INR n) ^ 3 * (15 / 2880)). { unfold rest. rewrite mult_INR. replace (INR 2) with 2 by reflexivity. field. lra. }
  assert (C0 : 0 <= (/ INR n) ^ 3 <= / INR n). { split; [apply pow_le; lra|]. cbn [pow]. assert (0 <= / INR n * / INR n <= 1) by nra. nra. }
  assert (X : err n = (2 * theta n - theta (2 * n) - 1 / 2 * ln (2 * PI)) - (2 * rest n - rest (2 * n)) - (err n - err (2 * n))) by (unfold err; ring).
  rewrite R2 in X. apply Rabs_le. lra.
Qed.
Lemma err_bound n : (1 <= n)%nat -> 0 <= err n <= 1 / 250 * (/ INR n) ^ 5.
Proof.
  intros N. assert (G : forall e, 0 < e -> - e <= err n <= 1 / 250 * (/ INR n) ^ 5 + e).
  { intros e He. destruct (archimed_cor1 (e / 2) ltac:(lra)) as (k & K1 & K2). pose proof (err_range n k N) as [A B].
    assert (L : (1 <= n + k)%nat) by lia. pose proof (err_small (n + k) L) as S.
    assert (/ INR (n + k) <= / INR k) by (apply Rinv_le_contravar; [apply lt_0_INR; lia|apply le_INR; lia]).
    pose proof (inv_pow5 (n + k) L) as [Q _]. assert (- (2 * / INR (n + k)) <= err (n + k) <= 2 * / INR (n + k)). { destruct (Rcase_abs (err (n + k))); [rewrite Rabs_left in S by assumption|rewrite Rabs_right in S by assumption]; assert (0 < / INR (n + k)) by (apply Rinv_0_lt_compat, lt_0_INR; lia); lra. }
    lra. }
  split.
  - destruct (Rle_lt_dec 0 (err n)) as [|H]; [assumption|]. pose proof (G (- err n / 2) ltac:(lra)). lra.
  - destruct (Rle_lt_dec (err n) (1 / 250 * (/ INR n) ^ 5)) as [|H]; [assumption|]. pose proof (G ((err n - 1 / 250 * (/ INR n) ^ 5) / 2) ltac:(lra)). lra.
Qed.
Lemma log_fact n : (1 <= n)%nat -> ln (INR (fact n)) = (INR n + 1 / 2) * ln (INR n) - INR n + 1 / 2 * ln (2 * PI) + rest n + err n.
Proof. intros N. unfold err, theta. ring. Qed.
