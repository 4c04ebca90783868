(* P_chi2.v: proofs about log probabilities. *)
From Verif Require Import Np Cplx M_stats S_stats M_chi2 S_chi2 P_stats.
From Coq Require Import QArith Qreals Reals List Arith Lra Lia.
Import ListNotations.
Open Scope R_scope.

(* ---- the asymptotic series ---- *)
Fixpoint fall (a : R) (k : nat) : R := match k with O => 1 | S k => fall a k * (a - INR (S k)) end.
Definition u (a z : R) (k : nat) : R := fall a k / z ^ k.
Definition usum (a z : R) (k : nat) : R := rs (S k) (u a z).
Lemma u_0 a z : u a z 0 = 1.
Proof. unfold u. cbn. field. Qed.
Lemma u_S a z k : z <> 0 -> u a z (S k) = u a z k * ((a - INR (S k)) / z).
Proof. intros H. unfold u. cbn [fall pow]. field. split; [assumption|now apply pow_nonzero]. Qed.
Lemma loop_step fuel a z k : inc_loop (S fuel) a z (usum a z k) (u a z k) (fall a k) (S k) =
  if Rlt_dec (1 / 10 ^ 15) (Rabs (u a z k)) then inc_loop fuel a z (usum a z (S k)) (u a z (S k)) (fall a (S k)) (S (S k)) else Ok (usum a z k).
Proof.
  cbn [inc_loop]. destruct (Rlt_dec _ _); [|reflexivity]. unfold usum at 2. rewrite rs_S. fold (usum a z k). reflexivity.
Qed.
Lemma loop_start fuel a z : inc_loop fuel a z 1 1 1 1 = inc_loop fuel a z (usum a z 0) (u a z 0) (fall a 0) 1.
Proof. unfold usum, rs. cbn [seq map rlsum fold_right fall]. rewrite u_0, Rplus_0_r. reflexivity. Qed.
Lemma loop_forever a z : (forall k, 1 / 10 ^ 15 < Rabs (u a z k)) -> forall fuel k, inc_loop fuel a z (usum a z k) (u a z k) (fall a k) (S k) = Err OutOfFuel.
Proof.
  intros H. induction fuel as [|fuel IH]; intros k; [reflexivity|]. rewrite loop_step.
  destruct (Rlt_dec (1 / 10 ^ 15) (Rabs (u a z k))) as [_|C]; [apply IH|]. now elim C.
Qed.
Lemma loop_ends a z k j : Rabs (u a z (k + j)) <= 1 / 10 ^ 15 -> forall fuel, (j < fuel)%nat ->
  exists i, (i <= j)%nat /\ Rabs (u a z (k + i)) <= 1 / 10 ^ 15 /\ inc_loop fuel a z (usum a z k) (u a z k) (fall a k) (S k) = Ok (usum a z (k + i)).
Proof.
  revert k. induction j as [|j IH]; intros k H fuel Hf; destruct fuel as [|fuel]; try lia; rewrite loop_step.
  - exists 0%nat. rewrite Nat.add_0_r in *. split; [lia|]. split; [exact H|]. destruct (Rlt_dec _ _); [lra|reflexivity].
  - destruct (Rlt_dec (1 / 10 ^ 15) (Rabs (u a z k))) as [L|L].
    + destruct (IH (S k)) with (fuel := fuel) as (i & I1 & I2 & I3); [replace (S k + j)%nat with (k + S j)%nat by lia; exact H|lia|].
      exists (S i). replace (k + S i)%nat with (S k + i)%nat by lia. split; [lia|]. split; assumption.
    + exists 0%nat. rewrite Nat.add_0_r. split; [lia|]. split; [lra|reflexivity].
Qed.
(* whole numbers: the terms vanish from n on, and decrease *)
Section Whole.
Variables (n : nat) (z : R).
Hypothesis Hn : (0 < n)%nat.
Hypothesis Hz : 2 * INR n <= z.
Let a := INR n.
Lemma n_pos : 1 <= INR n.
Proof. apply (le_INR 1). lia. Qed.
Lemma z_pos : 0 < z.
Proof. pose proof n_pos. lra. Qed.
Lemma u_zero k : (n <= k)%nat -> u a z k = 0.
Proof.
  assert (F : forall k, (n <= k)%nat -> fall a k = 0).
  { induction k0 as [|k0 IH]; intros H; [lia|]. cbn [fall]. destruct (Nat.eq_dec n (S k0)) as [E|E]; [unfold a; rewrite E; ring|].
    rewrite IH by lia. ring. }
  intros H. unfold u. rewrite F by exact H. unfold Rdiv. ring.
Qed.
Lemma u_nonneg k : 0 <= u a z k.
Proof.
  destruct (Nat.le_gt_cases n k) as [H|H]; [rewrite u_zero by exact H; lra|].
  induction k as [|k IH]; [rewrite u_0; lra|]. rewrite u_S by (pose proof z_pos; lra). apply Rmult_le_pos; [apply IH; lia|].
  apply Rmult_le_pos; [|left; apply Rinv_0_lt_compat, z_pos]. unfold a. apply lt_INR in H. lra.
Qed.
Lemma u_half k : 2 * u a z (S k) <= u a z k.
Proof.
  pose proof (u_nonneg k) as P. rewrite u_S by (pose proof z_pos; lra). pose proof z_pos as Z.
  assert (B : (a - INR (S k)) / z <= 1 / 2).
  { apply (Rmult_le_reg_r z); [exact Z|]. unfold Rdiv at 1. rewrite Rmult_assoc, Rinv_l by lra. unfold a. pose proof (pos_INR (S k)). lra. }
  nra.
Qed.
Lemma tail_le k j : rs (S k + j) (u a z) - rs (S k) (u a z) + u a z (k + j) <= u a z k.
Proof.
  induction j as [|j IH]; [rewrite !Nat.add_0_r; lra|]. replace (S k + S j)%nat with (S (S k + j)) by lia. rewrite rs_S.
  replace (k + S j)%nat with (S (k + j)) by lia. pose proof (u_half (k + j)). replace (S k + j)%nat with (S (k + j)) by lia.
  replace (S k + j)%nat with (S (k + j)) in IH by lia. lra.
Qed.
Lemma rs_mono m k : (m <= k)%nat -> rs m (u a z) <= rs k (u a z).
Proof. intros H. induction H as [|k H IH]; [lra|]. rewrite rs_S. pose proof (u_nonneg k). lra. Qed.
Lemma rs_stop k : (n <= k)%nat -> rs k (u a z) = rs n (u a z).
Proof. intros H. induction H as [|k H IH]; [reflexivity|]. rewrite rs_S, IH, u_zero by exact H. ring. Qed.
Lemma loop_value fuel : (n < fuel)%nat -> exists x, inc_loop fuel a z 1 1 1 1 = Ok x /\ 1 <= x /\ rs n (u a z) - 1 / 10 ^ 15 <= x <= rs n (u a z).
Proof.
  intros Hf. rewrite loop_start. destruct (loop_ends a z 0 n) with (fuel := fuel) as (i & I1 & I2 & I3); [|exact Hf|].
  { cbn [plus]. rewrite u_zero by lia. rewrite Rabs_R0. lra. }
  cbn [plus] in *. rewrite I3. eexists. split; [reflexivity|]. unfold usum. split; [|split].
  - pose proof (rs_mono 1 (S i) ltac:(lia)) as M. unfold rs in M at 1. cbn [seq map rlsum fold_right] in M. rewrite u_0 in M. lra.
  - pose proof (tail_le i n) as T. rewrite (rs_stop (S i + n)) in T by lia. rewrite Rabs_right in I2 by (apply Rle_ge, u_nonneg).
    pose proof (u_nonneg (i + n)). lra.
  - rewrite <- (rs_stop (S i + n)) by lia. apply rs_mono. lia.
Qed.
(* the sum is the tail of the chi squared distribution *)
Lemma fall_fact k : (k < n)%nat -> fall a k * INR (fact (n - 1 - k)) = INR (fact (n - 1)).
Proof.
  induction k as [|k IH]; intros H; [cbn [fall]; rewrite Nat.sub_0_r; ring|]. rewrite <- IH by lia. cbn [fall].
  replace (n - 1 - k)%nat with (S (n - 1 - S k)) by lia. rewrite fact_simpl, mult_INR.
  replace (INR (S (n - 1 - S k))) with (a - INR (S k)); [ring|]. unfold a. replace (S (n - 1 - S k)) with (n - S k)%nat by lia. rewrite minus_INR by lia. reflexivity.
Qed.
Lemma rs_rev m f : rs m f = rs m (fun j => f (m - 1 - j)%nat).
Proof.
  induction m as [|m IH]; [reflexivity|]. rewrite rs_S, rs_first, IH. replace (S m - 1 - 0)%nat with m by lia. rewrite Rplus_comm. f_equal.
  apply rs_ext. intros j Hj. f_equal. lia.
Qed.
Lemma sum_erlang : z ^ (n - 1) * exp (- z) * rs n (u a z) = INR (fact (n - 1)) * erlang n z.
Proof.
  unfold erlang. pose proof z_pos as Z.
  assert (E : z ^ (n - 1) * rs n (u a z) = INR (fact (n - 1)) * rs n (fun j => z ^ j / INR (fact j))).
  { rewrite (rs_rev n (fun j => z ^ j / INR (fact j))).
    assert (G : forall m, (m <= n)%nat -> z ^ (n - 1) * rs m (u a z) = INR (fact (n - 1)) * rs m (fun j => z ^ (n - 1 - j) / INR (fact (n - 1 - j)))).
    { induction m as [|m IH]; intros H; [unfold rs; cbn; ring|]. rewrite !rs_S, !Rmult_plus_distr_l, IH by lia. f_equal.
      rewrite <- (fall_fact m) by lia. unfold u. replace (n - 1)%nat with ((n - 1 - m) + m)%nat at 1 by lia. rewrite pow_add. field.
      split; [apply INR_fact_neq_0|apply pow_nonzero; lra]. }
    apply G. lia. }
  rewrite Rmult_assoc, (Rmult_comm (exp (- z))), <- Rmult_assoc, E. ring.
Qed.
Lemma incomplete_main fuel : (n < fuel)%nat -> exists l, log_asymptotic_incomplete_gamma fuel a z = Ok l /\
  (1 - 1 / 10 ^ 15) * (INR (fact (n - 1)) * erlang n z) <= exp l <= INR (fact (n - 1)) * erlang n z.
Proof.
  intros Hf. destruct (loop_value fuel Hf) as (x & E & X1 & X2 & X3). unfold log_asymptotic_incomplete_gamma. rewrite E. cbn [bind].
  eexists. split; [reflexivity|]. rewrite <- sum_erlang. pose proof z_pos as Z.
  assert (V : exp ((a - 1) * ln z - z + ln x) = z ^ (n - 1) * exp (- z) * x).
  { rewrite exp_plus, exp_ln by lra. unfold Rminus at 1. rewrite exp_plus. f_equal. f_equal. rewrite <- Rpower_pow by exact Z. unfold Rpower. f_equal. f_equal.
    unfold a. rewrite minus_INR by lia. reflexivity. }
  rewrite V. assert (P : 0 < z ^ (n - 1) * exp (- z)) by (apply Rmult_lt_0_compat; [now apply pow_lt|apply exp_pos]).
  split; [|apply Rmult_le_compat_l; lra].
  replace ((1 - 1 / 10 ^ 15) * (z ^ (n - 1) * exp (- z) * rs n (u a z))) with (z ^ (n - 1) * exp (- z) * ((1 - 1 / 10 ^ 15) * rs n (u a z))) by ring.
  apply Rmult_le_compat_l; [lra|]. assert (1 <= rs n (u a z)) by lra. lra.
Qed.
End Whole.

(* ---- three degrees of freedom: the series diverges before its terms are small ---- *)
Fixpoint vq (k : nat) : Q := match k with O => (1 # 60)%Q | S k' => Qred (vq k' * ((2 * Z.of_nat (S k') - 1) # 60))%Q end.
Lemma fall3 k : Rabs (fall (3 / 2) (S k)) / 30 ^ (S k) = Q2R (vq k).
Proof.
  induction k as [|k IH].
  - cbn [fall pow vq]. change (INR 1) with 1. rewrite Rabs_right by lra. unfold Q2R. cbn. lra.
  - cbn [vq]. rewrite (Qeq_eqR _ _ (Qred_correct _)), Q2R_mult, <- IH. change (fall (3 / 2) (S (S k))) with (fall (3 / 2) (S k) * (3 / 2 - INR (S (S k)))).
    rewrite Rabs_mult. change (30 ^ S (S k)) with (30 * 30 ^ S k). pose proof (pos_INR k). rewrite (Rabs_left1 (3 / 2 - _)) by (rewrite !S_INR; lra).
    unfold Q2R. cbn [Qnum Qden]. rewrite minus_IZR, mult_IZR, <- INR_IZR_INZ, !S_INR. field. apply pow_nonzero. lra.
Qed.
Lemma vq_pos k : (0 < vq k)%Q.
Proof.
  induction k as [|k IH]; [reflexivity|]. cbn [vq]. rewrite Qred_correct. apply Qmult_lt_0_compat; [exact IH|]. unfold Qlt. cbn [Qnum Qden]. lia.
Qed.
Lemma vq_down k : (k < 30)%nat -> (vq (S k) <= vq k)%Q.
Proof.
  intros H. cbn [vq]. rewrite Qred_correct. pose proof (vq_pos k) as P. setoid_replace (vq k) with (vq k * 1)%Q at 2 by ring.
  apply Qmult_le_l; [exact P|]. unfold Qle. cbn [Qnum Qden]. lia.
Qed.
Lemma vq_up k : (30 <= k)%nat -> (vq k <= vq (S k))%Q.
Proof.
  intros H. cbn [vq]. rewrite Qred_correct. pose proof (vq_pos k) as P. setoid_replace (vq k) with (vq k * 1)%Q at 1 by ring.
  apply Qmult_le_l; [exact P|]. unfold Qle. cbn [Qnum Qden]. lia.
Qed.
Lemma vq_min k : (vq 30 <= vq k)%Q.
Proof.
  destruct (Nat.le_gt_cases 30 k) as [H|H].
  - induction H as [|k H IH]; [apply Qle_refl|]. eapply Qle_trans; [exact IH|now apply vq_up].
  - assert (G : forall j, (j <= 30)%nat -> (vq 30 <= vq (30 - j))%Q).
    { induction j as [|j IH]; intros Hj; [apply Qle_refl|]. eapply Qle_trans; [apply IH; lia|]. replace (30 - j)%nat with (S (30 - S j)) by lia. apply vq_down. lia. }
    replace k with (30 - (30 - k))%nat by lia. apply G. lia.
Qed.
Lemma u3_large z k : 0 < z <= 30 -> 1 / 10 ^ 15 < Rabs (u (3 / 2) z k).
Proof.
  intros Hz. destruct k as [|k]; [rewrite u_0, Rabs_R1; lra|]. unfold u, Rdiv. rewrite Rabs_mult. assert (Zp : 0 < z ^ S k) by (apply pow_lt; lra).
  rewrite (Rabs_right (/ z ^ S k)) by (apply Rle_ge; left; now apply Rinv_0_lt_compat).
  apply (Rlt_le_trans _ (Rabs (fall (3 / 2) (S k)) / 30 ^ S k)).
  - rewrite fall3. apply (Rlt_le_trans _ (Q2R (vq 30))); [|apply Qle_Rle, vq_min].
    apply (Rle_lt_trans _ (Q2R (1 # 10 ^ 15))); [unfold Q2R; cbn; lra|]. apply Qlt_Rlt. vm_compute. reflexivity.
  - unfold Rdiv. apply Rmult_le_compat_l; [apply Rabs_pos|]. apply Rinv_le_contravar; [exact Zp|]. apply pow_incr. lra.
Qed.
Lemma three_dof logsf fuel chi2 : 45 < chi2 <= 60 -> chi2_logp logsf fuel chi2 3 = Err OutOfFuel.
Proof.
  intros H. unfold chi2_logp. cbn [Nat.ltb Nat.leb]. destruct (Rlt_dec 15 (chi2 / INR 3)) as [_|C].
  2:{ exfalso. apply C. replace (INR 3) with 3 by (cbn; ring). lra. }
  cbn [orb]. unfold log_asymptotic_incomplete_gamma. rewrite loop_start. replace (5 / 10 * INR 3) with (3 / 2) by (cbn; field).
  rewrite loop_forever; [reflexivity|]. intros k. apply u3_large. lra.
Qed.

(* ---- Stirling's series ---- *)
Lemma nondecreasing f f' a b : a < b -> (forall c, a <= c <= b -> derivable_pt_lim f c (f' c)) -> (forall c, a <= c <= b -> 0 <= f' c) -> f a <= f b.
Proof.
  intros H D P. destruct (MVT_cor2 f f' a b H D) as (c & E & B). pose proof (P c ltac:(lra)). nra.
Qed.
Lemma ln_ratio_deriv y : 0 <= y < 1 -> derivable_pt_lim (fun y => ln (1 + y) - ln (1 - y)) y (2 / (1 - y * y)).
Proof.
  intros H. replace (2 / (1 - y * y)) with (/ (1 + y) * (0 + 1) - / (1 - y) * (0 - 1)) by (field; nra).
  apply derivable_pt_lim_minus.
  - apply (derivable_pt_lim_comp (fun y => 1 + y) ln); [|apply derivable_pt_lim_ln; lra].
    apply (derivable_pt_lim_plus (fct_cte 1) id); [apply derivable_pt_lim_const|apply derivable_pt_lim_id].
  - apply (derivable_pt_lim_comp (fun y => 1 - y) ln); [|apply derivable_pt_lim_ln; lra].
    apply (derivable_pt_lim_minus (fct_cte 1) id); [apply derivable_pt_lim_const|apply derivable_pt_lim_id].
Qed.
Lemma deriv_cube c : derivable_pt_lim (fun y => y * y * y) c (3 * c * c).
Proof.
  assert (Q : derivable_pt_lim (fun y => y * y) c (2 * c)).
  { replace (2 * c) with (1 * c + c * 1) by ring. apply (derivable_pt_lim_mult (fun y => y) (fun y => y)); apply derivable_pt_lim_id. }
  replace (3 * c * c) with (2 * c * c + c * c * 1) by ring. apply (derivable_pt_lim_mult (fun y => y * y) (fun y => y)); [exact Q|apply derivable_pt_lim_id].
Qed.
Lemma deriv_sq c : derivable_pt_lim (fun y => 1 - y * y) c (- 2 * c).
Proof.
  replace (- 2 * c) with (0 - (1 * c + c * 1)) by ring. apply (derivable_pt_lim_minus (fct_cte 1) (fun y => y * y)); [apply derivable_pt_lim_const|].
  apply (derivable_pt_lim_mult (fun y => y) (fun y => y)); apply derivable_pt_lim_id.
Qed.
Lemma deriv_lin k c : derivable_pt_lim (fun y => k * y) c k.
Proof. pose proof (derivable_pt_lim_scal id k c 1 (derivable_pt_lim_id c)) as H. rewrite Rmult_1_r in H. exact H. Qed.
Lemma ln_low y : 0 < y < 1 -> 2 * y + 2 / 3 * (y * y * y) <= ln (1 + y) - ln (1 - y).
Proof.
  intros H. pose proof (nondecreasing (fun y => (ln (1 + y) - ln (1 - y)) - (2 * y + 2 / 3 * (y * y * y))) (fun y => 2 / (1 - y * y) - (2 + 2 / 3 * (3 * y * y))) 0 y) as M.
  cbv beta in M. rewrite Rplus_0_r, Rminus_0_r, ln_1 in M. assert (0 <= ln (1 + y) - ln (1 - y) - (2 * y + 2 / 3 * (y * y * y))); [|lra].
  replace 0 with (0 - 0 - (2 * 0 + 2 / 3 * (0 * 0 * 0))) by ring. apply M; [lra| |].
  - intros c Hc. apply derivable_pt_lim_minus; [apply ln_ratio_deriv; lra|].
    apply (derivable_pt_lim_plus (fun y => 2 * y) (fun y => 2 / 3 * (y * y * y))); [apply deriv_lin|].
    apply (derivable_pt_lim_scal (fun y => y * y * y) (2 / 3)), deriv_cube.
  - intros c Hc. assert (P : 0 < 1 - c * c) by nra. replace (2 / (1 - c * c) - (2 + 2 / 3 * (3 * c * c))) with (2 * (c * c) * (c * c) / (1 - c * c)) by (field; lra).
    apply Rmult_le_pos; [nra|left; now apply Rinv_0_lt_compat].
Qed.
Lemma ln_up y : 0 < y < 1 -> ln (1 + y) - ln (1 - y) <= 2 * y + 2 / 3 * (y * y * y / (1 - y * y)).
Proof.
  intros H. pose proof (nondecreasing (fun y => (2 * y + 2 / 3 * (y * y * y / (1 - y * y))) - (ln (1 + y) - ln (1 - y)))
    (fun y => (2 + 2 / 3 * ((3 * y * y * (1 - y * y) - (- 2 * y) * (y * y * y)) / Rsqr (1 - y * y))) - 2 / (1 - y * y)) 0 y) as M.
  cbv beta in M. rewrite Rplus_0_r, Rminus_0_r, ln_1 in M. assert (0 <= 2 * y + 2 / 3 * (y * y * y / (1 - y * y)) - (ln (1 + y) - ln (1 - y))); [|lra].
  replace 0 with (2 * 0 + 2 / 3 * (0 * 0 * 0 / (1 - 0 * 0)) - (0 - 0)) by field. apply M; [lra| |].
  - intros c Hc. apply derivable_pt_lim_minus; [|apply ln_ratio_deriv; lra].
    apply (derivable_pt_lim_plus (fun y => 2 * y) (fun y => 2 / 3 * (y * y * y / (1 - y * y)))); [apply deriv_lin|].
    apply (derivable_pt_lim_scal (fun y => y * y * y / (1 - y * y)) (2 / 3)).
    apply (derivable_pt_lim_div (fun y => y * y * y) (fun y => 1 - y * y)); [apply deriv_cube|apply deriv_sq|nra].
  - intros c Hc. assert (P : 0 < 1 - c * c) by nra. unfold Rsqr.
    replace (2 + 2 / 3 * ((3 * c * c * (1 - c * c) - -2 * c * (c * c * c)) / ((1 - c * c) * (1 - c * c))) - 2 / (1 - c * c)) with (4 / 3 * (c * c) * (c * c) / ((1 - c * c) * (1 - c * c))) by (field; lra).
    apply Rmult_le_pos; [nra|left; apply Rinv_0_lt_compat; nra].
Qed.
Definition dd (n : nat) : R := (INR n - 5 / 10) * ln (INR n) - INR n - ln (INR (fact (n - 1))).
Lemma ln_step n : (0 < n)%nat -> let x := INR n in
  1 + 1 / (3 * (2 * x + 1) * (2 * x + 1)) <= (x + 1 / 2) * (ln (x + 1) - ln x) <= 1 + 1 / (12 * x * (x + 1)).
Proof.
  intros Hn x. assert (X : 1 <= x) by (apply (le_INR 1); lia). set (y := 1 / (2 * x + 1)).
  assert (Y : 0 < y < 1).
  { split; [apply Rdiv_lt_0_compat; lra|]. apply (Rmult_lt_reg_r (2 * x + 1)); [lra|]. unfold y, Rdiv. rewrite Rmult_assoc, Rinv_l; lra. }
  assert (E : ln (x + 1) - ln x = ln (1 + y) - ln (1 - y)).
  { assert (E1 : 1 + y = (x + 1) * (2 / (2 * x + 1))) by (unfold y; field; lra). assert (E2 : 1 - y = x * (2 / (2 * x + 1))) by (unfold y; field; lra).
    assert (0 < 2 / (2 * x + 1)) by (apply Rdiv_lt_0_compat; lra). rewrite E1, E2, !ln_mult by lra. ring. }
  rewrite E. pose proof (ln_low y Y) as L. pose proof (ln_up y Y) as U. split.
  - apply (Rle_trans _ ((x + 1 / 2) * (2 * y + 2 / 3 * (y * y * y)))); [|apply Rmult_le_compat_l; lra].
    right. unfold y. field. lra.
  - apply (Rle_trans _ ((x + 1 / 2) * (2 * y + 2 / 3 * (y * y * y / (1 - y * y))))); [apply Rmult_le_compat_l; lra|].
    right. replace (1 - y * y) with (4 * x * (x + 1) / ((2 * x + 1) * (2 * x + 1))) by (unfold y; field; lra). unfold y. field. lra.
Qed.
Lemma dd_step n : (0 < n)%nat -> dd (S n) - dd n = (INR n + 1 / 2) * (ln (INR n + 1) - ln (INR n)) - 1.
Proof.
  intros Hn. unfold dd. rewrite S_INR. replace (S n - 1)%nat with (S (n - 1)) by lia. rewrite fact_simpl, mult_INR.
  replace (S (n - 1)) with n by lia. assert (0 < INR n) by (apply lt_0_INR; lia). rewrite ln_mult by (try assumption; apply INR_fact_lt_0). lra.
Qed.
Lemma dd_bounds n : (0 < n)%nat -> - 1 + 1 / 13 - 1 / (12 * INR n + 1) <= dd n <= - 1 + 1 / 12 - 1 / (12 * INR n).
Proof.
  intros Hn. induction n as [|n IH]; [lia|]. destruct n as [|n].
  - unfold dd. cbn [Nat.sub fact]. change (INR 1) with 1. rewrite ln_1. lra.
  - set (m := S n) in *. specialize (IH ltac:(lia)). pose proof (dd_step m ltac:(lia)) as D. pose proof (ln_step m ltac:(lia)) as L. cbv zeta in L.
    assert (X : 1 <= INR m) by (apply (le_INR 1); lia). rewrite S_INR. set (x := INR m) in *.
    assert (A : 1 / (12 * x * (x + 1)) = 1 / (12 * x) - 1 / (12 * (x + 1))) by (field; lra).
    assert (B : 1 / (12 * x + 1) - 1 / (12 * (x + 1) + 1) <= 1 / (3 * (2 * x + 1) * (2 * x + 1))).
    { replace (1 / (12 * x + 1) - 1 / (12 * (x + 1) + 1)) with (12 / ((12 * x + 1) * (12 * x + 13))) by (field; lra).
      apply (Rmult_le_reg_r ((12 * x + 1) * (12 * x + 13) * (3 * (2 * x + 1) * (2 * x + 1)))); [repeat apply Rmult_lt_0_compat; lra|].
      replace (12 / ((12 * x + 1) * (12 * x + 13)) * ((12 * x + 1) * (12 * x + 13) * (3 * (2 * x + 1) * (2 * x + 1)))) with (12 * (3 * (2 * x + 1) * (2 * x + 1))) by (field; lra).
      replace (1 / (3 * (2 * x + 1) * (2 * x + 1)) * ((12 * x + 1) * (12 * x + 13) * (3 * (2 * x + 1) * (2 * x + 1)))) with ((12 * x + 1) * (12 * x + 13)) by (field; lra). nra. }
    lra.
Qed.
Lemma stirling_close n : (0 < n)%nat -> - (415 / 10 ^ 5) <= log_asymptotic_gamma (INR n) - ln (INR (fact (n - 1))) <= 228 / 10 ^ 5.
Proof.
  intros Hn. pose proof (dd_bounds n Hn) as D. unfold dd in D. unfold log_asymptotic_gamma.
  assert (X : 1 <= INR n) by (apply (le_INR 1); lia). set (x := INR n) in *. set (w := 1 / x).
  assert (W : 0 < w <= 1). { split; [apply Rdiv_lt_0_compat; lra|]. apply (Rmult_le_reg_r x); [lra|]. unfold w, Rdiv. rewrite Rmult_assoc, Rinv_l; lra. }
  assert (E1 : 1 / (x * x) = w * w) by (unfold w; field; lra). rewrite E1.
  assert (E2 : 1 / (12 * x) = w / 12) by (unfold w; field; lra). rewrite E2 in D.
  assert (E3 : w / 12 - w * w / 144 <= 1 / (12 * x + 1) <= w / 12 - w * w / 156).
  { replace (1 / (12 * x + 1)) with (w / (12 + w)) by (unfold w; field; lra).
    assert (Q : w / (12 + w) = w / 12 - w * w / (144 + 12 * w)) by (field; lra). rewrite Q.
    assert (0 < / (144 + 12 * w)) by (apply Rinv_0_lt_compat; lra).
    assert (/ 156 <= / (144 + 12 * w) <= / 144) by (split; apply Rinv_le_contravar; lra). unfold Rdiv. nra. }
  replace (((((- (59523809523809529 / 10 ^ 20) * (w * w) + 79365079365079365079365 / 10 ^ 26) * (w * w) - 27777777777777777777778 / 10 ^ 25) * (w * w) + 83333333333333333333333 / 10 ^ 24) / x))
    with ((((- (59523809523809529 / 10 ^ 20) * (w * w) + 79365079365079365079365 / 10 ^ 26) * (w * w) - 27777777777777777777778 / 10 ^ 25) * (w * w) + 83333333333333333333333 / 10 ^ 24) * w) by (unfold w; field; lra).
  set (q := (- (59523809523809529 / 10 ^ 20) * (w * w) + 79365079365079365079365 / 10 ^ 26) * (w * w) - 27777777777777777777778 / 10 ^ 25).
  assert (V : 0 < w * w <= 1) by nra.
  assert (Q : - (34 / 10 ^ 4) <= q <= 0).
  { unfold q. set (v := w * w) in *. split; nra. }
  assert (Z : - (34 / 10 ^ 4) * (w * w) <= q * (w * w) * w <= 0).
  { assert (0 <= w * w * w <= w * w) by nra. split; nra. }
  replace ((q * (w * w) + 83333333333333333333333 / 10 ^ 24) * w) with (q * (w * w) * w + 83333333333333333333333 / 10 ^ 24 * w) by ring. lra.
Qed.
Lemma erlang_pos n z : (0 < n)%nat -> 0 < z -> 0 < erlang n z.
Proof.
  intros Hn Hz. unfold erlang. apply Rmult_lt_0_compat; [apply exp_pos|].
  assert (T : forall j, 0 < z ^ j / INR (fact j)) by (intros j; apply Rdiv_lt_0_compat; [now apply pow_lt|apply INR_fact_lt_0]).
  destruct n as [|n]; [lia|]. clear Hn. induction n as [|n IH]; rewrite rs_S; [unfold rs; cbn [seq map rlsum fold_right]; specialize (T 0%nat); lra|].
  specialize (T (S n)). lra.
Qed.
Definition asymptotic (chi2 : R) (dof : nat) : Prop := 15 < chi2 / INR dof \/ ((150 < dof)%nat /\ 6 < chi2 / INR dof).
Lemma chi2_branch logsf fuel chi2 dof : (2 <= dof)%nat ->
  (asymptotic chi2 dof -> chi2_logp logsf fuel chi2 dof = (let! g := log_asymptotic_incomplete_gamma fuel (5 / 10 * INR dof) (5 / 10 * chi2) in Ok (g - log_asymptotic_gamma (5 / 10 * INR dof)))) /\
  (~ asymptotic chi2 dof -> chi2_logp logsf fuel chi2 dof = Ok (logsf chi2 dof)).
Proof.
  intros H. unfold chi2_logp, asymptotic. destruct (Nat.ltb_spec dof 2); [lia|].
  destruct (Rlt_dec 15 (chi2 / INR dof)), (Nat.ltb_spec 150 dof), (Rlt_dec 6 (chi2 / INR dof)); cbn [orb andb]; split; intros A; try reflexivity; exfalso; try (apply A; tauto); destruct A as [A|[A B]]; lia || contradiction.
Qed.
(* even numbers of degrees of freedom *)
Lemma even_dof logsf fuel chi2 n : (0 < n)%nat -> (n < fuel)%nat -> asymptotic chi2 (2 * n) ->
  exists l, chi2_logp logsf fuel chi2 (2 * n) = Ok l /\ Rabs (l - ln (erlang n (chi2 / 2))) <= 416 / 10 ^ 5.
Proof.
  intros Hn Hf A. destruct (chi2_branch logsf fuel chi2 (2 * n) ltac:(lia)) as [B _]. rewrite (B A). clear B.
  assert (N : 1 <= INR n) by (apply (le_INR 1); lia). assert (D2 : INR (2 * n) = 2 * INR n) by (rewrite mult_INR; reflexivity).
  assert (S6 : 6 < chi2 / INR (2 * n)) by (destruct A as [A|[_ A]]; lra).
  assert (Z : 2 * INR n <= chi2 / 2).
  { rewrite D2 in S6. apply (Rmult_lt_compat_r (2 * INR n)) in S6; [|lra]. unfold Rdiv in S6. rewrite Rmult_assoc, Rinv_l in S6 by lra. lra. }
  rewrite D2. replace (5 / 10 * (2 * INR n)) with (INR n) by field. replace (5 / 10 * chi2) with (chi2 / 2) by field.
  destruct (incomplete_main n (chi2 / 2) Hn Z fuel Hf) as (l & -> & L1 & L2). cbn [bind]. eexists. split; [reflexivity|].
  pose proof (stirling_close n Hn) as S. set (g := log_asymptotic_gamma (INR n)) in *. set (f := INR (fact (n - 1))) in *.
  assert (F : 0 < f) by (apply INR_fact_lt_0). assert (E : 0 < erlang n (chi2 / 2)) by (apply erlang_pos; [exact Hn|lra]).
  set (e := erlang n (chi2 / 2)) in *. assert (FE : 0 < f * e) by (now apply Rmult_lt_0_compat).
  assert (U : l <= ln f + ln e). { rewrite <- ln_mult by assumption. rewrite <- (ln_exp l). destruct L2 as [L2|L2]; [left; apply ln_increasing; [apply exp_pos|exact L2]|rewrite L2; lra]. }
  assert (LB : ln f + ln e - 1 / 10 ^ 14 <= l).
  { rewrite <- ln_mult by assumption. rewrite <- (ln_exp l).
    assert (X : ln ((1 - 1 / 10 ^ 15) * (f * e)) <= ln (exp l)) by (destruct L1 as [L1|L1]; [left; apply ln_increasing; [apply Rmult_lt_0_compat; lra|exact L1]|rewrite L1; lra]).
    rewrite ln_mult in X by lra. assert (Y : - (1 / 10 ^ 14) <= ln (1 - 1 / 10 ^ 15)); [|lra].
    rewrite <- (ln_exp (- (1 / 10 ^ 14))). left. apply ln_increasing; [apply exp_pos|].
    rewrite exp_Ropp. pose proof (exp_ineq1 (1 / 10 ^ 14) ltac:(lra)) as Q. apply (Rlt_trans _ (/ (1 + 1 / 10 ^ 14))); [apply Rinv_lt_contravar; [apply Rmult_lt_0_compat; lra|exact Q]|].
    apply (Rmult_lt_reg_r (1 + 1 / 10 ^ 14)); [lra|]. rewrite Rinv_l by lra. lra. }
  apply Rabs_le. lra.
Qed.
