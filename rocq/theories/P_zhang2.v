(* P_zhang2.v: moments and power spectrum of the dead time model *)
From Verif Require Import Np Lib M_utils Cplx M_espec S_zhang M_zhang P_zhang.
From Coq Require Import Lra Lia.
Open Scope R_scope.

(* ---- the terms of equation 35 ---- *)
Lemma neg_div a b : a < 0 -> 0 < b -> a / b < 0.
Proof. intros H1 H2. pose proof (Rinv_0_lt_compat b H2). unfold Rdiv. nra. Qed.
Lemma time_left_excess k n td tb tau : 0 < tau -> 0 <= INR k * tb - INR n * td ->
  time_left k n td tb tau = tau / tb * excess n ((INR k * tb - INR n * td) / tau).
Proof.
  intros Ht H. unfold time_left. cbv zeta. destruct (Rlt_dec _ 0) as [L|]; [|reflexivity].
  exfalso. pose proof (Rinv_0_lt_compat tau Ht). unfold Rdiv in L. nra.
Qed.
Lemma h_close k n td tb tau : 0 < tau -> 0 < tb -> (n <= 50)%nat ->
  h_term k n td tb tau <= time_left k n td tb tau /\
  time_left k n td tb tau - h_term k n td tb tau <= / 10 ^ 15 * (tau / tb * INR n).
Proof.
  intros Ht Hb Hn. unfold h_term. cbv zeta. pose proof (Rinv_0_lt_compat _ Ht) as It. pose proof (Rinv_0_lt_compat _ Hb) as Ib.
  assert (E15 : 0 < / 10 ^ 15) by (apply Rinv_0_lt_compat, pow_lt; lra).
  destruct (Rlt_dec (INR k * tb - INR n * td) 0) as [L|L].
  - unfold time_left. cbv zeta. destruct (Rlt_dec _ 0) as [_|N]; [|exfalso; apply N, neg_div; [nra|exact Ht]].
    split; [lra|]. rewrite Rminus_0_r. pose proof (pos_INR n). unfold Rdiv. apply Rmult_le_pos; [lra|]. apply Rmult_le_pos; [|assumption]. apply Rmult_le_pos; lra.
  - assert (F : 0 <= INR k * tb - INR n * td) by lra. rewrite time_left_excess by assumption. set (x := (INR k * tb - INR n * td) / tau).
    assert (Hx : 0 <= x) by (unfold x, Rdiv; apply Rmult_le_pos; lra). destruct (gn_close x n Hx Hn) as (G1 & G2 & G3).
    assert (GN : poisson_deficit x n <= INR n).
    { rewrite <- (deficit_zero n). destruct (Rle_lt_or_eq_dec 0 x Hx) as [P|P]; [|rewrite <- P; lra].
      destruct (MVT_cor2 (fun y => poisson_deficit y n) (fun y => - cdf n y) 0 x P) as (c & E & Hc); [intros; apply deficit_derive|].
      assert (0 <= cdf n c) by (apply rs_nonneg; intros; apply poisson_nonneg; lra). nra. }
    unfold excess. replace (INR k - INR n * (td + tau) / tb + tau / tb * gn x n) with (tau / tb * (x - INR n + gn x n)) by (unfold x; field; lra).
    assert (Q : 0 < tau / tb) by (unfold Rdiv; nra). split; [apply Rmult_le_compat_l; lra|].
    replace (tau / tb * (x - INR n + poisson_deficit x n) - tau / tb * (x - INR n + gn x n)) with (tau / tb * (poisson_deficit x n - gn x n)) by ring.
    replace (/ 10 ^ 15 * (tau / tb * INR n)) with (tau / tb * (/ 10 ^ 15 * INR n)) by ring. apply Rmult_le_compat_l; [lra|]. nra.
Qed.
Lemma time_left_range k n td tb tau : 0 < tau -> 0 < tb -> 0 <= td -> 0 <= time_left k n td tb tau <= INR k.
Proof.
  intros Ht Hb Hd. pose proof (Rinv_0_lt_compat _ Ht) as It. pose proof (Rinv_0_lt_compat _ Hb) as Ib. pose proof (pos_INR k) as Pk.
  destruct (Rlt_dec (INR k * tb - INR n * td) 0) as [L|L].
  - unfold time_left. cbv zeta. destruct (Rlt_dec _ 0) as [_|N]; [lra|exfalso; apply N, neg_div; [nra|exact Ht]].
  - rewrite time_left_excess by lra. set (x := (INR k * tb - INR n * td) / tau). assert (Hx : 0 <= x) by (unfold x, Rdiv; apply Rmult_le_pos; lra).
    assert (Q : 0 < tau / tb) by (unfold Rdiv; nra). split; [apply Rmult_le_pos; [lra|now apply excess_nonneg]|].
    assert (GN : poisson_deficit x n <= INR n).
    { rewrite <- (deficit_zero n). destruct (Rle_lt_or_eq_dec 0 x Hx) as [P|P]; [|rewrite <- P; lra].
      destruct (MVT_cor2 (fun y => poisson_deficit y n) (fun y => - cdf n y) 0 x P) as (c & E & Hc); [intros; apply deficit_derive|].
      assert (0 <= cdf n c) by (apply rs_nonneg; intros; apply poisson_nonneg; lra). nra. }
    apply Rle_trans with (tau / tb * x); [apply Rmult_le_compat_l; [lra|unfold excess; lra]|].
    replace (tau / tb * x) with (INR k - INR n * td / tb) by (unfold x; field; lra). pose proof (pos_INR n).
    assert (0 <= INR n * td / tb) by (unfold Rdiv; apply Rmult_le_pos; [apply Rmult_le_pos; lra|lra]). lra.
Qed.
Lemma time_left_monotone k k' n td tb tau : 0 < tau -> 0 < tb -> (k <= k')%nat -> time_left k n td tb tau <= time_left k' n td tb tau.
Proof.
  intros Ht Hb Hk. apply le_INR in Hk. pose proof (Rinv_0_lt_compat _ Ht) as It. pose proof (Rinv_0_lt_compat _ Hb) as Ib.
  assert (Q : 0 < tau / tb) by (unfold Rdiv; nra).
  destruct (Rlt_dec (INR k' * tb - INR n * td) 0) as [L|L].
  - unfold time_left. cbv zeta. destruct (Rlt_dec ((INR k * tb - INR n * td) / tau) 0) as [_|N]; [|exfalso; apply N, neg_div; [nra|exact Ht]].
    destruct (Rlt_dec _ 0) as [_|N]; [lra|exfalso; apply N, neg_div; [nra|exact Ht]].
  - destruct (Rlt_dec (INR k * tb - INR n * td) 0) as [M|M].
    + unfold time_left at 1. cbv zeta. destruct (Rlt_dec ((INR k * tb - INR n * td) / tau) 0) as [_|N]; [|exfalso; apply N, neg_div; [nra|exact Ht]].
      rewrite time_left_excess by lra. apply Rmult_le_pos; [lra|]. apply excess_nonneg. unfold Rdiv. apply Rmult_le_pos; lra.
    + rewrite !time_left_excess by lra. apply Rmult_le_compat_l; [lra|]. apply excess_increasing. split.
      * unfold Rdiv. apply Rmult_le_pos; lra.
      * unfold Rdiv. apply Rmult_le_compat_r; [lra|]. nra.
Qed.

(* ---- the loops contain every term ---- *)
Lemma floor_bound y n : (floor_nat y <= n)%nat -> y < INR n + 1.
Proof.
  intros H. unfold floor_nat in H. destruct (base_Int_part y) as [_ B]. apply le_INR in H.
  destruct (Z_le_gt_dec 0 (Int_part y)) as [P|P].
  - rewrite INR_IZR_INZ, Z2Nat.id in H by exact P. lra.
  - assert (IZR (Int_part y) <= -1) by (apply IZR_le; lia). pose proof (pos_INR n). lra.
Qed.
Lemma h_beyond k n td tb tau : INR k * tb < INR n * td -> h_term k n td tb tau = 0.
Proof. intros H. unfold h_term. cbv zeta. destruct (Rlt_dec _ 0); [reflexivity|lra]. Qed.
Lemma rs_longer n M f : (n <= M)%nat -> (forall i, (n <= i)%nat -> f i = 0) -> rs M f = rs n f.
Proof.
  intros H Z. replace M with (n + (M - n))%nat by lia. rewrite rs_add, (rs_zero (M - n)); [ring|]. intros; apply Z; lia.
Qed.
Lemma a0_complete r0 td tb tau M : 0 < td -> 0 < tb -> (floor_nat (tb / td * 2 + 1) <= M)%nat -> (1 <= M)%nat ->
  a0 r0 td tb tau = r0 * tb * (1 + 2 * rs M (fun i => h_term 1 (S i) td tb tau)).
Proof.
  intros Hd Hb HM H1. unfold a0. cbv zeta. f_equal. f_equal. f_equal. set (stop := floor_nat (Rmax 2 (tb / td * 2 + 1))).
  assert (Z : forall i, (stop - 1 <= i)%nat -> h_term 1 (S i) td tb tau = 0).
  { intros i Hi. apply h_beyond. assert (B : Rmax 2 (tb / td * 2 + 1) < INR (S i) + 1) by (apply floor_bound; fold stop; lia).
    pose proof (Rmax_r 2 (tb / td * 2 + 1)). assert (tb / td * 2 < INR (S i)) by lra.
    assert (P : 0 < tb / td) by (unfold Rdiv; pose proof (Rinv_0_lt_compat _ Hd); nra).
    assert (tb / td < INR (S i)) by lra. apply (Rmult_lt_compat_r td) in H2; [|exact Hd]. replace (tb / td * td) with tb in H2 by (field; lra). change (INR 1) with 1. lra. }
  symmetry. destruct (Nat.le_gt_cases (stop - 1) M) as [L|L]; [now apply rs_longer|].
  symmetry. apply rs_longer; [lia|]. intros i Hi. apply h_beyond.
  assert (B : tb / td * 2 + 1 < INR (S i) + 1) by (apply floor_bound; lia).
  assert (P : 0 < tb / td) by (unfold Rdiv; pose proof (Rinv_0_lt_compat _ Hd); nra).
  assert (Q : tb / td < INR (S i)) by lra. apply (Rmult_lt_compat_r td) in Q; [|exact Hd]. replace (tb / td * td) with tb in Q by (field; lra). change (INR 1) with 1. lra.
Qed.
Lemma a_complete k r0 td tb tau M : 0 < td -> 0 < tb -> (floor_nat (INR (k + 2) * tb / td) <= M)%nat ->
  a_single_k (S k) r0 td tb tau = r0 * tb * rs M (fun i => h_term (k + 2) (S i) td tb tau - 2 * h_term (k + 1) (S i) td tb tau + h_term k (S i) td tb tau).
Proof.
  intros Hd Hb HM. cbn [a_single_k]. replace (S k + 1)%nat with (k + 2)%nat by lia. cbv zeta. f_equal. rewrite <- (Nat.add_1_r k).
  set (q := INR (k + 2) * tb / td) in *. set (stop := floor_nat (Rmax 3 (q * 2))).
  assert (W : forall i, q < INR (S i) -> h_term (k + 2) (S i) td tb tau - 2 * h_term (k + 1) (S i) td tb tau + h_term k (S i) td tb tau = 0).
  { intros i Hi. apply (Rmult_lt_compat_r td) in Hi; [|exact Hd]. unfold q in Hi. replace (INR (k + 2) * tb / td * td) with (INR (k + 2) * tb) in Hi by (field; lra).
    assert (INR (k + 1) <= INR (k + 2)) by (apply le_INR; lia). assert (INR k <= INR (k + 2)) by (apply le_INR; lia).
    rewrite !h_beyond by nra. ring. }
  assert (Z : forall i, (stop - 1 <= i)%nat -> h_term (k + 2) (S i) td tb tau - 2 * h_term (k + 1) (S i) td tb tau + h_term k (S i) td tb tau = 0).
  { intros i Hi. apply W. assert (B : Rmax 3 (q * 2) < INR (S i) + 1) by (apply floor_bound; fold stop; lia).
    pose proof (Rmax_l 3 (q * 2)). pose proof (Rmax_r 3 (q * 2)). lra. }
  assert (Y : forall i, (M <= i)%nat -> h_term (k + 2) (S i) td tb tau - 2 * h_term (k + 1) (S i) td tb tau + h_term k (S i) td tb tau = 0).
  { intros i Hi. apply W. rewrite S_INR. apply floor_bound. lia. }
  destruct (Nat.le_gt_cases (stop - 1) M) as [L|L]; [symmetry; now apply rs_longer|]. apply rs_longer; [lia|exact Y].
Qed.

(* ---- the power spectrum ---- *)
Lemma even_double (g : nat -> R) N : rs N (fun u => rs N (fun v => g (distance u v))) = INR N * g 0%nat + 2 * rs (N - 1) (fun i => (INR N - INR (S i)) * g (S i)).
Proof.
  induction N as [|N IH]; [rewrite !rs_0; cbn; ring|].
  rewrite rs_S. rewrite (rs_ext N (fun u => rs (S N) (fun v => g (distance u v))) (fun u => rs N (fun v => g (distance u v)) + g (N - u)%nat)).
  2:{ intros u Hu. rewrite rs_S. f_equal. f_equal. unfold distance. lia. }
  rewrite rs_plus, IH. rewrite (rs_S N (fun v => g (distance N v))). rewrite (rs_ext N (fun v => g (distance N v)) (fun u => g (N - u)%nat)) by (intros; f_equal; unfold distance; lia).
  replace (distance N N) with 0%nat by (unfold distance; lia).
  rewrite (rs_rev N (fun u => g (N - u)%nat)). rewrite (rs_ext N (fun i => g (N - (N - 1 - i))%nat) (fun i => g (S i))) by (intros; f_equal; lia).
  replace (S N - 1)%nat with N by lia. rewrite S_INR.
  assert (E : rs N (fun i => (INR N + 1 - INR (S i)) * g (S i)) = rs (N - 1) (fun i => (INR N - INR (S i)) * g (S i)) + rs N (fun i => g (S i))).
  { rewrite (rs_ext N _ (fun i => (INR N - INR (S i)) * g (S i) + g (S i))) by (intros; ring). rewrite rs_plus. f_equal.
    destruct N as [|N']; [reflexivity|]. replace (S N' - 1)%nat with N' by lia. rewrite rs_S. ring. }
  rewrite E. ring.
Qed.
Lemma re_cs n f : fst (cs n f) = rs n (fun i => fst (f i)).
Proof. induction n as [|n IH]; [reflexivity|]. rewrite cs_S, rs_S. rewrite <- IH. reflexivity. Qed.
Lemma cos_sum_zero N j u : (0 < j < N)%nat -> rs N (fun v => cos (2 * PI * INR j * (INR u - INR v) / INR N)) = 0.
Proof.
  intros H. assert (G : cs N (fun v => cis N (Z.of_nat v * - Z.of_nat j)) = c0).
  { apply cis_geom; [lia|]. rewrite Z.mod_opp_l_nz; [|lia|]; rewrite Z.mod_small by lia; lia. }
  assert (E : cs N (fun v => cis N (Z.of_nat j * (Z.of_nat u - Z.of_nat v))) = c0).
  { rewrite (cs_ext N _ (fun v => cmul (cis N (Z.of_nat v * - Z.of_nat j)) (cis N (Z.of_nat j * Z.of_nat u)))).
    - rewrite cs_mul, G. apply cx_eq; cbn; ring.
    - intros v _. rewrite <- cis_add. f_equal. lia. }
  apply (f_equal fst) in E. rewrite re_cs in E. cbn [fst c0] in E. transitivity (rs N (fun i => fst (cis N (Z.of_nat j * (Z.of_nat u - Z.of_nat i))))); [|exact E].
  apply rs_ext. intros v _. cbn [cis fst]. f_equal. rewrite mult_IZR, minus_IZR, <- !INR_IZR_INZ. unfold Rdiv. ring.
Qed.
Lemma leahy_shift N mu A c j : (0 < j < N)%nat -> leahy_mean N mu (fun k => A k - c) j = leahy_mean N mu A j.
Proof.
  intros H. unfold leahy_mean. f_equal. apply rs_ext. intros u Hu.
  rewrite (rs_ext N _ (fun v => A (distance u v) * cos (2 * PI * INR j * (INR u - INR v) / INR N) - c * cos (2 * PI * INR j * (INR u - INR v) / INR N))) by (intros; ring).
  rewrite rs_minus, rs_scal_l, cos_sum_zero by exact H. ring.
Qed.
Lemma leahy_sum N mu A j : (0 < N)%nat -> mu <> 0 -> leahy_mean N mu A j = 2 * A 0%nat / mu + rs (N - 1) (fun i => (INR N - INR (S i)) / INR N * (4 * A (S i) / mu) * cos (2 * PI * INR j * INR (S i) / INR N)).
Proof.
  intros HN Hmu. unfold leahy_mean.
  set (g := fun k => A k * cos (2 * PI * INR j * INR k / INR N)).
  rewrite (rs_ext N _ (fun u => rs N (fun v => g (distance u v)))).
  - rewrite even_double. unfold g at 1. replace (2 * PI * INR j * INR 0 / INR N) with 0 by (cbn; unfold Rdiv; ring). rewrite cos_0.
    assert (NZ : INR N <> 0) by (apply not_0_INR; lia). rewrite Rmult_plus_distr_l. f_equal; [field; split; assumption|].
    rewrite <- Rmult_assoc, <- rs_scal_l. apply rs_ext. intros i _. unfold g. field. split; assumption.
  - intros u _. apply rs_ext. intros v _. unfold g. f_equal. destruct (Nat.le_gt_cases v u) as [L|L].
    + f_equal. f_equal. f_equal. unfold distance. replace (u - v + (v - u))%nat with (u - v)%nat by lia. now rewrite minus_INR by lia.
    + rewrite <- cos_neg. f_equal. unfold distance. replace (u - v + (v - u))%nat with (v - u)%nat by lia. rewrite minus_INR by lia. unfold Rdiv. ring.
Qed.
Lemma power_leahy N tau r0 td tb limit_k j : (N <= limit_k)%nat -> r0 * tb <> 0 -> (0 < j < N / 2)%nat ->
  nth_error (inner_loop_pds_zhang N tau r0 td tb limit_k) j = Some (leahy_mean N (r0 * tb) (fun k => a_single_k k r0 td tb tau) j).
Proof.
  intros HL Hmu Hj. assert (HN : (N / 2 <= N)%nat) by (apply Nat.div_le_upper_bound; lia).
  unfold inner_loop_pds_zhang. rewrite nth_error_map, (nth_error_nth' _ 0%nat) by (rewrite seq_length; lia). rewrite seq_nth by lia. cbn [option_map Nat.add].
  f_equal. rewrite <- (leahy_shift N (r0 * tb) _ (r0 ^ 2 * tb ^ 2)) by lia. rewrite leahy_sum by (lia || assumption).
  rewrite Nat.min_l by exact HL. unfold safe_b. change (Nat.ltb 60 0) with false. cbv zeta. f_equal.
  apply rs_ext. intros i Hi. destruct (Nat.ltb_spec limit_k (S i)); [lia|]. reflexivity.
Qed.
