(* P_stats.v: conversions of amplitudes, multi-trial probabilities, classical p-values *)
From Verif Require Import Np M_stats S_stats.
From Coq Require Import Reals Lra Lia.
Open Scope R_scope.

(* ---------- C35 ---------- *)
Lemma pf_a_main : (forall a, a <> -1 -> a_from_pf (pf_from_a a) = a) /\
  (forall p, p <> 2 -> pf_from_a (a_from_pf p) = p) /\
  (forall a b, 0 <= a -> a < b -> pf_from_a a < pf_from_a b) /\
  (forall p q, p < q -> q < 2 -> a_from_pf p < a_from_pf q) /\
  (forall a, 0 <= a <= 1 -> 0 <= pf_from_a a <= 1) /\
  (forall p, 0 <= p <= 1 -> 0 <= a_from_pf p <= 1).
Proof.
  unfold pf_from_a, a_from_pf.
  assert (IV : forall x y, 0 < y -> 0 <= x -> 0 <= x / y) by (intros x y Hy Hx; apply Rmult_le_pos; [lra|left; now apply Rinv_0_lt_compat]).
  assert (LT : forall x y u v, 0 < y -> 0 < v -> x * v < u * y -> x / y < u / v).
  { intros x y u v Hy Hv H. apply (Rmult_lt_reg_r (y * v)); [nra|].
    replace (x / y * (y * v)) with (x * v) by (field; lra). replace (u / v * (y * v)) with (u * y) by (field; lra). exact H. }
  assert (LE1 : forall x y, 0 < y -> x <= y -> x / y <= 1).
  { intros x y Hy H. apply (Rmult_le_reg_r y); [lra|]. replace (x / y * y) with x by (field; lra). lra. }
  repeat split.
  - intros a Ha. field. split; lra.
  - intros p Hp. field. split; lra.
  - intros a b Ha Hb. apply LT; try lra; nra.
  - intros p q Hp Hq. apply LT; try lra; nra.
  - apply IV; lra.
  - apply LE1; lra.
  - apply IV; lra.
  - apply LE1; lra.
Qed.

Lemma ssig_main : forall n, 0 < n ->
  (forall a, 0 <= a -> a_from_ssig (ssig_from_a a n) n = a) /\
  (forall s, 0 <= s -> ssig_from_a (a_from_ssig s n) n = s) /\
  (forall a b, 0 <= a -> a < b -> ssig_from_a a n < ssig_from_a b n) /\
  (forall s t, 0 <= s -> s < t -> a_from_ssig s n < a_from_ssig t n) /\
  (forall p, 0 <= p -> p < 2 -> pf_from_ssig (ssig_from_pf p n) n = p) /\
  (forall s, 0 <= s -> ssig_from_pf (pf_from_ssig s n) n = s).
Proof.
  intros n Hn. pose proof pf_a_main as (P1 & P2 & _).
  assert (A : forall a, 0 <= a -> a_from_ssig (ssig_from_a a n) n = a).
  { intros a Ha. unfold a_from_ssig, ssig_from_a. replace (2 * (n / 2 * (a * a)) / n) with (a * a) by (field; lra). now apply sqrt_square. }
  assert (NN : forall s, 0 <= s -> 0 <= 2 * s / n) by (intros s Hs; apply Rmult_le_pos; [lra|left; now apply Rinv_0_lt_compat]).
  assert (B : forall s, 0 <= s -> ssig_from_a (a_from_ssig s n) n = s).
  { intros s Hs. unfold a_from_ssig, ssig_from_a. rewrite sqrt_sqrt by auto. field. lra. }
  split; [exact A|]. split; [exact B|]. repeat split.
  - intros a b Ha Hb. unfold ssig_from_a. apply Rmult_lt_compat_l; [lra|]. nra.
  - intros s t Hs Ht. unfold a_from_ssig. apply sqrt_lt_1; auto; [apply NN; lra|].
    unfold Rdiv. apply Rmult_lt_compat_r; [now apply Rinv_0_lt_compat|lra].
  - intros p H0 H1. unfold pf_from_ssig. change (ssig_from_pf p n) with (ssig_from_a (a_from_pf p) n). rewrite A; [apply P2; lra|].
    unfold a_from_pf. apply Rmult_le_pos; [lra|]. left. apply Rinv_0_lt_compat. lra.
  - intros s Hs. change (ssig_from_pf (pf_from_ssig s n) n) with (ssig_from_a (a_from_pf (pf_from_ssig s n)) n).
    unfold pf_from_ssig. rewrite P1; [now apply B|]. pose proof (sqrt_pos (2 * s / n)) as T. unfold a_from_ssig. lra.
Qed.

(* ---------- C36 ---------- *)
Lemma pow_le1 p n : 0 <= p <= 1 -> 0 <= p ^ n <= 1.
Proof. intros H. induction n as [|n IH]; cbn [pow]; [lra|]. nra. Qed.

Lemma bern p n : 0 <= p <= 1 -> p * INR n - INR n * INR n * (p * p) / 2 <= at_least_one p n <= p * INR n.
Proof.
  intros H. unfold at_least_one. induction n as [|n IH]; [cbn; lra|].
  assert (Q := pow_le1 (1 - p) n ltac:(lra)). rewrite S_INR. cbn [pow].
  assert (0 <= INR n) by apply pos_INR. split; [|nra].
  assert (p * (1 - (1 - p) ^ n) <= p * (p * INR n)) by nra. nra.
Qed.

Lemma at_least_mono p n : 0 <= p <= 1 -> at_least_one p n <= at_least_one p (S n).
Proof. intros H. unfold at_least_one. cbn [pow]. assert (Q := pow_le1 (1 - p) n ltac:(lra)). nra. Qed.

Lemma at_least_pos p n : 0 < p <= 1 -> (0 < n)%nat -> p <= at_least_one p n <= 1.
Proof.
  intros H Hn. destruct n as [|n]; [lia|]. unfold at_least_one. cbn [pow].
  assert (Q := pow_le1 (1 - p) n ltac:(lra)). nra.
Qed.

Lemma thr p n : 0 < p -> (0 < n)%nat -> (ln p + ln (INR n) < -7 <-> p * INR n < exp (-7)).
Proof.
  intros Hp Hn. assert (0 < INR n) by now apply lt_0_INR. rewrite <- ln_mult by assumption.
  assert (Q : 0 < p * INR n) by now apply Rmult_lt_0_compat.
  split; intros H1.
  - rewrite <- (exp_ln (p * INR n)) by assumption. now apply exp_increasing.
  - rewrite <- (ln_exp (-7)). now apply ln_increasing.
Qed.

Lemma multi_value p n : 0 < p <= 1 -> (0 < n)%nat ->
  p_multitrial p n = if Rlt_dec (p * INR n) (exp (-7)) then p * INR n else at_least_one p n.
Proof.
  intros Hp Hn. unfold p_multitrial, logp_multitrial. cbv zeta.
  assert (N : 0 < INR n) by now apply lt_0_INR. assert (T := thr p n ltac:(lra) Hn).
  destruct (Rlt_dec (ln p + ln (INR n)) (-7)) as [A|A], (Rlt_dec (p * INR n) (exp (-7))) as [B|B]; try tauto.
  - rewrite <- ln_mult by lra. apply exp_ln. nra.
  - rewrite (exp_ln p) by lra. apply exp_ln. fold (at_least_one p n). assert (Q := at_least_pos p n Hp Hn). lra.
Qed.

Lemma multi_bounds p n : 0 < p <= 1 -> (0 < n)%nat ->
  p <= p_multitrial p n <= p * INR n /\ p_multitrial p n <= 1 /\
  at_least_one p n <= p_multitrial p n <= at_least_one p n + exp (-7) * exp (-7) / 2.
Proof.
  intros Hp Hn. rewrite multi_value by assumption.
  assert (B := bern p n ltac:(lra)). assert (A := at_least_pos p n Hp Hn).
  assert (N : 1 <= INR n) by (change 1 with (INR 1); apply le_INR; lia).
  assert (E0 := exp_pos (-7)). assert (E1 : exp (-7) < 1) by (rewrite <- exp_0; apply exp_increasing; lra).
  destruct (Rlt_dec (p * INR n) (exp (-7))) as [L|L].
  - assert (Q : (p * INR n) * (p * INR n) <= exp (-7) * exp (-7)).
    { apply Rmult_le_compat; nra. }
    assert (R1 : p <= p * INR n) by nra.
    replace (INR n * INR n * (p * p)) with ((p * INR n) * (p * INR n)) in B by ring.
    repeat split; lra.
  - assert (0 <= exp (-7) * exp (-7)) by nra. repeat split; lra.
Qed.

(* growth with the number of trials as long as the same formula is used *)
Lemma multi_mono p n : 0 < p <= 1 -> (0 < n)%nat ->
  (p * INR (S n) < exp (-7) \/ exp (-7) <= p * INR n) ->
  p_multitrial p n <= p_multitrial p (S n).
Proof.
  intros Hp Hn H. rewrite !multi_value by (try assumption; lia). rewrite S_INR in *.
  assert (0 <= INR n) by apply pos_INR.
  destruct (Rlt_dec (p * INR n) (exp (-7))), (Rlt_dec (p * (INR n + 1)) (exp (-7))); try (exfalso; nra); try nra.
  apply at_least_mono. lra.
Qed.
Lemma multi_mono_p p q n : 0 < p -> p <= q -> q <= 1 -> (0 < n)%nat ->
  (q * INR n < exp (-7) \/ exp (-7) <= p * INR n) ->
  p_multitrial p n <= p_multitrial q n.
Proof.
  intros H0 H1 H2 Hn H. rewrite !multi_value by (try assumption; lra).
  assert (N : 0 < INR n) by now apply lt_0_INR.
  destruct (Rlt_dec (p * INR n) (exp (-7))), (Rlt_dec (q * INR n) (exp (-7))); try nra.
  unfold at_least_one. assert ((1 - q) ^ n <= (1 - p) ^ n) by (apply pow_incr; lra). lra.
Qed.

(* third-order lower bound of (1-p)^n *)
Lemma bern3 p n : 0 <= p <= 1 ->
  1 - INR n * p + INR n * (INR n - 1) / 2 * (p * p) - INR n * (INR n - 1) * (INR n - 2) / 6 * (p * p * p) <= (1 - p) ^ n.
Proof.
  intros H. induction n as [|n IH]; [cbn; lra|]. rewrite S_INR. cbn [pow].
  assert (0 <= INR n) by apply pos_INR.
  assert (C : 0 <= INR n * (INR n - 1) * (INR n - 2)).
  { destruct n as [|[|[|n]]]; [cbn; lra|cbn; lra|cbn; lra|].
    rewrite !S_INR. pose proof (pos_INR n). repeat apply Rmult_le_pos; lra. }
  apply Rle_trans with ((1 - p) * (1 - INR n * p + INR n * (INR n - 1) / 2 * (p * p) - INR n * (INR n - 1) * (INR n - 2) / 6 * (p * p * p))).
  - set (x := INR n) in *.
    assert (D : 0 <= x * (x - 1) * (x - 2) * (p * p * (p * p))) by (apply Rmult_le_pos; [assumption|]; apply Rmult_le_pos; nra).
    nra.
  - apply Rmult_le_compat_l; lra.
Qed.

Lemma exp7_bounds : / 2187 <= exp (-7) <= / 100.
Proof.
  assert (E : exp (-7) = / (exp 1 * exp 1 * exp 1 * exp 1 * exp 1 * exp 1 * exp 1)).
  { rewrite <- !exp_plus, <- exp_Ropp. f_equal. ring. }
  rewrite E. assert (U := exp_le_3). assert (L : 2 <= exp 1) by (pose proof (exp_ineq1 1 ltac:(lra)); lra).
  set (e := exp 1) in *.
  assert (B : 128 <= e * e * e * e * e * e * e <= 2187).
  { assert (4 <= e * e <= 9) by nra. set (e2 := e * e) in *.
    assert (16 <= e2 * e2 <= 81) by nra.
    replace (e2 * e * e * e * e * e) with ((e2 * e2) * e2 * e) by (unfold e2; ring).
    set (e4 := e2 * e2) in *. assert (64 <= e4 * e2 <= 729) by nra. nra. }
  split; apply Rinv_le_contravar; lra.
Qed.

Lemma multi_not_mono : exists p n, 0 < p <= 1 /\ (0 < n)%nat /\ p_multitrial p (S n) < p_multitrial p n.
Proof.
  pose (n := Z.to_nat 9999). assert (N : INR n = 9999) by (unfold n; rewrite INR_IZR_INZ, Z2Nat.id by lia; reflexivity).
  exists (exp (-7) / 10000), n. assert (B := exp7_bounds). set (x := exp (-7)) in *.
  assert (P : 0 < x / 10000 <= 1) by lra.
  split; [exact P|]. split; [unfold n; lia|].
  rewrite !multi_value by (try assumption; unfold n; lia). fold x. rewrite S_INR, N.
  replace (9999 + 1) with 10000 by ring.
  destruct (Rlt_dec (x / 10000 * 10000) x) as [A|_]; [lra|].
  destruct (Rlt_dec (x / 10000 * 9999) x) as [_|A]; [|lra].
  unfold at_least_one. assert (Q := bern3 (x / 10000) (S n) ltac:(lra)).
  assert (M : INR (S n) = 10000) by (rewrite S_INR, N; ring). rewrite M in Q.
  assert (X2 : x * x <= x / 100) by nra.
  assert (X3 : 0 <= x * x * x <= x * x / 100) by nra.
  assert (x / 10000 < x * x / 4) by nra. nra.
Qed.

Lemma rpower_pow x n : 0 < x -> (0 < n)%nat -> Rpower x (1 / INR n) ^ n = x.
Proof.
  intros Hx Hn. rewrite <- Rpower_pow by (apply exp_pos). rewrite Rpower_mult.
  replace (1 / INR n * INR n) with 1 by (field; apply not_0_INR; lia). now apply Rpower_1.
Qed.
Lemma pow_rpower x n : 0 < x -> (0 < n)%nat -> Rpower (x ^ n) (1 / INR n) = x.
Proof.
  intros Hx Hn. rewrite <- Rpower_pow by assumption. rewrite Rpower_mult.
  replace (INR n * (1 / INR n)) with 1 by (field; apply not_0_INR; lia). now apply Rpower_1.
Qed.

Lemma ln_thr p : 0 < p -> (ln p < -7 <-> p < exp (-7)).
Proof.
  intros Hp. split; intros H.
  - rewrite <- (exp_ln p) by assumption. now apply exp_increasing.
  - rewrite <- (ln_exp (-7)). now apply ln_increasing.
Qed.

Lemma rpower_lt1 y n : 0 < y < 1 -> (0 < n)%nat -> 0 < Rpower y (1 / INR n) < 1.
Proof.
  intros H Hn. split; [apply exp_pos|]. apply Rlt_le_trans with (exp 0); [|rewrite exp_0; lra]. unfold Rpower. apply exp_increasing.
  assert (ln y < 0) by (rewrite <- ln_1; apply ln_increasing; lra).
  assert (0 < 1 / INR n) by (apply Rmult_lt_0_compat; [lra|apply Rinv_0_lt_compat, lt_0_INR; lia]). nra.
Qed.

Lemma single_value p n : 0 < p < 1 -> (0 < n)%nat ->
  p_single_trial p n =
  if Rlt_dec p (exp (-7)) then Some (p / INR n)
  else if Rlt_dec (1 - p) (1 / 10 ^ 15 * 1000) then None
  else Some (1 - Rpower (1 - p) (1 / INR n)).
Proof.
  intros Hp Hn. unfold p_single_trial, logp_single_trial. cbv zeta. assert (T := ln_thr p ltac:(lra)).
  assert (N : 0 < INR n) by now apply lt_0_INR. rewrite !(exp_ln p) by lra.
  destruct (Rlt_dec (ln p) (-7)), (Rlt_dec p (exp (-7))); try tauto.
  - cbn [option_map]. f_equal. unfold Rminus. rewrite exp_plus, (exp_ln p), exp_Ropp, exp_ln by lra. reflexivity.
  - destruct (Rlt_dec (1 - p) (1 / 10 ^ 15 * 1000)); [reflexivity|]. cbn [option_map]. f_equal. apply exp_ln.
    assert (Q := rpower_lt1 (1 - p) n ltac:(lra) Hn). lra.
Qed.

(* from the multi-trial level to the single-trial level and back *)
Lemma multi_of_single p n q : 0 < p < 1 -> (0 < n)%nat -> p_single_trial p n = Some q ->
  0 < q < 1 /\ p_multitrial q n = p.
Proof.
  intros Hp Hn. rewrite single_value by assumption. assert (N : 1 <= INR n) by (change 1 with (INR 1); apply le_INR; lia).
  destruct (Rlt_dec p (exp (-7))) as [L|L].
  - intros E. injection E as <-.
    assert (B : p / INR n * INR n = p) by (field; lra).
    assert (Q : 0 < p / INR n < 1).
    { split; [apply Rmult_lt_0_compat; [lra|apply Rinv_0_lt_compat; lra]|]. nra. }
    split; [exact Q|]. rewrite multi_value by (try assumption; lra). rewrite B.
    destruct (Rlt_dec p (exp (-7))); [reflexivity|lra].
  - destruct (Rlt_dec (1 - p) (1 / 10 ^ 15 * 1000)); [discriminate|]. intros E. injection E as <-.
    assert (Q := rpower_lt1 (1 - p) n ltac:(lra) Hn). set (r := Rpower (1 - p) (1 / INR n)) in *.
    assert (RP : r ^ n = 1 - p) by (apply rpower_pow; [lra|assumption]).
    split; [lra|]. rewrite multi_value by (try assumption; lra).
    assert (AL : at_least_one (1 - r) n = p) by (unfold at_least_one; replace (1 - (1 - r)) with r by ring; lra).
    assert (B := bern (1 - r) n ltac:(lra)). rewrite AL in *.
    destruct (Rlt_dec ((1 - r) * INR n) (exp (-7))); lra.
Qed.

(* from the single-trial level to the multi-trial level and back: exact outside a narrow window *)
Lemma single_of_multi p n : 0 < p < 1 -> (0 < n)%nat ->
  (p * INR n < exp (-7) \/ exp (-7) <= at_least_one p n /\ 1 / 10 ^ 12 <= (1 - p) ^ n) ->
  p_single_trial (p_multitrial p n) n = Some p.
Proof.
  intros Hp Hn H. rewrite multi_value by (try assumption; lra).
  assert (N : 1 <= INR n) by (change 1 with (INR 1); apply le_INR; lia).
  assert (B := bern p n ltac:(lra)).
  assert (E1 : exp (-7) < 1) by (rewrite <- exp_0; apply exp_increasing; lra).
  destruct (Rlt_dec (p * INR n) (exp (-7))) as [L|L].
  - rewrite single_value by (try assumption; split; nra).
    destruct (Rlt_dec (p * INR n) (exp (-7))); [|lra]. f_equal. field. lra.
  - destruct H as [H|[H1 H2]]; [lra|].
    assert (P : 0 < (1 - p) ^ n) by (apply pow_lt; lra).
    assert (E0 := exp_pos (-7)).
    rewrite single_value by (try assumption; unfold at_least_one in *; lra).
    destruct (Rlt_dec (at_least_one p n) (exp (-7))); [lra|].
    unfold at_least_one. replace (1 - (1 - (1 - p) ^ n)) with ((1 - p) ^ n) by ring.
    destruct (Rlt_dec ((1 - p) ^ n) (1 / 10 ^ 15 * 1000)) as [C|_]; [lra|].
    f_equal. rewrite pow_rpower by (try assumption; lra). ring.
Qed.

Lemma single_of_multi_refuted : exists p n q, 0 < p < 1 /\ (0 < n)%nat /\
  p_single_trial (p_multitrial p n) n = Some q /\ q <> p.
Proof.
  assert (B := exp7_bounds). set (x := exp (-7)) in *.
  exists (x / 2), 2%nat, ((1 - (1 - x / 2) ^ 2) / INR 2). split; [lra|]. split; [lia|].
  rewrite multi_value by (try lia; lra). fold x. cbn [INR].
  destruct (Rlt_dec (x / 2 * (1 + 1)) x) as [C|_]; [lra|]. unfold at_least_one.
  assert (V : 1 - (1 - x / 2) ^ 2 = x - x * x / 4) by (cbn [pow]; field). rewrite V.
  rewrite single_value by (try lia; nra). fold x.
  destruct (Rlt_dec (x - x * x / 4) x) as [_|C]; [|nra]. split; [cbn [INR]; reflexivity|]. cbn [INR]. nra.
Qed.

Lemma single_nan : exists p n, 0 < p < 1 /\ (0 < n)%nat /\ p_single_trial (p_multitrial p n) n = None.
Proof.
  exists (1 / 2), 41%nat. split; [lra|]. split; [lia|].
  assert (B := exp7_bounds). rewrite multi_value by (try lia; lra).
  assert (N : INR 41 = 41) by (rewrite INR_IZR_INZ; reflexivity). rewrite N.
  destruct (Rlt_dec (1 / 2 * 41) (exp (-7))) as [C|_]; [lra|].
  unfold at_least_one. assert (V : (1 - 1 / 2) ^ 41 = / 2199023255552).
  { replace (1 - 1 / 2) with (/ 2) by field. rewrite pow_inv. f_equal. cbn [pow]. ring. }
  rewrite V. rewrite single_value by (try lia; lra).
  destruct (Rlt_dec (1 - / 2199023255552) (exp (-7))) as [C|_]; [lra|].
  destruct (Rlt_dec (1 - (1 - / 2199023255552)) (1 / 10 ^ 15 * 1000)) as [_|C]; [reflexivity|].
  exfalso. apply C. cbn [pow]. lra.
Qed.
