(* T_bispec.v: property theorems about the bispectrum (C97, C98). *)
From Coq Require Import Reals.
From Verif Require Import Np Lib M_utils Cplx M_corr M_window S_corr S_window S_bispec M_bispec P_window P_bispec P_bispec2 P_bispec3.
From Coq Require Import Lra Lia.
Open Scope R_scope.

(* ---------- C97: third-order cumulant ---------- *)
Theorem C97_cumulant_partial : forall counts dt maxlag biased,
  let n := length counts in let L := lag_limit n maxlag in (L < n)%nat ->
  exists b, make_bispectrum counts dt maxlag None biased = Ok b /\ bi_maxlag b = L /\
  table_is (bi_cum3 b) (2 * L + 1) (fun i j => third_sum counts (Z.of_nat i - Z.of_nat L) (Z.of_nat j - Z.of_nat L) /
     divisor biased n (Z.of_nat i - Z.of_nat L) (Z.of_nat j - Z.of_nat L)) /\
  bi_lags b = map (fun i => (INR i - INR L) * dt) (seq 0 (2 * L + 1)).
Proof. exact cumulant_main. Qed.
Print Assumptions C97_cumulant_partial.
Theorem C97_terms : forall n a b,
  Z.of_nat (partners n a b) = Z.max 0 (Z.of_nat n - (Z.max 0 (Z.max a b) - Z.min 0 (Z.min a b))).
Proof. exact partners_count. Qed.
Print Assumptions C97_terms.
Theorem C97_symmetries : forall counts dt maxlag biased b,
  let n := length counts in let L := lag_limit n maxlag in (L < n)%nat ->
  make_bispectrum counts dt maxlag None biased = Ok b -> exists c, table_is (bi_cum3 b) (2 * L + 1) c /\
  forall i j, (i < 2 * L + 1)%nat -> (j < 2 * L + 1)%nat -> c i j = c j i /\
  forall j', (j' < 2 * L + 1)%nat -> (Z.of_nat j' = Z.of_nat L + (Z.of_nat j - Z.of_nat i))%Z -> c i j = c (2 * L - i)%nat j'.
Proof. exact cumulant_symmetries. Qed.
Print Assumptions C97_symmetries.
Theorem C97_too_large_error : forall counts dt maxlag biased,
  let n := length counts in let L := lag_limit n maxlag in (n < L)%nat ->
  make_bispectrum counts dt maxlag None biased = Err (if Nat.leb L (2 * n - 1) then ValueError else IndexError).
Proof. exact bispectrum_too_large. Qed.
Print Assumptions C97_too_large_error.
Theorem C97_lag_wraps_refuted : 
  exists counts b, length counts = 2%nat /\ make_bispectrum counts 1 (Some 2%Z) None true = Ok b /\
  partners 2 (-2) (-2) = 0%nat /\ exists row, nth_error (bi_cum3 b) 0 = Some row /\ nth_error row 0 = Some (1 / 2).
Proof. exact lag_wraps_refuted. Qed.
Print Assumptions C97_lag_wraps_refuted.

Example C97_nonvacuous : exists b row row2, make_bispectrum [0; 0; 3] (1 / 2) None None false = Ok b /\ bi_maxlag b = 1%nat /\ (lag_limit 3 (Some (-1)%Z) = 1)%nat /\
  nth_error (bi_cum3 b) 0 = Some row /\ nth_error row 2 = Some 2 /\ nth_error (bi_cum3 b) 1 = Some row2 /\ nth_error row2 1 = Some 2 /\
  bi_lags b = [- (1 / 2); 0; 1 / 2] /\ bi_freq b = [Some (-1); Some 0; Some 1].
Proof. exact bispec_example. Qed.

(* ---------- C98: bispectrum ---------- *)
Theorem C98_transform : forall counts dt maxlag biased b,
  let n := length counts in let L := lag_limit n maxlag in (L < n)%nat ->
  make_bispectrum counts dt maxlag None biased = Ok b ->
  table_is (bi_bispec b) (2 * L + 1) (fun i j => transform2 L (fun t1 t2 => third_sum counts t1 t2 / divisor biased n t1 t2)
     (Z.of_nat i - Z.of_nat L) (Z.of_nat j - Z.of_nat L)) /\
  (dt <> 0 -> (0 < L)%nat -> bi_freq b = map (fun i => Some ((INR i - INR L) / (2 * INR L * dt))) (seq 0 (2 * L + 1))).
Proof. exact transform_main. Qed.
Print Assumptions C98_transform.
Theorem C98_symmetries : forall counts dt maxlag biased b,
  let n := length counts in let L := lag_limit n maxlag in (L < n)%nat ->
  make_bispectrum counts dt maxlag None biased = Ok b -> exists B, table_is (bi_bispec b) (2 * L + 1) B /\
  forall i j, (i < 2 * L + 1)%nat -> (j < 2 * L + 1)%nat -> B i j = B j i /\ B (2 * L - i)%nat (2 * L - j)%nat = cconj (B i j).
Proof. exact bispec_symmetries. Qed.
Print Assumptions C98_symmetries.
Theorem C98_window : forall counts dt maxlag w biased,
  let n := length counts in let L := lag_limit n maxlag in (0 < L < n)%nat -> w <> WOther ->
  exists b b0 l v, make_bispectrum counts dt maxlag (Some w) biased = Ok b /\ make_bispectrum counts dt maxlag None biased = Ok b0 /\
  create_window (Z.of_nat (2 * L + 1)) w = Ok l /\ window_is l (2 * L + 1) v /\
  bi_maxlag b = bi_maxlag b0 /\ bi_cum3 b = bi_cum3 b0 /\ bi_lags b = bi_lags b0 /\ bi_freq b = bi_freq b0 /\
  table_is (bi_bispec b) (2 * L + 1) (fun i j => transform2 L (fun t1 t2 => third_sum counts t1 t2 / divisor biased n t1 t2 *
     ((if Z.ltb (Z.abs (t1 + t2)) (Z.of_nat L) then v (Z.to_nat (Z.of_nat L + (t1 + t2))) else 0) *
       v (Z.to_nat (Z.of_nat L + t2)) * v (Z.to_nat (Z.of_nat L + t1)))) (Z.of_nat i - Z.of_nat L) (Z.of_nat j - Z.of_nat L)).
Proof. exact windowed_main. Qed.
Print Assumptions C98_window.
Theorem C98_unknown_window_error : forall counts dt maxlag biased,
  make_bispectrum counts dt maxlag (Some WOther) biased = Err ValueError.
Proof. exact unknown_window. Qed.
Print Assumptions C98_unknown_window_error.
Theorem C98_zero_lag_error : forall counts dt biased,
  counts <> [] -> exists b, make_bispectrum counts dt (Some 0%Z) None biased = Ok b /\ bi_freq b = [None].
Proof. exact zero_lag. Qed.
Print Assumptions C98_zero_lag_error.
Theorem C98_frequency_refuted : 
  exists counts dt b i f, make_bispectrum counts dt None None true = Ok b /\ 0 < dt /\ bi_maxlag b = 1%nat /\
  nth_error (bi_freq b) i = Some (Some f) /\ f <> (INR i - INR (bi_maxlag b)) / (INR (2 * bi_maxlag b + 1) * dt).
Proof. exact frequency_refuted. Qed.
Print Assumptions C98_frequency_refuted.
Theorem C98_window_symmetry_refuted : 
  exists L l v, create_window (Z.of_nat (2 * L + 1)) WUniform = Ok l /\ window_reals l = Some v /\
  exists W, table_is (bispec_window L v) (2 * L + 1) W /\ W (L + 1)%nat (L + 1)%nat = 0 /\ W (L - 1)%nat L = 1.
Proof. exact window_symmetry_refuted. Qed.
Print Assumptions C98_window_symmetry_refuted.
Theorem C98_uniform_window_refuted : 
  exists counts b b0 r r0 z z0, make_bispectrum counts 1 None (Some WUniform) true = Ok b /\ make_bispectrum counts 1 None None true = Ok b0 /\
  nth_error (bi_bispec b) 1 = Some r /\ nth_error r 1 = Some z /\ nth_error (bi_bispec b0) 1 = Some r0 /\ nth_error r0 1 = Some z0 /\ z <> z0.
Proof. exact uniform_refuted. Qed.
Print Assumptions C98_uniform_window_refuted.

Example C98_nonvacuous : exists b b0, make_bispectrum [1; 2; 4; 3; 0] 1 (Some (-3)%Z) (Some WHamming) true = Ok b /\
  make_bispectrum [1; 2; 4; 3; 0] 1 (Some (-3)%Z) None true = Ok b0 /\ bi_cum3 b = bi_cum3 b0 /\ length (bi_bispec b) = 7%nat.
Proof.
  destruct (windowed_main [1; 2; 4; 3; 0] 1 (Some (-3)%Z) WHamming true) as (b & b0 & l & v & E1 & E2 & _ & _ & _ & E3 & _ & _ & T & _);
    [cbn; lia|discriminate|]. exists b, b0. auto.
Qed.

