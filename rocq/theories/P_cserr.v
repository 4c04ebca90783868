(* P_cserr.v: error bars of cross spectra, covariance *)
From Verif Require Import Np Cplx M_fourier S_fourier P_dft P_norm P_avg P_avgcs P_spec P_self P_lag.
From Coq Require Import Lra.
Open Scope R_scope.

Lemma cs_errors z ps pr m dre dim dphi dg : 0 < ps -> 0 < pr -> (0 < m)%nat -> cnorm2 z <= ps * pr ->
  error_on_cs z ps pr m 0 0 = (dre, dim, dphi, dg) ->
  0 <= dre /\ 0 <= dim /\ 0 <= dphi /\ 0 <= dg /\
  2 * INR m * (dre * dre) = ps * pr + re z * re z - im z * im z /\
  2 * INR m * (dim * dim) = ps * pr - re z * re z + im z * im z /\
  INR m * (dg * dg) = ps * pr /\
  dre * dre + dim * dim = dg * dg /\
  (cnorm2 z <> 0 -> 2 * INR m * cnorm2 z * (dphi * dphi) = ps * pr - cnorm2 z).
Proof.
  intros H1 H2 Hm Hz E. unfold error_on_cs in E. rewrite (coherence_value z ps pr m H1 H2) in E.
  assert (M : 0 < INR m) by now apply lt_0_INR.
  assert (Z2 : cnorm2 z = re z * re z + im z * im z) by reflexivity.
  assert (E1 : dre = sqrt ((pr * ps + re z * re z - im z * im z) / (2 * INR m))) by congruence.
  assert (E2 : dim = sqrt ((pr * ps - re z * re z + im z * im z) / (2 * INR m))) by congruence.
  assert (E3 : dphi = sqrt ((1 - cnorm2 z / (ps * pr)) / (2 * (cnorm2 z / (ps * pr)) * INR m))) by congruence.
  assert (E4 : dg = sqrt (pr * ps / INR m)) by congruence. clear E.
  assert (I2 : 0 < / (2 * INR m)) by (apply Rinv_0_lt_compat; lra).
  assert (I1 : 0 < / INR m) by (apply Rinv_0_lt_compat; lra).
  assert (SQ1 := Rle_0_sqr (re z)). assert (SQ2 := Rle_0_sqr (im z)). unfold Rsqr in SQ1, SQ2.
  assert (A1 : 0 <= (pr * ps + re z * re z - im z * im z) / (2 * INR m)) by (apply Rmult_le_pos; nra).
  assert (A2 : 0 <= (pr * ps - re z * re z + im z * im z) / (2 * INR m)) by (apply Rmult_le_pos; nra).
  assert (A4 : 0 <= pr * ps / INR m) by (apply Rmult_le_pos; nra).
  assert (D1 : dre * dre = (pr * ps + re z * re z - im z * im z) / (2 * INR m)) by (rewrite E1; now apply sqrt_sqrt).
  assert (D2 : dim * dim = (pr * ps - re z * re z + im z * im z) / (2 * INR m)) by (rewrite E2; now apply sqrt_sqrt).
  assert (D4 : dg * dg = pr * ps / INR m) by (rewrite E4; now apply sqrt_sqrt).
  repeat split.
  - rewrite E1. apply sqrt_pos.
  - rewrite E2. apply sqrt_pos.
  - rewrite E3. apply sqrt_pos.
  - rewrite E4. apply sqrt_pos.
  - rewrite D1. field. lra.
  - rewrite D2. field. lra.
  - rewrite D4. field. lra.
  - rewrite D1, D2, D4. field. lra.
  - intros NZ. assert (C0 := cnorm2_nonneg z). assert (CP : 0 < cnorm2 z) by lra.
    assert (PP : 0 < ps * pr) by nra.
    assert (A3 : 0 <= (1 - cnorm2 z / (ps * pr)) / (2 * (cnorm2 z / (ps * pr)) * INR m)).
    { replace ((1 - cnorm2 z / (ps * pr)) / (2 * (cnorm2 z / (ps * pr)) * INR m))
        with ((ps * pr - cnorm2 z) * / (2 * cnorm2 z * INR m)) by (field; repeat split; lra).
      apply Rmult_le_pos; [lra|]. left. apply Rinv_0_lt_compat. nra. }
    rewrite E3, sqrt_sqrt by exact A3. field. repeat split; lra.
Qed.

Lemma covariance_main z ref noise dnu : noise < ref -> 0 <= dnu ->
  cnorm2 (cross_to_covariance z ref noise dnu) = cnorm2 z * dnu / (ref - noise) /\
  re z * im (cross_to_covariance z ref noise dnu) = im z * re (cross_to_covariance z ref noise dnu) /\
  0 <= re z * re (cross_to_covariance z ref noise dnu).
Proof.
  intros H D. unfold cross_to_covariance, cscal, cnorm2. cbn [re im fst snd].
  set (s := sqrt (dnu / (ref - noise))).
  assert (S : s * s = dnu / (ref - noise)) by (apply sqrt_sqrt; apply Rmult_le_pos; [lra|left; apply Rinv_0_lt_compat; lra]).
  assert (0 <= s) by apply sqrt_pos.
  repeat split.
  - transitivity ((fst z * fst z + snd z * snd z) * (s * s)); [unfold re, im; ring|]. rewrite S. unfold re, im. field. lra.
  - unfold re, im. ring.
  - replace (re z * (re z * s)) with (re z * re z * s) by ring. apply Rmult_le_pos; [|assumption].
    pose proof (Rle_0_sqr (re z)) as T. exact T.
Qed.

(* raw coherence and bias with noise levels between 0 and the powers *)
Lemma bias_bounds p q n1 n2 m ic : (0 < m)%nat -> 0 <= n1 <= p -> 0 <= n2 <= q -> 0 <= ic <= 1 ->
  0 <= bias_term p q n1 n2 m ic.
Proof.
  intros Hm H1 H2 Hi. unfold bias_term. destruct (Nat.ltb 500 m); [lra|].
  assert (M : 0 < / INR m) by (apply Rinv_0_lt_compat, lt_0_INR; lia).
  apply Rmult_le_pos; [|lra].
  assert (A : 0 <= (p - n1) * (q - n2) <= p * q) by (split; nra).
  replace (ic * (p - n1) * (q - n2)) with (ic * ((p - n1) * (q - n2))) by ring. nra.
Qed.

Lemma bias_expected p q n1 n2 m ic : bias_term p q n1 n2 m ic = expected_bias p q n1 n2 m ic.
Proof. unfold bias_term, expected_bias. destruct (Nat.ltb 500 m); [ring|]. f_equal. ring. Qed.

Lemma num_cases z b : 0 <= b ->
  let num := re (cmul z (cconj z)) - b in
  0 <= (if Rlt_dec num 0 then re (cmul z (cconj z)) else num) <= cnorm2 z.
Proof.
  intros B. cbv zeta. assert (E : re (cmul z (cconj z)) = cnorm2 z) by (rewrite mul_conj; reflexivity). rewrite E.
  pose proof (cnorm2_nonneg z). destruct (Rlt_dec (cnorm2 z - b) 0); lra.
Qed.

Lemma coherence_noise z p q n1 n2 m : 0 < p -> 0 < q -> (0 < m)%nat -> 0 <= n1 <= p -> 0 <= n2 <= q ->
  cnorm2 z <= p * q -> 0 <= raw_coherence z p q n1 n2 m 1 <= 1.
Proof.
  intros Hp Hq Hm H1 H2 Hz. unfold raw_coherence.
  destruct (num_cases z _ (bias_bounds p q n1 n2 m 1 Hm H1 H2 ltac:(lra))) as [A B]. cbv zeta in *.
  set (num := if Rlt_dec _ 0 then _ else _) in *.
  assert (PP : 0 < p * q) by nra. assert (0 < / (p * q)) by now apply Rinv_0_lt_compat.
  split; [apply Rmult_le_pos; lra|]. apply (Rmult_le_reg_r (p * q)); [assumption|].
  replace (num / (p * q) * (p * q)) with num by (field; lra). lra.
Qed.

Lemma coherence_averaged_noise segs1 segs2 dt norm (common fullspec : bool) subcs n c z p q m n1 n2 :
  (0 < n)%nat -> tuples_nonzero segs1 -> tuples_nonzero segs2 ->
  (forall s, In s (usable2 segs1 segs2) -> length (s_flux (fst s)) = n /\ length (s_flux (snd s)) = n) ->
  avg_cs segs1 segs2 dt norm common fullspec PAll true subcs = Ok (Some c) ->
  forall j a, c_auxil c = Some a ->
  nth_error (c_unnorm c) j = Some z -> nth_error (fst (snd a)) j = Some p -> nth_error (snd (snd a)) j = Some q ->
  0 < p -> 0 < q -> (0 < m)%nat -> 0 <= n1 <= p -> 0 <= n2 <= q ->
  0 <= raw_coherence z p q n1 n2 m 1 <= 1.
Proof.
  intros Hn T1 T2 L E j a Ea Ez Ep Eq Pp Pq Hm H1 H2. apply coherence_noise; auto.
  destruct (coherence_main segs1 segs2 dt norm common fullspec subcs n c z p q m Hn T1 T2 L E j a Ea Ez Ep Eq Pp Pq) as [V [_ U]].
  rewrite V in U. assert (PP : 0 < p * q) by nra.
  apply (Rmult_le_compat_r (p * q)) in U; [|lra].
  replace (cnorm2 z / (p * q) * (p * q)) with (cnorm2 z) in U by (field; lra). lra.
Qed.

Lemma intrinsic_bounds t z p q m new old : 0 < p -> 0 < q -> (0 < m)%nat -> cnorm2 z <= p * q -> 0 <= new <= 1 ->
  0 <= intrinsic_loop t z p q 0 0 m new old <= 1.
Proof.
  intros Hp Hq Hm Hz. revert new old. induction t as [|t IH]; intros new old Hn; cbn [intrinsic_loop]; [assumption|].
  destruct (close_coherence new old); [assumption|]. apply IH.
  destruct (num_cases z _ (bias_bounds p q 0 0 m new Hm ltac:(lra) ltac:(lra) Hn)) as [A B]. cbv zeta in *.
  set (num := if Rlt_dec _ 0 then _ else _) in *. rewrite !Rminus_0_r.
  assert (PP : 0 < p * q) by nra. assert (0 < / (p * q)) by now apply Rinv_0_lt_compat.
  split; [apply Rmult_le_pos; lra|]. apply (Rmult_le_reg_r (p * q)); [assumption|].
  replace (num / (p * q) * (p * q)) with num by (field; lra). lra.
Qed.

(* The loop leaves through the closeness test or after all its turns; a fixed point of the map is
   the published estimate. *)
Lemma intrinsic_main z p q m : 0 < p -> 0 < q -> (0 < m)%nat -> cnorm2 z <= p * q ->
  0 <= intrinsic_coherence z p q 0 0 m <= 1.
Proof. intros. apply intrinsic_bounds; auto. lra. Qed.

(* perfectly coherent signals are recognized, whatever the noise *)
Lemma intrinsic_step t z p q n1 n2 m new old :
  intrinsic_loop (S t) z p q n1 n2 m new old =
  if close_coherence new old then new else
    let num := re (cmul z (cconj z)) - bias_term p q n1 n2 m new in
    intrinsic_loop t z p q n1 n2 m
      ((if Rlt_dec num 0 then re (cmul z (cconj z)) else num) / ((p - n1) * (q - n2))) new.
Proof. reflexivity. Qed.
Lemma intrinsic_perfect_gen t z p q n1 n2 m : n1 < p -> n2 < q -> (0 < m)%nat ->
  cnorm2 z = bias_term p q n1 n2 m 1 + (p - n1) * (q - n2) ->
  intrinsic_loop (S (S t)) z p q n1 n2 m 1 0 = 1.
Proof.
  intros H1 H2 Hm E.
  assert (D : 0 < (p - n1) * (q - n2)) by nra.
  assert (E2 : re (cmul z (cconj z)) = cnorm2 z) by (rewrite mul_conj; reflexivity).
  rewrite intrinsic_step. cbv zeta. destruct (close_coherence 1 0); [reflexivity|]. rewrite E2, E.
  replace (bias_term p q n1 n2 m 1 + (p - n1) * (q - n2) - bias_term p q n1 n2 m 1) with ((p - n1) * (q - n2)) by ring.
  destruct (Rlt_dec ((p - n1) * (q - n2)) 0); [lra|].
  replace ((p - n1) * (q - n2) / ((p - n1) * (q - n2))) with 1 by (field; split; lra).
  rewrite intrinsic_step. unfold close_coherence. rewrite Rminus_diag_eq, Rabs_R0 by reflexivity.
  destruct (Rle_dec 0 (1 / 100 + 1 / 100000 * Rabs 1)) as [_|N]; [reflexivity|].
  elim N. pose proof (Rabs_pos 1). lra.
Qed.
Lemma intrinsic_perfect z p q n1 n2 m : n1 < p -> n2 < q -> (0 < m)%nat ->
  cnorm2 z = expected_bias p q n1 n2 m 1 + (p - n1) * (q - n2) ->
  intrinsic_coherence z p q n1 n2 m = 1.
Proof. rewrite <- bias_expected. exact (intrinsic_perfect_gen 38 z p q n1 n2 m). Qed.

Lemma common_errors z ps pr m ns nr d dphi : 0 < pr -> nr < pr -> (0 < m)%nat ->
  let g := cnorm2 z - expected_bias ps pr ns nr m 1 in
  0 < g -> g <= ps * (pr - nr) ->
  error_on_cs_common z ps pr m ns nr = (d, dphi) ->
  0 <= d /\ 0 <= dphi /\
  2 * INR m * (pr - nr) * (d * d) = pr * (ps * (pr - nr) - g) /\
  dphi * dphi * g = d * d.
Proof.
  intros Hp Hn Hm g Hg Hle E. unfold error_on_cs_common in E.
  assert (E2 : re (cmul z (cconj z)) = cnorm2 z) by (rewrite mul_conj; reflexivity). rewrite E2, bias_expected in E. fold g in E.
  assert (M : 0 < INR m) by now apply lt_0_INR.
  assert (D1 : d = sqrt (pr / (2 * INR m) * (ps - g / (pr - nr)))) by congruence.
  assert (D2 : dphi = sqrt (pr / (2 * INR m) * (ps / g - 1 / (pr - nr)))) by congruence.
  assert (I1 : 0 < / (2 * INR m * (pr - nr))) by (apply Rinv_0_lt_compat; nra).
  assert (I2 : 0 < / (2 * INR m * (pr - nr) * g)) by (apply Rinv_0_lt_compat; repeat apply Rmult_lt_0_compat; lra).
  assert (A1 : pr / (2 * INR m) * (ps - g / (pr - nr)) = pr * (ps * (pr - nr) - g) * / (2 * INR m * (pr - nr))) by (field; lra).
  assert (A2 : pr / (2 * INR m) * (ps / g - 1 / (pr - nr)) = pr * (ps * (pr - nr) - g) * / (2 * INR m * (pr - nr) * g)) by (field; lra).
  assert (N : 0 <= pr * (ps * (pr - nr) - g)) by (apply Rmult_le_pos; lra).
  assert (S1 : d * d = pr * (ps * (pr - nr) - g) * / (2 * INR m * (pr - nr))).
  { rewrite D1, A1. apply sqrt_sqrt. apply Rmult_le_pos; lra. }
  assert (S2 : dphi * dphi = pr * (ps * (pr - nr) - g) * / (2 * INR m * (pr - nr) * g)).
  { rewrite D2, A2. apply sqrt_sqrt. apply Rmult_le_pos; lra. }
  split; [rewrite D1; apply sqrt_pos|]. split; [rewrite D2; apply sqrt_pos|].
  rewrite S1, S2. split; field; lra.
Qed.
