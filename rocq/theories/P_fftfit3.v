(* P_fftfit3.v: the first guess of fftfit, exact copies of a template, and times of arrival. *)
From Verif Require Import Np Lib Cplx S_fourier S_fftfit M_fourier M_zn M_corr M_exvar M_fftfit P_dft P_zn P_lag P_pcolor2 P_timmer P_timmer2 P_exvar P_fftfit P_fftfit2.
From Coq Require Import Reals List Lia Lra.
Import ListNotations.
Open Scope R_scope.

Lemma rlsum_scal {A} (f : A -> R) r l : rlsum (map f l) * r = rlsum (map (fun k => f k * r) l).
Proof. induction l as [|a l IH]; cbn; [ring|]. unfold rlsum in IH. rewrite <- IH. ring. Qed.
Lemma re_clsum {A} (f : A -> cx) l : re (clsum (map f l)) = rlsum (map (fun k => re (f k)) l).
Proof. induction l as [|a l IH]; [reflexivity|]. cbn. unfold clsum, rlsum in IH. rewrite <- IH. reflexivity. Qed.
Lemma rlsum_zero {A} (f : A -> R) l : (forall k, In k l -> f k = 0) -> rlsum (map f l) = 0.
Proof. induction l as [|a l IH]; intros H; [reflexivity|]. cbn. unfold rlsum in IH. rewrite IH, H by (intros; try apply H; cbn; auto). ring. Qed.

Section Guess.
Variables p t : list R.
Hypothesis same : length t = length p.
Hypothesis long : (32 <= length p)%nat.
Let pf := fft (map rtoc (demean p)).
Let tf := fft (map rtoc (demean t)).
Let amp := amp_of pf tf.
Let pha := pha_of pf tf.
Let ccf_inv := map (fun k => if Nat.ltb k 16 then (nth k amp 0 * cos (nth k pha 0), nth k amp 0 * sin (nth k pha 0)) else c0) (seq 0 64).
Lemma ccf_at j : (j < 64)%nat -> nth j (map re (ifft ccf_inv)) 0 = correlation p t 15 (INR j / 64) / 64.
Proof.
  intros Hj. assert (L : length ccf_inv = 64%nat) by (unfold ccf_inv; now rewrite map_length, seq_length).
  rewrite (nth_map_lt2 _ _ _ c0) by (unfold ifft; rewrite map_length, seq_length, L; exact Hj).
  unfold ifft. rewrite L. rewrite (nth_map_lt2 _ _ _ 0%nat) by (rewrite seq_length; exact Hj). rewrite seq_nth by exact Hj. cbn [plus].
  unfold cscal. cbn [re fst]. unfold Rdiv. rewrite (INR_IZR_INZ 64). cbn [Z.of_nat Pos.of_succ_nat Pos.succ]. f_equal.
  unfold cs. change (fst (clsum ?l)) with (re (clsum l)). rewrite re_clsum.
  change (seq 0 64) with ([0%nat] ++ seq 1 15 ++ seq 16 48). rewrite !map_app, !rlsum_app.
  rewrite (rlsum_zero _ (seq 16 48)).
  2:{ intros k Hk. apply in_seq in Hk. unfold ccf_inv. rewrite (nth_map_lt2 _ _ _ 0%nat) by (rewrite seq_length; lia).
      rewrite seq_nth by lia. cbn [plus]. destruct (Nat.ltb_spec k 16); [lia|]. unfold cmul, c0. cbn [re im fst snd]. ring. }
  rewrite (rlsum_zero _ [0%nat]).
  2:{ intros k [<-|[]]. unfold ccf_inv. rewrite (nth_map_lt2 _ _ _ 0%nat) by (rewrite seq_length; lia).
      rewrite seq_nth by lia. cbn [plus]. destruct (Nat.ltb_spec 0 16); [|lia]. unfold amp, pf, tf. rewrite (amp_map p t same long).
      rewrite (nth_map_lt2 _ _ _ 0%nat) by (rewrite seq_length; lia). rewrite seq_nth by lia. unfold strength. cbn [plus Nat.eqb].
      unfold cmul. cbn [re im fst snd]. ring. }
  rewrite Rplus_0_l, Rplus_0_r. unfold correlation, hsum. f_equal. apply map_ext_in. intros k Hk. apply in_seq in Hk.
  unfold ccf_inv. rewrite (nth_map_lt2 _ _ _ 0%nat) by (rewrite seq_length; lia).
  rewrite seq_nth by lia. cbn [plus]. destruct (Nat.ltb_spec k 16); [|lia].
  unfold amp, pha, pf, tf. rewrite (amp_nth p t same long) by lia. rewrite (pha_nth p t same long) by lia.
  pose proof (proj1 (product_polar (dft p k) (dft t k) (2 * PI * INR k * (INR j / 64)))) as Q. unfold harmonic. change (INR j / 64) with (INR j * / 64) in Q. rewrite <- Q.
  replace (- (angle (dft p k) - angle (dft t k)) + - (2 * PI * INR k * (INR j * / 64))) with (- ((angle (dft p k) - angle (dft t k)) + 2 * PI * INR k * (INR j * / 64))) by ring.
  rewrite cos_neg, cos_plus. unfold cis, cmul. cbn [re im fst snd]. rewrite <- INR_IZR_INZ, mult_INR.
  replace (2 * PI * (INR k * INR j) / INR 64) with (2 * PI * INR k * (INR j * / 64)); [ring|].
  rewrite (INR_IZR_INZ 64). cbn [Z.of_nat Pos.of_succ_nat Pos.succ]. field.
Qed.
(* the first guess is the trial shift, of 64, at which the correlation of 15 harmonics is largest *)
Lemma guess_spec fuel s : find_delay_with_ccf fuel amp pha = Ok s ->
  exists j, (j < 64)%nat /\ wrapped (INR j / 64) s /\
    (forall i, (i < 64)%nat -> correlation p t 15 (INR i / 64) <= correlation p t 15 (INR j / 64)) /\
    (forall i, (i < j)%nat -> correlation p t 15 (INR i / 64) < correlation p t 15 (INR j / 64)).
Proof.
  unfold find_delay_with_ccf. destruct (Nat.ltb_spec (length amp) 32); [discriminate|]. fold ccf_inv.
  assert (L : length (map re (ifft ccf_inv)) = 64%nat) by (unfold ifft, ccf_inv; now rewrite !map_length, !seq_length).
  destruct (argmax_spec (map re (ifft ccf_inv))) as (j & E & B & M1 & M2); [intros C; rewrite C in L; discriminate|].
  rewrite E. cbn [bind]. rewrite L in *. intros N. apply normalize_sound in N. exists j. split; [exact B|]. split; [exact N|]. split.
  - intros i Hi. specialize (M1 i Hi). rewrite !ccf_at in M1 by assumption. lra.
  - intros i Hi. specialize (M2 i Hi). rewrite !ccf_at in M2 by lia. lra.
Qed.
End Guess.

(* ---- exact copies ---- *)
Lemma cos_lt1 (d : Z) : (d mod 64 <> 0)%Z -> cos (2 * PI * (IZR d / 64)) < 1.
Proof.
  intros H. pose proof (cis_neq1 64 d ltac:(lia) H) as N. pose proof (COS_bound (2 * PI * (IZR d / 64))) as B.
  assert (C : cos (2 * PI * (IZR d / 64)) <> 1); [|lra]. intros E. apply N. unfold cis.
  replace (2 * PI * IZR d / INR 64) with (2 * PI * (IZR d / 64)) by (rewrite (INR_IZR_INZ 64); cbn [Z.of_nat Pos.of_succ_nat Pos.succ]; field).
  rewrite E. pose proof (sin2_cos2 (2 * PI * (IZR d / 64))) as S2. rewrite E in S2. unfold Rsqr in S2.
  assert (Z : sin (2 * PI * (IZR d / 64)) = 0) by nra. rewrite Z. reflexivity.
Qed.
Lemma norm_pos z : z <> c0 -> 0 < cnorm2 z.
Proof.
  intros H. destruct z as [x y]. unfold cnorm2. cbn. destruct (Req_dec x 0) as [->|X]; [|nra].
  destruct (Req_dec y 0) as [->|Y]; [|nra]. now elim H.
Qed.
Lemma rlsum_le {A} (f g : A -> R) l : (forall k, In k l -> f k <= g k) -> rlsum (map f l) <= rlsum (map g l).
Proof. induction l as [|a l IH]; intros H; cbn; [lra|]. unfold rlsum in IH. pose proof (H a (or_introl eq_refl)). pose proof (IH (fun k Hk => H k (or_intror Hk))). lra. Qed.
Lemma copy_guess fuel m a c t p j0 s : copy_of m a c t p -> 0 < a -> (32 <= length t)%nat -> dft t 1 <> c0 ->
  (j0 < 64)%nat -> (64 * m = j0 * length t)%nat ->
  find_delay_with_ccf fuel (amp_of (fft (map rtoc (demean p))) (fft (map rtoc (demean t)))) (pha_of (fft (map rtoc (demean p))) (fft (map rtoc (demean t)))) = Ok s ->
  wrapped (INR m / INR (length t)) s.
Proof.
  intros C Ha L T1 J0 E H. pose proof (copy_len _ _ _ _ _ C) as Lp. apply guess_spec in H; [|now symmetry|lia].
  destruct H as (j & Hj & W & M & _).
  assert (N : INR (length t) <> 0) by (apply not_0_INR; lia).
  assert (R : INR m / INR (length t) = INR j0 / 64).
  { apply (f_equal INR) in E. rewrite !mult_INR in E. rewrite (INR_IZR_INZ 64) in E. cbn [Z.of_nat Pos.of_succ_nat Pos.succ] in E.
    apply (Rmult_eq_reg_r (64 * INR (length t))); [|lra]. field_simplify; [|assumption..]. lra. }
  destruct (Nat.eq_dec j j0) as [->|D]; [now rewrite R|]. exfalso.
  specialize (M j0 J0). unfold correlation, hsum in M.
  assert (K : forall i, (i < 64)%nat -> forall k, In k (seq 1 15) -> re (harmonic p t k (INR i / 64)) = a * cnorm2 (dft t k) * cos (2 * PI * INR k * ((INR i - INR j0) / 64))).
  { intros i Hi k Hk. apply in_seq in Hk. rewrite (copy_harmonic m a c) by (auto; lia). cbn [re fst]. rewrite R. f_equal. f_equal. field. }
  rewrite (map_ext_in _ _ _ (K j0 J0)), (map_ext_in _ _ _ (K j Hj)) in M.
  change (seq 1 15) with (1%nat :: seq 2 14) in M. cbn [map rlsum fold_right] in M.
  fold (rlsum (map (fun k => a * cnorm2 (dft t k) * cos (2 * PI * INR k * ((INR j - INR j0) / 64))) (seq 2 14))) in M.
  fold (rlsum (map (fun k => a * cnorm2 (dft t k) * cos (2 * PI * INR k * ((INR j0 - INR j0) / 64))) (seq 2 14))) in M.
  assert (P : forall k, 0 <= a * cnorm2 (dft t k)) by (intros k; pose proof (cnorm2_nonneg (dft t k)); nra).
  assert (O : forall k, cos (2 * PI * INR k * ((INR j0 - INR j0) / 64)) = 1).
  { intros k. replace (2 * PI * INR k * ((INR j0 - INR j0) / 64)) with 0 by field. apply cos_0. }
  assert (Q : rlsum (map (fun k => a * cnorm2 (dft t k) * cos (2 * PI * INR k * ((INR j - INR j0) / 64))) (seq 2 14)) <=
    rlsum (map (fun k => a * cnorm2 (dft t k) * cos (2 * PI * INR k * ((INR j0 - INR j0) / 64))) (seq 2 14))).
  { apply rlsum_le. intros k _. rewrite O. pose proof (P k). pose proof (COS_bound (2 * PI * INR k * ((INR j - INR j0) / 64))). nra. }
  rewrite (O 1%nat) in M.
  assert (Z : (INR j - INR j0) = IZR (Z.of_nat j - Z.of_nat j0)) by (rewrite minus_IZR, <- !INR_IZR_INZ; reflexivity).
  assert (Y : cos (2 * PI * INR 1 * ((INR j - INR j0) / 64)) < 1).
  { change (INR 1) with 1. rewrite Rmult_1_r, Z. apply cos_lt1. intros B. apply Z.mod_divide in B; [|lia]. destruct B as [q B]. lia. }
  assert (X : 0 < a * cnorm2 (dft t 1)) by (pose proof (norm_pos _ T1); nra).
  nra.
Qed.

(* the slope of a copy has the sign of the distance from the delay, up to half a turn of the fastest harmonic *)
Lemma copy_slope m a c t p K d : copy_of m a c t p -> 0 < a -> dft t 1 <> c0 -> (0 < K < length t)%nat ->
  0 < d -> 2 * INR K * d < 1 ->
  0 < slope p t K (INR m / INR (length t) + d) /\ slope p t K (INR m / INR (length t) - d) < 0.
Proof.
  intros C Ha T1 HK Hd Hs. unfold slope, hsum. replace K with (S (K - 1)) at 1 2 by lia. cbn [seq map rlsum fold_right].
  change (fold_right Rplus 0) with rlsum.
  assert (T : forall k, (0 < k <= K)%nat -> 0 <= a * cnorm2 (dft t k) /\ 0 < INR k /\ 0 < sin (2 * PI * INR k * d)).
  { intros k Hk. pose proof (cnorm2_nonneg (dft t k)). pose proof PI_RGT_0. assert (0 < INR k) by (apply lt_0_INR; lia).
    assert (INR k <= INR K) by (apply le_INR; lia). split; [nra|]. split; [assumption|]. apply sin_gt_0; [apply Rmult_lt_0_compat; nra|].
    assert (2 * INR k * d < 1) by nra. nra. }
  assert (V : forall k, (0 < k <= K)%nat -> im (harmonic p t k (INR m / INR (length t) + d)) = a * cnorm2 (dft t k) * sin (2 * PI * INR k * d) /\
      im (harmonic p t k (INR m / INR (length t) - d)) = - (a * cnorm2 (dft t k) * sin (2 * PI * INR k * d))).
  { intros k Hk. rewrite !(copy_harmonic m a c) by (auto; lia). cbn [im snd].
    replace (INR m / INR (length t) + d - INR m / INR (length t)) with d by ring.
    replace (2 * PI * INR k * (INR m / INR (length t) - d - INR m / INR (length t))) with (- (2 * PI * INR k * d)) by ring.
    rewrite sin_neg. split; ring. }
  assert (G : forall l, (forall k, In k l -> (0 < k <= K)%nat) ->
     0 <= rlsum (map (fun k => INR k * im (harmonic p t k (INR m / INR (length t) + d))) l) /\
     rlsum (map (fun k => INR k * im (harmonic p t k (INR m / INR (length t) - d))) l) <= 0).
  { induction l as [|k l IH]; intros B; [cbn; lra|]. cbn [map rlsum fold_right]. change (fold_right Rplus 0) with rlsum.
    destruct (IH (fun k Hk => B k (or_intror Hk))) as [I1 I2]. destruct (T k (B k (or_introl eq_refl))) as (A1 & A2 & A3).
    destruct (V k (B k (or_introl eq_refl))) as [-> ->].
    assert (0 <= INR k * (a * cnorm2 (dft t k) * sin (2 * PI * INR k * d))) by (apply Rmult_le_pos; [lra|apply Rmult_le_pos; lra]).
    split; lra. }
  destruct (G (seq 2 (K - 1))) as [I1 I2]; [intros k Hk; apply in_seq in Hk; lia|].
  destruct (T 1%nat ltac:(lia)) as (_ & _ & A3). destruct (V 1%nat ltac:(lia)) as [-> ->].
  assert (X : 0 < a * cnorm2 (dft t 1)) by (pose proof (norm_pos _ T1); nra).
  assert (0 < INR 1 * (a * cnorm2 (dft t 1) * sin (2 * PI * INR 1 * d))) by (change (INR 1) with 1 at 1; rewrite Rmult_1_l; apply Rmult_lt_0_compat; assumption).
  split; lra.
Qed.
Lemma strong_pos p t : p <> [] -> (0 < strong p t)%nat.
Proof.
  intros H. unfold strong. set (n := length p). assert (Hn : (0 < n)%nat) by (unfold n; destruct p; [congruence|cbn; lia]).
  set (f := strength p t). set (mu := rs n f / INR n).
  destruct (filter _ (seq 0 n)) as [|k l] eqn:E; [|cbn; lia]. exfalso.
  assert (A : forall k, (k < n)%nat -> f k < mu).
  { intros k Hk. destruct (Rle_dec mu (f k)) as [X|X]; [|lra].
    assert (I : In k (filter (fun k => if Rle_dec mu (f k) then true else false) (seq 0 n))).
    { apply filter_In. split; [apply in_seq; lia|]. destruct (Rle_dec mu (f k)); [reflexivity|lra]. }
    unfold f in I. fold f in I. rewrite E in I. destruct I. }
  assert (N : 0 < INR n) by (apply lt_0_INR; lia).
  assert (B : forall k, (0 < k <= n)%nat -> rs k f < INR k * mu).
  { induction k as [|k IH]; intros Hk; [lia|]. rewrite rs_S, S_INR. pose proof (A k ltac:(lia)).
    destruct k as [|k]; [change (rs 0 f) with 0; change (INR 0) with 0; lra|]. pose proof (IH ltac:(lia)). lra. }
  specialize (B n ltac:(lia)). unfold mu in B. replace (INR n * (rs n f / INR n)) with (rs n f) in B by (field; lra). lra.
Qed.
Lemma bracket_next fuel f step start : f start = 0 -> f (start + step) <> 0 -> bracket (S (S fuel)) f (rsign (f start)) step start start = Ok (start + step).
Proof.
  intros E N. cbn [bracket]. rewrite E, Z.eqb_refl. cbn [negb].
  destruct (Z.eqb_spec (rsign (f (start + step))) (rsign 0)) as [X|X]; [|reflexivity]. exfalso. unfold rsign in X.
  destruct (Rlt_dec 0 0); [lra|]. destruct (Rlt_dec 0 (f (start + step))); [discriminate|].
  destruct (Rlt_dec (f (start + step)) 0); [discriminate|]. lra.
Qed.
Lemma copy_found fuel brentq m a c t p j0 : finds_roots brentq ->
  (forall f x y, x < y -> f x * f y < 0 -> exists z, brentq f x y = Ok z) ->
  copy_of m a c t p -> 0 < a -> (32 <= length t)%nat -> dft t 1 <> c0 ->
  (j0 < 64)%nat -> (64 * m = j0 * length t)%nat -> (6 * strong p t < length t)%nat ->
  exists b eb s es, taylor_fftfit (S (S (S fuel))) brentq p t = Ok (b, eb, s, es) /\ wrapped (INR m / INR (length t)) s /\
    (tpower t (strong p t - 1) <> 0 -> b = Some a).
Proof.
  intros HB HE C Ha L T1 J0 E HS. pose proof (copy_len _ _ _ _ _ C) as Lp. set (n := length t) in *. set (K := strong p t) in *.
  assert (Pn : p <> []) by (intros ->; cbn in Lp; lia).
  assert (KP : (0 < K)%nat) by (apply strong_pos; exact Pn).
  assert (N : 0 < INR n) by (apply lt_0_INR; lia).
  assert (KN : 6 * INR K < INR n) by (apply lt_INR in HS; rewrite mult_INR in HS; rewrite (INR_IZR_INZ 6) in HS; exact HS).
  set (tau := INR m / INR n).
  assert (X : exists r, taylor_fftfit (S (S (S fuel))) brentq p t = Ok r /\ wrapped tau (snd (fst r))).
  { unfold taylor_fftfit. destruct (Nat.eqb_spec (length t) (length p)) as [E'|E']; [cbn [negb]|lia].
    assert (Ll : (32 <= length p)%nat) by lia.
    destruct (find_delay_ok (S fuel) (amp_of (fft (map rtoc (demean p))) (fft (map rtoc (demean t)))) (pha_of (fft (map rtoc (demean p))) (fft (map rtoc (demean t))))) as (st & Es).
    { rewrite (amp_len p t E' Ll). exact Ll. }
    rewrite Es. cbn [bind].
    apply (copy_guess (S (S (S fuel))) m a c t p j0) in Es; auto. fold n in Es. fold tau in Es. destruct Es as [SW (z & SZ)].
    assert (HK : (strong p t <= length p - 1)%nat) by (fold K; lia).
    rewrite (func_slope p t E' Ll _ HK). cbn [bind].
    match goal with |- context [bracket _ ?f _ _ _ _] => set (F := f) end.
    assert (FE : forall x, F x = - slope p t K x) by (intros x; unfold F; rewrite (func_slope p t E' Ll _ HK); reflexivity).
    assert (S0 : forall d, slope p t K (st + d) = slope p t K (tau + d)).
    { intros d. rewrite SZ. replace (tau + IZR z + d) with (tau + d + IZR z) by ring. apply slope_turn. }
    assert (SP : forall d, 0 < d -> d <= 3 / INR n -> 0 < slope p t K (st + d) /\ slope p t K (st - d) < 0).
    { intros d D1 D2. pose proof (S0 (- d)) as Sm. unfold Rminus. rewrite S0, Sm.
      apply (copy_slope m a c); auto; [fold n; lia|]. assert (2 * INR K * d <= 2 * INR K * (3 / INR n)) by (apply Rmult_le_compat_l; [pose proof (pos_INR K); lra|assumption]).
      assert (2 * INR K * (3 / INR n) = (6 * INR K) / INR n) by (field; lra). assert (6 * INR K / INR n < 1) by (apply (Rmult_lt_reg_r (INR n)); [assumption|]; field_simplify; lra). lra. }
    assert (I1 : 0 < 1 / INR n) by (apply Rdiv_lt_0_compat; lra).
    assert (I3 : 3 / INR n = 3 * (1 / INR n)) by (field; lra). assert (I2 : 2 / INR n = 2 * (1 / INR n)) by (field; lra).
    rewrite <- Lp in N, I1, I2, I3, SP. 
    match goal with |- context [bracket ?fu F ?sg ?stp ?x ?y] => replace sg with (rsign (F x)) by (rewrite FE; reflexivity) end.
    rewrite bracket_next.
    2:{ rewrite FE. pose proof (S0 0) as Z0. rewrite !Rplus_0_r in Z0. rewrite Z0. unfold tau. rewrite (copy_solves m a c) by (auto; fold n; lia). ring. }
    2:{ rewrite FE. destruct (SP (1 / INR (length p))); lra. }
    cbn [bind]. rewrite I2 in *. set (u := 1 / INR (length p)) in *.
    destruct (SP u) as [P1 P2]; [lra..|]. destruct (SP (3 * u)) as [P3 P4]; [lra..|].
    destruct (HE F (st + u - 2 * u) (st + u + 2 * u)) as (root & Er); [lra| |].
    { rewrite !FE. replace (st + u - 2 * u) with (st - u) by ring. replace (st + u + 2 * u) with (st + 3 * u) by ring. nra. }
    rewrite Er. cbn [bind]. apply HB in Er. destruct Er as [Z0 [Za Zb]]. rewrite FE in Z0.
    assert (RT : root = st).
    { destruct (Rtotal_order root st) as [Q|[Q|Q]]; [|assumption|].
      - destruct (SP (st - root)) as [_ Y]; [lra..|]. replace (st - (st - root)) with root in Y by ring. lra.
      - destruct (SP (root - st)) as [Y _]; [lra..|]. replace (st + (root - st)) with root in Y by ring. lra. }
    subst root. destruct (normalize_ends (S (S fuel)) st) as (y & Ey & Wy).
    { rewrite !S_INR. pose proof (pos_INR fuel). unfold Rabs. destruct (Rcase_abs st); lra. }
    rewrite Ey. cbn [bind]. destruct (errors_of _ _ _ _ _ _) as [[b eb] es]. eexists. split; [reflexivity|]. cbn [fst snd].
    destruct Wy as [W1 (z' & W2)]. split; [exact W1|]. exists (z + z')%Z. rewrite plus_IZR. lra. }
  destruct X as ([[[b eb] s] es] & X & W). cbn [fst snd] in W. exists b, eb, s, es. split; [exact X|]. split; [exact W|].
  intros TP. destruct (root_main _ _ _ _ _ _ _ _ HB Pn X) as (_ & _ & _ & _ & _ & _ & R). fold K in R. destruct (R TP) as [-> _].
  f_equal. destruct W as [_ (z & ->)].
  assert (CT : correlation p t (K - 1) (tau + IZR z) = correlation p t (K - 1) tau) by (unfold correlation, hsum; f_equal; apply map_ext; intros k; now rewrite harmonic_turn).
  rewrite CT. unfold tau. rewrite (copy_scale m a c) by (auto; fold n; lia). field. exact TP.
Qed.

(* ---- times of arrival ---- *)
Lemma demean_twice x : x <> [] -> demean (demean x) = demean x.
Proof.
  intros H. unfold demean at 1. assert (Z : mean (demean x) = 0).
  { unfold mean. rewrite demean_len. assert (N : INR (length x) <> 0) by (apply not_0_INR; destruct x; [congruence|discriminate]).
    unfold demean. rewrite (map_ext _ (fun v => 1 * v + - mean x)) by (intros; ring). rewrite affine_sum. unfold mean. field. assumption. }
  rewrite Z. rewrite <- (map_id (demean x)) at 2. apply map_ext. intros. ring.
Qed.
Lemma fftfit_taylor fuel brentq p t : p <> [] -> fftfit fuel brentq p t = taylor_fftfit fuel brentq p t.
Proof.
  intros H. unfold fftfit, taylor_fftfit. rewrite !demean_len. destruct (Nat.eqb_spec (length t) (length p)) as [E|E]; [|reflexivity].
  assert (T : t <> []) by (intros ->; destruct p; [congruence|discriminate]). rewrite (demean_twice p H), (demean_twice t T). reflexivity.
Qed.
Lemma floor_part x : 0 <= x - rfloor x < 1.
Proof. unfold rfloor. destruct (archimed x) as [A B]. rewrite minus_IZR. lra. Qed.
Lemma toa_spec fuel brentq p period tstart tpl add r : p <> [] -> 0 < period ->
  get_TOA fuel brentq p period tstart tpl add = Ok r ->
  exists b eb s es,
    taylor_fftfit fuel brentq p (match tpl with Some t => t | None => default_template (length p) end) = Ok (b, eb, s, es) /\
    tstart <= fst r < tstart + period /\ (exists k, fst r = tstart + (s + add + IZR k) * period) /\
    snd r = option_map (fun e => e * period) es.
Proof.
  intros H Hp. unfold get_TOA. rewrite fftfit_taylor by assumption.
  destruct (taylor_fftfit _ _ _ _) as [[[[b eb] s] es]|] eqn:E; [|discriminate]. cbn [bind]. intros R. injection R as <-. cbn [fst snd].
  exists b, eb, s, es. split; [reflexivity|]. pose proof (floor_part (s + add)) as F. split; [nra|]. split; [|reflexivity].
  exists (- (up (s + add) - 1))%Z. unfold rfloor. rewrite opp_IZR. ring.
Qed.
