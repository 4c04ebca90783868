(* P_lag.v: coherence, delays, phase and time lags *)
From Verif Require Import Np Cplx M_fourier S_fourier P_dft P_norm P_avg P_avgcs P_spec P_self.
From Coq Require Import Lra.
Open Scope R_scope.

(* ---- C32: Cauchy-Schwarz over segments ---- *)
Lemma cs_two (A B p q c1 c2 d1 d2 : R) : 0 <= A -> 0 <= B -> 0 <= p -> 0 <= q ->
  c1 * c1 + c2 * c2 <= A * B -> d1 * d1 + d2 * d2 <= p * q ->
  2 * (c1 * d1 + c2 * d2) <= A * q + B * p.
Proof.
  intros HA HB Hp Hq Hc Hd.
  assert (S : 0 <= A * q + B * p) by nra.
  assert (L : (c1 * d1 + c2 * d2) * (c1 * d1 + c2 * d2) <= (A * B) * (p * q)).
  { apply Rle_trans with ((c1 * c1 + c2 * c2) * (d1 * d1 + d2 * d2)).
    - pose proof (Rle_0_sqr (c1 * d2 - c2 * d1)) as T. unfold Rsqr in T. nra.
    - apply Rmult_le_compat; [pose proof (Rle_0_sqr c1); pose proof (Rle_0_sqr c2); unfold Rsqr in *; lra
        |pose proof (Rle_0_sqr d1); pose proof (Rle_0_sqr d2); unfold Rsqr in *; lra|assumption|assumption]. }
  assert (M : 4 * ((A * B) * (p * q)) <= (A * q + B * p) * (A * q + B * p)).
  { pose proof (Rle_0_sqr (A * q - B * p)) as T. unfold Rsqr in T. nra. }
  destruct (Rle_dec (2 * (c1 * d1 + c2 * d2)) (A * q + B * p)) as [H|H]; [exact H|exfalso].
  apply Rnot_le_lt in H.
  assert ((A * q + B * p) * (A * q + B * p) < (2 * (c1 * d1 + c2 * d2)) * (2 * (c1 * d1 + c2 * d2))).
  { apply Rle_lt_trans with ((A * q + B * p) * (2 * (c1 * d1 + c2 * d2))).
    - apply Rmult_le_compat_l; lra.
    - apply Rmult_lt_compat_r; lra. }
  nra.
Qed.

Lemma cauchy {A} (f g : A -> cx) l :
  let c := clsum (map (fun a => cmul (cconj (f a)) (g a)) l) in
  cnorm2 c <= rlsum (map (fun a => cnorm2 (f a)) l) * rlsum (map (fun a => cnorm2 (g a)) l).
Proof.
  induction l as [|a l IH]; [cbn; unfold cnorm2, c0; cbn; lra|].
  cbn [map] in *. cbv zeta in *. change (clsum (?x :: ?y)) with (cadd x (clsum y)).
  set (c := clsum _) in *. change (rlsum (?x :: ?y)) with (x + rlsum y).
  assert (HA : 0 <= rlsum (map (fun a => cnorm2 (f a)) l)) by (apply rlsum_nonneg; intros; apply cnorm2_nonneg).
  assert (HB : 0 <= rlsum (map (fun a => cnorm2 (g a)) l)) by (apply rlsum_nonneg; intros; apply cnorm2_nonneg).
  set (SA := rlsum (map (fun a => cnorm2 (f a)) l)) in *. set (SB := rlsum (map (fun a => cnorm2 (g a)) l)) in *.
  pose proof (cs_two SA SB (cnorm2 (f a)) (cnorm2 (g a)) (re c) (im c)
    (re (cmul (cconj (f a)) (g a))) (im (cmul (cconj (f a)) (g a)))
    HA HB (cnorm2_nonneg _) (cnorm2_nonneg _) IH) as T.
  assert (E : cnorm2 (cmul (cconj (f a)) (g a)) = cnorm2 (f a) * cnorm2 (g a)).
  { rewrite cnorm2_mul, cnorm2_conj. reflexivity. }
  specialize (T ltac:(change (cnorm2 (cmul (cconj (f a)) (g a)) <= cnorm2 (f a) * cnorm2 (g a)); lra)).
  set (d := cmul (cconj (f a)) (g a)) in *.
  replace (cnorm2 (cadd d c)) with (cnorm2 d + cnorm2 c + 2 * (re c * re d + im c * im d))
    by (unfold cnorm2, cadd; cbn; ring).
  rewrite E. nra.
Qed.

Lemma cross_conj x y k : cross_at x y k = cmul (cconj (dft x k)) (dft y k).
Proof. unfold cross_at, cmul, cconj. cbn. f_equal; ring. Qed.

Lemma avg_cauchy us k :
  cnorm2 (cavg (fun p => cpower p k) us) <= avg (fun p => pow1 p k) us * avg (fun p => pow2 p k) us.
Proof.
  rewrite <- cavg_clsum. unfold avg.
  rewrite (map_ext (fun p => cpower p k) (fun p => cmul (cconj (dft (s_flux (fst p)) k)) (dft (s_flux (snd p)) k)))
    by (intros; apply cross_conj).
  rewrite (map_ext (fun p => pow1 p k) (fun p => cnorm2 (dft (s_flux (fst p)) k))) by (intros; apply power_at_norm).
  rewrite (map_ext (fun p => pow2 p k) (fun p => cnorm2 (dft (s_flux (snd p)) k))) by (intros; apply power_at_norm).
  pose proof (cauchy (fun p : seg * seg => dft (s_flux (fst p)) k) (fun p => dft (s_flux (snd p)) k) us) as C. cbv zeta in C.
  set (c := clsum _) in *. set (P := rlsum (map (fun p : seg * seg => cnorm2 (dft (s_flux (fst p)) k)) us)) in *.
  set (Q := rlsum (map (fun p : seg * seg => cnorm2 (dft (s_flux (snd p)) k)) us)) in *.
  replace (cnorm2 (cscal c (/ INR (length us)))) with (cnorm2 c * (/ INR (length us) * / INR (length us)))
    by (unfold cnorm2, cscal; cbn; ring).
  unfold Rdiv. replace (P * / INR (length us) * (Q * / INR (length us))) with (P * Q * (/ INR (length us) * / INR (length us))) by ring.
  apply Rmult_le_compat_r; [|exact C].
  pose proof (Rle_0_sqr (/ INR (length us))) as T. exact T.
Qed.

Lemma coherence_core z P Q m : 0 < P -> 0 < Q -> cnorm2 z <= P * Q ->
  0 <= raw_coherence z P Q 0 0 m 1 <= 1.
Proof.
  intros HP HQ Hz. unfold raw_coherence, bias_term.
  assert (E : re (cmul z (cconj z)) = cnorm2 z) by (rewrite mul_conj; reflexivity).
  rewrite E. set (b := if (500 <? m)%nat then 0 * P else (P * Q - 1 * (P - 0) * (Q - 0)) / INR m).
  assert (B : b = 0).
  { unfold b. destruct (Nat.ltb 500 m); [ring|]. unfold Rdiv. ring. }
  rewrite B. pose proof (cnorm2_nonneg z).
  destruct (Rlt_dec (cnorm2 z - 0) 0); [lra|]. rewrite Rminus_0_r.
  assert (0 < P * Q) by nra. split.
  - apply Rmult_le_pos; [assumption|]. left. now apply Rinv_0_lt_compat.
  - apply (Rmult_le_reg_r (P * Q)); [assumption|]. replace (cnorm2 z / (P * Q) * (P * Q)) with (cnorm2 z) by (field; lra). lra.
Qed.

(* coherence of the averaged spectra, exactly |<C>|^2 / (<P1> <P2>) *)
Lemma coherence_value z P Q m : 0 < P -> 0 < Q -> raw_coherence z P Q 0 0 m 1 = cnorm2 z / (P * Q).
Proof.
  intros HP HQ. unfold raw_coherence, bias_term.
  assert (E : re (cmul z (cconj z)) = cnorm2 z) by (rewrite mul_conj; reflexivity). rewrite E.
  set (b := if (500 <? m)%nat then 0 * P else (P * Q - 1 * (P - 0) * (Q - 0)) / INR m).
  assert (B : b = 0) by (unfold b; destruct (Nat.ltb 500 m); unfold Rdiv; ring).
  rewrite B. destruct (Rlt_dec (cnorm2 z - 0) 0); now rewrite ?Rminus_0_r.
Qed.

Lemma coherence_main segs1 segs2 dt norm (common fullspec : bool) subcs n c z p q m :
  (0 < n)%nat -> tuples_nonzero segs1 -> tuples_nonzero segs2 ->
  (forall s, In s (usable2 segs1 segs2) -> length (s_flux (fst s)) = n /\ length (s_flux (snd s)) = n) ->
  avg_cs segs1 segs2 dt norm common fullspec PAll true subcs = Ok (Some c) ->
  forall j a, c_auxil c = Some a ->
  nth_error (c_unnorm c) j = Some z -> nth_error (fst (snd a)) j = Some p -> nth_error (snd (snd a)) j = Some q ->
  0 < p -> 0 < q ->
  raw_coherence z p q 0 0 m 1 = cnorm2 z / (p * q) /\ 0 <= raw_coherence z p q 0 0 m 1 <= 1.
Proof.
  intros Hn H1 H2 H3 E j a Ea Ez Ep Eq Hp Hq.
  assert (G : exists us ks, c_unnorm c = map (fun k => cavg (fun p => cpower p k) us) ks /\
     fst (snd a) = map (fun k => avg (fun p => pow1 p k) us) ks /\
     snd (snd a) = map (fun k => avg (fun p => pow2 p k) us) ks).
  { destruct common.
    - rewrite (avg_cs_common segs1 segs2 dt norm fullspec PAll true subcs n Hn H1 H2 H3) in E.
      destruct (usable2 segs1 segs2) as [|u0 us0] eqn:Eu; [discriminate|]. rewrite <- Eu in *.
      destruct (_ || _)%bool; [discriminate|].
      match type of E with Ok (Some ?T) = _ => assert (Et : c = T) by congruence end. subst c.
      cbn in Ea. injection Ea as <-. cbn. exists (usable2 segs1 segs2), (bins fullspec n). repeat split.
    - rewrite (avg_cs_own segs1 segs2 dt norm fullspec PAll true subcs n Hn H1 H2 H3) in E.
      destruct (usable2 segs1 segs2) as [|u0 us0] eqn:Eu; [discriminate|]. rewrite <- Eu in *.
      destruct (existsb _ _); [discriminate|].
      match type of E with Ok (Some ?T) = _ => assert (Et : c = T) by congruence end. subst c.
      cbn in Ea. injection Ea as <-. cbn. exists (usable2 segs1 segs2), (bins fullspec n). repeat split. }
  destruct G as (us & ks & G1 & G2 & G3). rewrite G1 in Ez. rewrite G2 in Ep. rewrite G3 in Eq.
  rewrite nth_error_map in Ez, Ep, Eq. destruct (nth_error ks j) as [k|]; [|discriminate]. cbn in *.
  injection Ez as <-. injection Ep as <-. injection Eq as <-.
  split; [now apply coherence_value|]. apply coherence_core; auto. apply avg_cauchy.
Qed.

Lemma coherence_noise_refuted :
  exists z p q noise m, 0 < p /\ 0 < q /\ 0 < noise /\ (0 < m)%nat /\ cnorm2 z <= p * q /\
    1 < raw_coherence z p q noise noise m 1.
Proof.
  exists (1/2, 0), (1/2), (1/2), 2, 1%nat. repeat split; try lra; try lia.
  - unfold cnorm2. cbn. lra.
  - unfold raw_coherence, bias_term, cmul, cconj. cbn.
    destruct (Rlt_dec _ 0); cbn in *; lra.
Qed.

(* ---- C33: delays ---- *)
Lemma cs_shift n g d : (forall j, g (j + n)%nat = g j) -> cs n (fun j => g (j + d)%nat) = cs n g.
Proof.
  intros P. induction d as [|d IH].
  - apply cs_ext. intros. f_equal. lia.
  - rewrite <- IH. clear IH. set (h := fun j => g (j + d)%nat).
    rewrite (cs_ext n (fun j => g (j + S d)%nat) (fun j => h (S j))) by (intros; unfold h; f_equal; lia).
    assert (E : cadd (h 0%nat) (cs n (fun j => h (S j))) = cadd (cs n h) (h n)).
    { rewrite <- cs_S. change (S n) with (1 + n)%nat. rewrite cs_add.
      replace (cs 1 h) with (h 0%nat) by (unfold cs, clsum; cbn; unfold cadd, c0; cbn; destruct (h 0%nat); cbn; f_equal; ring).
      f_equal. }
    assert (F : h n = h 0%nat) by (unfold h; replace (n + d)%nat with ((0 + d) + n)%nat by lia; apply P).
    rewrite F in E.
    assert (cs n (fun j => h (S j)) = csub (cadd (h 0%nat) (cs n (fun j => h (S j)))) (h 0%nat)) as -> by ring.
    rewrite E. ring.
Qed.

Lemma dft_delay d x y k : x <> [] -> delayed d x y ->
  dft y k = cmul (dft x k) (cis (length x) (- Z.of_nat (k * d))).
Proof.
  intros Hx [L V]. assert (Hn : (0 < length x)%nat) by (destruct x; [congruence|cbn; lia]).
  rewrite !dft_cs, L. set (n := length x) in *.
  set (g := fun j => cmul (rtoc (val y (j mod n))) (cis n (- Z.of_nat (k * j)))).
  rewrite (cs_ext n (fun j => cmul (rtoc (val y j)) _) g).
  2:{ intros j Hj. unfold g. now rewrite Nat.mod_small. }
  rewrite <- (cs_shift n g d).
  2:{ intros j. unfold g. f_equal.
      - f_equal. f_equal. replace (j + n)%nat with (j + 1 * n)%nat by lia. apply Nat.mod_add. lia.
      - apply cis_mod; [exact Hn|]. replace (- Z.of_nat (k * (j + n)))%Z with (- Z.of_nat (k * j) + (- Z.of_nat k) * Z.of_nat n)%Z by nia.
        apply Z.mod_add. lia. }
  rewrite <- cs_mul. apply cs_ext. intros j Hj. unfold g.
  rewrite V by exact Hj.
  replace (- Z.of_nat (k * (j + d)))%Z with (- Z.of_nat (k * j) + - Z.of_nat (k * d))%Z by nia.
  rewrite cis_add. ring.
Qed.

Lemma cross_delay d x y k : x <> [] -> delayed d x y ->
  cross_at x y k = cscal (cis (length x) (- Z.of_nat (k * d))) (power_at x k).
Proof.
  intros Hx D. rewrite cross_conj, (dft_delay d x y k Hx D).
  transitivity (cmul (cmul (dft x k) (cconj (dft x k))) (cis (length x) (- Z.of_nat (k * d)))); [ring|].
  rewrite mul_conj, power_at_norm. unfold cmul, rtoc, cscal. cbn. f_equal; ring.
Qed.

Lemma angle_polar r th : 0 < r -> - PI < th <= PI -> angle (r * cos th, r * sin th) = th.
Proof.
  intros Hr [H1 H2]. unfold angle. cbn [re im fst snd]. pose proof PI_RGT_0 as HPI.
  assert (Q : forall c s, c <> 0 -> r * s / (r * c) = s / c) by (intros; field; split; lra).
  destruct (Rlt_dec (- (PI / 2)) th) as [G1|G1]; [destruct (Rlt_dec th (PI / 2)) as [G2|G2]|].
  - assert (C : 0 < cos th) by (apply cos_gt_0; lra).
    destruct (Rlt_dec 0 (r * cos th)) as [_|N]; [|exfalso; apply N; now apply Rmult_lt_0_compat].
    rewrite Q by lra. change (sin th / cos th) with (tan th). apply atan_tan. lra.
  - destruct (Req_EM_T th (PI / 2)) as [ -> |N0].
    + rewrite cos_PI2, sin_PI2. rewrite Rmult_0_r.
      destruct (Rlt_dec 0 0); [lra|]. destruct (Rlt_dec 0 0); [lra|]. destruct (Rlt_dec 0 (r * 1)); lra.
    + assert (C : cos th < 0) by (apply cos_lt_0; lra).
      assert (S : 0 <= sin th) by (apply sin_ge_0; lra).
      destruct (Rlt_dec 0 (r * cos th)) as [N|_]; [nra|].
      destruct (Rlt_dec (r * cos th) 0) as [_|N]; [|nra].
      destruct (Rle_dec 0 (r * sin th)) as [_|N]; [|nra].
      rewrite Q by lra.
      assert (T : sin th / cos th = tan (th - PI)).
      { unfold tan. rewrite sin_minus, cos_minus, cos_PI, sin_PI. field. lra. }
      rewrite T, atan_tan; lra.
  - destruct (Req_EM_T th (- (PI / 2))) as [ -> |N0].
    + rewrite cos_neg, sin_neg, cos_PI2, sin_PI2. rewrite Rmult_0_r.
      destruct (Rlt_dec 0 0); [lra|]. destruct (Rlt_dec 0 0); [lra|]. destruct (Rlt_dec 0 (r * - (1))); [lra|].
      destruct (Rlt_dec (r * - (1)) 0); lra.
    + assert (C : cos th < 0).
      { rewrite <- cos_neg. apply cos_lt_0; lra. }
      assert (S : sin th < 0) by (apply sin_lt_0_var; lra).
      destruct (Rlt_dec 0 (r * cos th)) as [N|_]; [nra|].
      destruct (Rlt_dec (r * cos th) 0) as [_|N]; [|nra].
      destruct (Rle_dec 0 (r * sin th)) as [N|_]; [nra|].
      rewrite Q by lra.
      assert (T : sin th / cos th = tan (th + PI)).
      { unfold tan. rewrite sin_plus, cos_plus, cos_PI, sin_PI. field. lra. }
      rewrite T, atan_tan; lra.
Qed.

(* every usable pair is a delay by d bins *)
Lemma lag_main segs1 segs2 dt norm (common auxil subcs : bool) n d c :
  (0 < n)%nat -> 0 < dt -> tuples_nonzero segs1 -> tuples_nonzero segs2 ->
  (forall s, In s (usable2 segs1 segs2) -> length (s_flux (fst s)) = n /\ delayed_seg d s) ->
  avg_cs segs1 segs2 dt norm common false PAll auxil subcs = Ok (Some c) ->
  forall j k, nth_error (seq 1 (n_pos n)) j = Some k -> (2 * k * d < n)%nat ->
  0 < avg (fun s => pow1 s k) (usable2 segs1 segs2) ->
  nth_error (phase_lag (c_unnorm c)) j = Some (- (2 * PI * INR k * INR d / INR n)) /\
  nth_error (time_lag (c_unnorm c) (c_freq c)) j = Some (- (INR d * dt)).
Proof.
  intros Hn Hdt H1 H2 H3 E j k Hj Hk HP.
  assert (H3' : forall s, In s (usable2 segs1 segs2) -> length (s_flux (fst s)) = n /\ length (s_flux (snd s)) = n).
  { intros s Hs. destruct (H3 s Hs) as [L [D _]]. rewrite L in D. auto. }
  assert (G : c_unnorm c = map (fun k => cavg (fun p => cpower p k) (usable2 segs1 segs2)) (seq 1 (n_pos n)) /\
              c_freq c = map (bin_freq n dt) (seq 1 (n_pos n))).
  { destruct common.
    - rewrite (avg_cs_common segs1 segs2 dt norm false PAll auxil subcs n Hn H1 H2 H3') in E.
      destruct (usable2 segs1 segs2) as [|u0 us0] eqn:Eu; [discriminate|]. rewrite <- Eu in *.
      destruct (_ || _)%bool; [discriminate|].
      match type of E with Ok (Some ?T) = _ => assert (Et : c = T) by congruence end. subst c. split; reflexivity.
    - rewrite (avg_cs_own segs1 segs2 dt norm false PAll auxil subcs n Hn H1 H2 H3') in E.
      destruct (usable2 segs1 segs2) as [|u0 us0] eqn:Eu; [discriminate|]. rewrite <- Eu in *.
      destruct (existsb _ _); [discriminate|].
      match type of E with Ok (Some ?T) = _ => assert (Et : c = T) by congruence end. subst c. split; reflexivity. }
  destruct G as [G1 G2].
  set (us := usable2 segs1 segs2) in *.
  assert (C : cavg (fun p => cpower p k) us = cscal (cis n (- Z.of_nat (k * d))) (avg (fun p => pow1 p k) us)).
  { rewrite (cavg_ext _ (fun p => cscal (cis n (- Z.of_nat (k * d))) (pow1 p k))).
    - unfold cavg, cscal. cbn [re im fst snd]. f_equal; rewrite Rmult_comm, <- avg_lin; apply avg_ext; intros; ring.
    - intros p Hp. unfold cpower, pow1. destruct (H3 p Hp) as [L D].
      rewrite (cross_delay d); [now rewrite L| |exact D]. destruct (s_flux (fst p)); [cbn in L; lia|congruence]. }
  assert (Hn' : 0 < INR n) by now apply lt_0_INR.
  assert (K1 : In k (seq 1 (n_pos n))) by (eapply nth_error_In; exact Hj).
  assert (K : (0 < k)%nat) by (apply in_seq in K1; lia).
  assert (A : angle (cavg (fun p => cpower p k) us) = - (2 * PI * INR k * INR d / INR n)).
  { rewrite C.
    assert (Z : cscal (cis n (- Z.of_nat (k * d))) (avg (fun p => pow1 p k) us)
      = (avg (fun p => pow1 p k) us * cos (- (2 * PI * INR k * INR d / INR n)),
         avg (fun p => pow1 p k) us * sin (- (2 * PI * INR k * INR d / INR n)))).
    { unfold cscal, cis. cbn [re im fst snd].
      replace (2 * PI * IZR (- Z.of_nat (k * d)) / INR n) with (- (2 * PI * INR k * INR d / INR n)).
      - f_equal; ring.
      - rewrite opp_IZR, <- INR_IZR_INZ, mult_INR. field. lra. }
    rewrite Z. apply angle_polar; [exact HP|]. pose proof PI_RGT_0 as HPI.
    assert (B : 0 <= INR k * INR d) by (apply Rmult_le_pos; apply pos_INR).
    assert (B2 : 2 * (INR k * INR d) < INR n).
    { apply lt_INR in Hk. rewrite !mult_INR in Hk. change (INR 2) with 2 in Hk. lra. }
    set (w := INR k * INR d) in *.
    replace (2 * PI * INR k * INR d / INR n) with (PI * (2 * w / INR n)) by (unfold w; field; lra).
    assert (W1 : 0 <= 2 * w / INR n) by (apply Rmult_le_pos; [lra|left; now apply Rinv_0_lt_compat]).
    assert (W2 : 2 * w / INR n < 1) by (apply (Rmult_lt_reg_r (INR n)); [lra|]; replace (2 * w / INR n * INR n) with (2 * w) by (field; lra); lra).
    split; nra. }
  unfold time_lag, phase_lag. rewrite G1, G2. split.
  - rewrite !nth_error_map, Hj. cbn. now rewrite A.
  - rewrite map_map.
    assert (CM : forall {A B} (f : nat -> A) (g : nat -> B) l, combine (map f l) (map g l) = map (fun i => (f i, g i)) l)
      by (intros; induction l as [|? ? IH]; cbn; [reflexivity|now rewrite IH]).
    rewrite CM, nth_error_map, nth_error_map, Hj. cbn. f_equal.
    rewrite A, (bin_freq_pos n dt k Hn K1). pose proof PI_RGT_0. assert (0 < INR k) by now apply lt_0_INR.
    field. repeat split; lra.
Qed.
