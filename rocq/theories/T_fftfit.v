(* T_fftfit.v: property theorems about template fitting and times of arrival (C165 - C167). *)
From Verif Require Import Np Lib Cplx S_fourier S_fftfit M_fourier M_zn M_corr M_exvar M_fftfit P_fftfit P_fftfit2 P_fftfit3 P_fftfit4.
From Coq Require Import Reals List Arith ZArith Lia Lra.
Import ListNotations.
Open Scope R_scope.

(* ---------- C165: phases between -1/2 and 1/2 ---------- *)
Theorem C165_normalize : forall fuel x,
  Rabs x < INR fuel -> exists y, normalize_phase_0d5 (S fuel) x = Ok y /\ wrapped x y.
Proof. exact normalize_ends. Qed.
Print Assumptions C165_normalize.
Theorem C165_sound : forall fuel x y,
  normalize_phase_0d5 fuel x = Ok y -> wrapped x y.
Proof. exact normalize_sound. Qed.
Print Assumptions C165_sound.
Theorem C165_unique : forall x y z,
  wrapped x y -> wrapped x z -> y = z.
Proof. exact wrapped_unique. Qed.
Print Assumptions C165_unique.
Example C165_example : wrapped (17 / 4) (1 / 4) /\ wrapped (- (1 / 2)) (1 / 2) /\ Rabs (17 / 4) < INR 5.
Proof.
  split; [split; [lra|exists (-4)%Z; lra]|]. split; [split; [lra|exists 1%Z; lra]|].
  rewrite Rabs_right by lra. cbn. lra.
Qed.
Theorem C165_fuel : forall x, exists fuel y, normalize_phase_0d5 fuel x = Ok y /\ wrapped x y.
Proof.
  intros x. exists (S (Z.to_nat (up (Rabs x)))). apply normalize_ends. destruct (archimed (Rabs x)) as [A _].
  pose proof (Rabs_pos x). assert (0 < up (Rabs x))%Z by (apply lt_IZR; lra). rewrite INR_IZR_INZ, Z2Nat.id by lia. lra.
Qed.
Print Assumptions C165_fuel.

(* ---------- C166: fit of a template ---------- *)
Theorem C166_guess : forall p t fuel s, length t = length p -> (32 <= length p)%nat ->
  find_delay_with_ccf fuel (amp_of (fft (map rtoc (demean p))) (fft (map rtoc (demean t))))
    (pha_of (fft (map rtoc (demean p))) (fft (map rtoc (demean t)))) = Ok s ->
  exists j, (j < 64)%nat /\ wrapped (INR j / 64) s /\
    (forall i, (i < 64)%nat -> correlation p t 15 (INR i / 64) <= correlation p t 15 (INR j / 64)) /\
    (forall i, (i < j)%nat -> correlation p t 15 (INR i / 64) < correlation p t 15 (INR j / 64)).
Proof. intros p t fuel s E L. now apply guess_spec. Qed.
Print Assumptions C166_guess.
Theorem C166_solution : forall fuel brentq p t b eb s es,
  finds_roots brentq -> p <> [] ->
  taylor_fftfit fuel brentq p t = Ok (b, eb, s, es) ->
  let K := strong p t in
  length t = length p /\ (32 <= length p)%nat /\ (K < length p)%nat /\
  - (1 / 2) < s <= 1 / 2 /\ slope p t K s = 0 /\
  (tpower t (K - 1) = 0 -> b = None /\ eb = None /\ es = None) /\
  (tpower t (K - 1) <> 0 ->
     let a := correlation p t (K - 1) s / tpower t (K - 1) in
     b = Some a /\ eb = Some (sqrt (spread p / (2 * tpower t (K - 1)))) /\
     (0 < a * curvature p t (K - 1) s -> es = Some (sqrt (spread p / (2 * a * curvature p t (K - 1) s))))).
Proof. exact root_main. Qed.
Print Assumptions C166_solution.
Theorem C166_copy : forall fuel brentq m a c t p j0,
  finds_roots brentq ->
  (forall f x y, x < y -> f x * f y < 0 -> exists z, brentq f x y = Ok z) ->
  copy_of m a c t p -> 0 < a -> (32 <= length t)%nat -> dft t 1 <> c0 ->
  (j0 < 64)%nat -> (64 * m = j0 * length t)%nat -> (6 * strong p t < length t)%nat ->
  exists b eb s es, taylor_fftfit (S (S (S fuel))) brentq p t = Ok (b, eb, s, es) /\ wrapped (INR m / INR (length t)) s /\
    (tpower t (strong p t - 1) <> 0 -> b = Some a).
Proof. exact copy_found. Qed.
Print Assumptions C166_copy.
Theorem C166_sinusoid : forall fuel brentq n m a c p j0,
  finds_roots brentq ->
  (forall f x y, x < y -> f x * f y < 0 -> exists z, brentq f x y = Ok z) ->
  copy_of m a c (default_template n) p -> 0 < a -> (32 <= n)%nat -> (j0 < 64)%nat -> (64 * m = j0 * n)%nat ->
  exists s es, taylor_fftfit (S (S (S fuel))) brentq p (default_template n) =
      Ok (Some a, Some (sqrt (2 * spread p / (INR n * INR n))), s, es) /\ wrapped (INR m / INR n) s.
Proof. exact sin_found. Qed.
Print Assumptions C166_sinusoid.
Theorem C166_same_fit : forall fuel brentq p t,
  p <> [] -> fftfit fuel brentq p t = taylor_fftfit fuel brentq p t.
Proof. exact fftfit_taylor. Qed.
Print Assumptions C166_same_fit.
(* fewer than 32 bins *)
Theorem C166_short_error : forall fuel brentq p t,
  length t = length p -> (length p < 32)%nat -> taylor_fftfit fuel brentq p t = Err ValueError.
Proof. exact short_error. Qed.
Print Assumptions C166_short_error.
Theorem C166_short_refuted : exists t p, copy_of 0 1 0 t p /\ p <> [] /\ length t = length p /\ forall fuel brentq, taylor_fftfit fuel brentq p t = Err ValueError.
Proof.
  exists (default_template 16), (rotated 16 0). split; [apply rotated_copy; lia|]. split; [discriminate|]. split; [reflexivity|].
  intros fuel brentq. apply short_error; [reflexivity|]. cbn. lia.
Qed.
Print Assumptions C166_short_refuted.
(* a constant profile *)
Theorem C166_flat_error : forall fuel brentq p t c,
  length t = length p -> (forall v, In v p -> v = c) ->
  (32 <= length p)%nat -> taylor_fftfit (S (S fuel)) brentq p t = Err ValueError.
Proof. exact flat_error. Qed.
Print Assumptions C166_flat_error.
(* the error of the amplitude depends on the bin the profile starts with *)
Theorem C166_error_origin_refuted : 
  exists t p p' m, delayed m p p' /\ forall fuel brentq, finds_roots brentq ->
  (forall f x y, x < y -> f x * f y < 0 -> exists z, brentq f x y = Ok z) ->
  exists b eb s es b' eb' s' es', taylor_fftfit (S (S (S fuel))) brentq p t = Ok (b, eb, s, es) /\
    taylor_fftfit (S (S (S fuel))) brentq p' t = Ok (b', eb', s', es') /\ eb <> eb'.
Proof. exact origin_matters. Qed.
Print Assumptions C166_error_origin_refuted.
Example C166_example : copy_of 8 1 0 (default_template 32) (rotated 32 8) /\ (64 * 8 = 16 * 32)%nat /\ strong (rotated 32 8) (default_template 32) = 2%nat /\
  dft (default_template 32) 1 <> c0 /\ tpower (default_template 32) 1 <> 0.
Proof.
  split; [apply rotated_copy; lia|]. split; [reflexivity|]. split; [|split].
  - apply (sin_strong 32 8 1 0); [lia|lra|apply rotated_copy; lia].
  - apply sin_dft1. lia.
  - rewrite sin_tpower by lia. rewrite (INR_IZR_INZ 32). cbn [Z.of_nat Pos.of_succ_nat Pos.succ]. lra.
Qed.

(* ---------- C167: times of arrival ---------- *)
Theorem C167_toa : forall fuel brentq p period tstart tpl add r,
  p <> [] -> 0 < period ->
  get_TOA fuel brentq p period tstart tpl add = Ok r ->
  exists b eb s es,
    taylor_fftfit fuel brentq p (match tpl with Some t => t | None => default_template (length p) end) = Ok (b, eb, s, es) /\
    tstart <= fst r < tstart + period /\ (exists k, fst r = tstart + (s + add + IZR k) * period) /\
    snd r = option_map (fun e => e * period) es.
Proof. exact toa_spec. Qed.
Print Assumptions C167_toa.
Theorem C167_sinusoid : forall fuel brentq n m a c p j0 period tstart add,
  finds_roots brentq ->
  (forall f x y, x < y -> f x * f y < 0 -> exists z, brentq f x y = Ok z) ->
  copy_of m a c (default_template n) p -> 0 < a -> (32 <= n)%nat -> (j0 < 64)%nat -> (64 * m = j0 * n)%nat -> 0 < period ->
  exists toa err, get_TOA (S (S (S fuel))) brentq p period tstart None add = Ok (toa, err) /\
    tstart <= toa < tstart + period /\ exists k, toa = tstart + (INR m / INR n + add + IZR k) * period.
Proof. exact sin_toa. Qed.
Print Assumptions C167_sinusoid.
Example C167_example : copy_of 8 1 0 (default_template 32) (rotated 32 8) /\ exists k, 100 + (1 / 4) * 2 = 100 + (INR 8 / INR 32 + 0 + IZR k) * 2.
Proof.
  split; [apply rotated_copy; lia|]. exists 0%Z. rewrite (INR_IZR_INZ 8), (INR_IZR_INZ 32). cbn [Z.of_nat Pos.of_succ_nat Pos.succ]. lra.
Qed.

