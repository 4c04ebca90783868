(* T_qpo.v: property theorems about phase resolved spectroscopy (C174 - C177). *)
From Verif Require Import Np M_utils Cplx M_fourier M_corr M_exvar M_qpo S_fourier S_corr S_exvar S_qpo P_dft P_lag P_qpo P_qpo2.
From Coq Require Import Reals List Arith ZArith Bool Lia Lra.
Import ListNotations.
Open Scope R_scope.

(* ---------- C174: phases of the harmonics of a segment ---------- *)
Theorem C174_odd : forall counts dt x0 x1 k1 k2 h,
  length counts = (2 * h + 1)%nat -> 0 < dt -> (k1 <= h)%nat -> (k2 <= h)%nat ->
  0 < x0 <= INR h / (INR (length counts) * dt) -> 0 < x1 <= INR h / (INR (length counts) * dt) ->
  close_bin (length counts) dt x0 k1 -> close_bin (length counts) dt x1 k2 ->
  let x := rates dt counts in
  exists psi, get_parameters counts dt x0 x1 = Ok (avg (fun y => y) x, angle (dft x k1), angle (dft x k2), psi) /\ phase_difference (angle (dft x k1)) (angle (dft x k2)) psi.
Proof. exact params_odd. Qed.
Print Assumptions C174_odd.
Theorem C174_two_tones : forall n dt c a1 a2 p1 p2 k1 k2 h x0 x1,
  n = (2 * h + 1)%nat -> 0 < dt -> (0 < k1 <= h)%nat -> (0 < k2 <= h)%nat -> k1 <> k2 -> 0 < a1 -> 0 < a2 ->
  - PI < p1 <= PI -> - PI < p2 <= PI -> 0 < x0 <= INR h / (INR n * dt) -> 0 < x1 <= INR h / (INR n * dt) -> close_bin n dt x0 k1 -> close_bin n dt x1 k2 ->
  exists psi, get_parameters (two_tones n dt c a1 a2 p1 p2 k1 k2) dt x0 x1 = Ok (c, p1, p2, psi) /\ phase_difference p1 p2 psi.
Proof. exact params_tones. Qed.
Print Assumptions C174_two_tones.
Theorem C174_origin : forall counts counts' d dt x0 x1 k h m p1 p2 psi m' p1' p2' psi',
  length counts = (2 * h + 1)%nat -> 0 < dt -> (0 < k)%nat -> (2 * k <= h)%nat ->
  0 < x0 <= INR h / (INR (length counts) * dt) -> 0 < x1 <= INR h / (INR (length counts) * dt) ->
  close_bin (length counts) dt x0 k -> close_bin (length counts) dt x1 (2 * k) -> delayed d counts counts' ->
  dft (rates dt counts) k <> c0 -> dft (rates dt counts) (2 * k) <> c0 ->
  get_parameters counts dt x0 x1 = Ok (m, p1, p2, psi) -> get_parameters counts' dt x0 x1 = Ok (m', p1', p2', psi') -> psi' = psi.
Proof. exact params_delay. Qed.
Print Assumptions C174_origin.
(* with an even number of bins the search in the unsorted frequencies always ends at the last one *)
Theorem C174_even_error : forall counts dt x0 x1,
  counts <> [] -> Nat.even (length counts) = true -> 0 < dt -> 0 < x0 -> 0 < x1 ->
  let x := rates dt counts in let a := angle (dft x (length counts - 1)) in
  exists psi, get_parameters counts dt x0 x1 = Ok (avg (fun y => y) x, a, a, psi).
Proof. exact params_even. Qed.
Print Assumptions C174_even_error.
Theorem C174_even_lost_error : forall n dt c a1 a2 p1 p2 k1 k2 x0 x1,
  Nat.even n = true -> 0 < dt -> (1 < k1)%nat -> (2 * k1 < n)%nat -> (1 < k2)%nat -> (2 * k2 < n)%nat -> 0 < x0 -> 0 < x1 ->
  exists psi, get_parameters (two_tones n dt c a1 a2 p1 p2 k1 k2) dt x0 x1 = Ok (c, 0, 0, psi).
Proof. exact params_even_lost. Qed.
Print Assumptions C174_even_lost_error.
Theorem C174_even_refuted : exists n dt c a1 a2 p1 p2 k1 k2 x0 x1 m q1 q2 psi, 0 < dt /\ 0 < a1 /\ 0 < a2 /\ (0 < k1)%nat /\ k2 = (2 * k1)%nat /\ (2 * k2 < n)%nat /\
  - PI < p1 <= PI /\ x0 = INR k1 / (INR n * dt) /\ x1 = INR k2 / (INR n * dt) /\
  get_parameters (two_tones n dt c a1 a2 p1 p2 k1 k2) dt x0 x1 = Ok (m, q1, q2, psi) /\ q1 <> p1.
Proof.
  assert (X : forall k, (0 < k)%nat -> 0 < INR k / (INR 16 * 1)). { intros k K. apply Rdiv_lt_0_compat; [now apply lt_0_INR|]. rewrite Rmult_1_r. apply lt_0_INR. lia. }
  destruct (params_even_lost 16 1 10 1 1 1 1 2 4 (INR 2 / (INR 16 * 1)) (INR 4 / (INR 16 * 1))) as [psi E]; [reflexivity|lra|lia..|apply X; lia|apply X; lia|].
  exists 16%nat, 1, 10, 1, 1, 1, 1, 2%nat, 4%nat. do 2 eexists. exists 10, 0, 0, psi. pose proof PI_RGT_0. pose proof PI2_1. unfold PI2 in *.
  split; [lra|]. split; [lra|]. split; [lra|]. split; [lia|]. split; [reflexivity|]. split; [lia|]. split; [split; lra|]. split; [reflexivity|]. split; [reflexivity|]. split; [exact E|lra].
Qed.
Print Assumptions C174_even_refuted.
Example C174_nonvacuous : exists psi, get_parameters (two_tones 9 1 10 1 1 0 1 1 2) 1 (1 / 9) (2 / 9) = Ok (10, 0, 1, psi) /\ phase_difference 0 1 psi.
Proof.
  pose proof PI_RGT_0. assert (P : 1 < PI) by (pose proof PI2_1; unfold PI2 in *; lra). assert (N : INR 9 = 9) by (rewrite INR_IZR_INZ; reflexivity). assert (F : INR 4 = 4) by (rewrite INR_IZR_INZ; reflexivity).
  apply (params_tones 9 1 10 1 1 0 1 1 2 4); try lra; try lia; try (rewrite F, N; lra).
  - unfold close_bin. rewrite N. replace (1 / 9 - INR 1 / (9 * 1)) with 0 by (cbn; field). rewrite Rabs_R0. lra.
  - unfold close_bin. rewrite N. replace (2 / 9 - INR 2 / (9 * 1)) with 0 by (cbn; field). rewrite Rabs_R0. lra.
Qed.

(* ---------- C175: waveform ---------- *)
Theorem C175_mean : forall n mu s1 s2 p1 p2,
  (3 <= n)%nat -> rs n (fun j => waveform (phase_grid n j) mu s1 s2 p1 p2) / INR n = mu.
Proof. exact waveform_mean. Qed.
Print Assumptions C175_mean.
Theorem C175_rms : forall n mu s1 s2 p1 p2,
  (5 <= n)%nat ->
  rs n (fun j => (waveform (phase_grid n j) mu s1 s2 p1 p2 - mu) ^ 2) / INR n = mu ^ 2 * (s1 ^ 2 + s2 ^ 2).
Proof. exact waveform_rms. Qed.
Print Assumptions C175_rms.
(* the phases are those of a light curve that runs backwards *)
Theorem C175_reversed_error : forall n dt c a1 a2 p1 p2 k j,
  dt <> 0 -> c <> 0 -> (j < n)%nat ->
  val (rates dt (two_tones n dt c a1 a2 p1 p2 k (2 * k))) j = waveform (- (2 * PI * INR (k * j) / INR n)) c (a1 / (sqrt 2 * c)) (a2 / (sqrt 2 * c)) p1 p2.
Proof. exact waveform_reversed. Qed.
Print Assumptions C175_reversed_error.
Theorem C175_reversed_refuted : exists n dt c a1 a2 p1 p2 k j, 0 < dt /\ 0 < c /\ (j < n)%nat /\ (0 < k)%nat /\
  (exists psi, get_parameters (two_tones n dt c a1 a2 p1 p2 k (2 * k)) dt (INR k / (INR n * dt)) (INR (2 * k) / (INR n * dt)) = Ok (c, p1, p2, psi)) /\
  val (rates dt (two_tones n dt c a1 a2 p1 p2 k (2 * k))) j <> waveform (2 * PI * INR (k * j) / INR n) c (a1 / (sqrt 2 * c)) (a2 / (sqrt 2 * c)) p1 p2.
Proof.
  pose proof PI_RGT_0 as P0. assert (P : 1 < PI) by (pose proof PI2_1; unfold PI2 in *; lra). assert (N : INR 9 = 9) by (rewrite INR_IZR_INZ; reflexivity). assert (F : INR 4 = 4) by (rewrite INR_IZR_INZ; reflexivity).
  assert (N5 : INR 5 = 5) by (rewrite INR_IZR_INZ; reflexivity).
  exists 5%nat, 1, 10, 1, 1, (PI / 2), (PI / 2), 1%nat, 1%nat. split; [lra|]. split; [lra|]. split; [lia|]. split; [lia|]. split.
  - edestruct (params_tones 5 1 10 1 1 (PI / 2) (PI / 2) 1 2 2 (INR 1 / (INR 5 * 1)) (INR 2 / (INR 5 * 1))) as (psi & E & _); try lra; try lia.
    + rewrite N5. cbn. lra.
    + rewrite N5. cbn. lra.
    + unfold close_bin. rewrite Rminus_diag_eq by reflexivity. rewrite Rabs_R0, N5. lra.
    + unfold close_bin. rewrite Rminus_diag_eq by reflexivity. rewrite Rabs_R0, N5. lra.
    + exists psi. exact E.
  - rewrite waveform_reversed by (try lra; lia). unfold waveform. set (t := 2 * PI * INR (1 * 1) / INR 5).
    assert (T : t = 2 * PI / 5) by (unfold t; rewrite N5; cbn; lra).
    assert (S2 : 0 < sqrt 2) by (apply sqrt_lt_R0; lra).
    replace (cos (- t - PI / 2)) with (- sin t) by (replace (- t - PI / 2) with (- (t + PI / 2)) by ring; rewrite cos_neg, cos_plus, cos_PI2, sin_PI2; ring).
    replace (cos (2 * - t - PI / 2)) with (- sin (2 * t)) by (replace (2 * - t - PI / 2) with (- (2 * t + PI / 2)) by ring; rewrite cos_neg, cos_plus, cos_PI2, sin_PI2; ring).
    replace (cos (t - PI / 2)) with (sin t) by (rewrite cos_minus, cos_PI2, sin_PI2; ring).
    replace (cos (2 * t - PI / 2)) with (sin (2 * t)) by (rewrite cos_minus, cos_PI2, sin_PI2; ring).
    assert (A : 0 < sin t) by (apply sin_gt_0; lra). assert (B : 0 < sin (2 * t)) by (apply sin_gt_0; lra).
    intros E. replace (1 / (sqrt 2 * 10)) with (/ sqrt 2 * / 10) in E by (field; lra).
    replace (10 * (1 + sqrt 2 * (/ sqrt 2 * / 10 * - sin t + / sqrt 2 * / 10 * - sin (2 * t)))) with (10 - sin t - sin (2 * t)) in E by (field; lra).
    replace (10 * (1 + sqrt 2 * (/ sqrt 2 * / 10 * sin t + / sqrt 2 * / 10 * sin (2 * t)))) with (10 + sin t + sin (2 * t)) in E by (field; lra). lra.
Qed.
Print Assumptions C175_reversed_refuted.
Example C175_nonvacuous : (5 <= 8)%nat /\ phase_grid 8 4 = PI.
Proof. split; [lia|]. unfold phase_grid. rewrite !INR_IZR_INZ. cbn [Z.of_nat Pos.of_succ_nat Pos.succ]. field. Qed.

(* ---------- C176: mean phase difference ---------- *)
Theorem C176_near : forall psi x ds,
  x < PI / 2 -> (forall p, In p psi -> Rabs (p - x) <= PI / 2) -> Forall2 (cyclic_distance x) psi ds -> x_2_function psi x = total (fun d => d ^ 2) ds.
Proof. exact x2_cyclic. Qed.
Print Assumptions C176_near.
Theorem C176_low : forall psi x,
  x < PI / 2 -> x_2_function psi x = total (fun p => (p - x) ^ 2) psi.
Proof. exact x2_small. Qed.
Print Assumptions C176_low.
(* at and above pi/2 the distance is an array of two dimensions, and largest where it should vanish *)
Theorem C176_high_error : forall psi x,
  PI / 2 <= x -> x_2_function psi x = INR (length psi) * total (fun p => (PI - Rabs (p - x)) ^ 2) psi.
Proof. exact x2_large. Qed.
Print Assumptions C176_high_error.
Theorem C176_distance_refuted : exists x psi d, 0 <= x < PI /\ 0 <= psi < PI /\ cyclic_distance x psi d /\ d = 0 /\ x_2_function [psi] x = PI ^ 2.
Proof.
  exists (PI / 2), (PI / 2), 0. pose proof PI_RGT_0. split; [lra|]. split; [lra|]. split; [split; [lra|left; exists 0%Z; lra]|]. split; [reflexivity|].
  rewrite x2_large by lra. cbn [total length INR]. replace (PI / 2 - PI / 2) with 0 by ring. rewrite Rabs_R0. ring.
Qed.
Print Assumptions C176_distance_refuted.
Theorem C176_wrap_refuted : exists x psi d, 0 <= x < PI / 2 /\ 0 <= psi < PI /\ cyclic_distance x psi d /\ x_2_function [psi] x <> d ^ 2.
Proof.
  exists 0, (3 * PI / 4), (PI / 4). pose proof PI_RGT_0. split; [lra|]. split; [lra|]. split; [split; [lra|left; exists (-1)%Z; lra]|].
  rewrite x2_small by lra. cbn [total]. intros E. assert (0 < PI * PI) by (apply Rmult_lt_0_compat; lra). lra.
Qed.
Print Assumptions C176_wrap_refuted.
Theorem C176_equal_segments : forall brent seg k dt x0 x1 m p1 p2 psi,
  (0 < k)%nat -> (forall f x, f (brent f) <= f x) -> get_parameters seg dt x0 x1 = Ok (m, p1, p2, psi) -> 0 <= psi < PI ->
  exists a, get_mean_phase_difference brent (concat (repeat seg k)) dt k x0 x1 = Ok (a, a / INR k) /\ (a = psi \/ a = psi + PI).
Proof. exact same_segments. Qed.
Print Assumptions C176_equal_segments.
Theorem C176_no_segments_error : forall brent counts dt x0 x1,
  get_mean_phase_difference brent counts dt 0 x0 x1 = Err ValueError.
Proof. exact mean_none. Qed.
Print Assumptions C176_no_segments_error.
Theorem C176_lag : forall brent freq power counts dt k x0 x1 i j a sd,
  nearest_index freq x0 = Ok i -> nearest_index freq x1 = Ok j ->
  get_mean_phase_difference brent counts dt k x0 x1 = Ok (a, sd) ->
  exists phi1 phi2, get_phase_lag brent freq power counts dt k x0 x1 = Ok (phi1, phi2, a) /\ phi1 = PI / 2 + angle (nth i power c0) /\ phi2 / 2 - phi1 = a + angle (nth j power c0) / 2.
Proof. exact lag_value. Qed.
Print Assumptions C176_lag.
(* segments with one and the same phase difference: the "standard deviation" is not zero *)
Theorem C176_stddev_refuted : exists seg dt x0 x1 m p1 p2 psi, get_parameters seg dt x0 x1 = Ok (m, p1, p2, psi) /\
  forall brent k, (0 < k)%nat -> (forall f x, f (brent f) <= f x) -> exists a sd, get_mean_phase_difference brent (concat (repeat seg k)) dt k x0 x1 = Ok (a, sd) /\ 0 < sd.
Proof.
  destruct C174_nonvacuous as (psi & E & [R [k C]]). exists (two_tones 9 1 10 1 1 0 1 1 2), 1, (1 / 9), (2 / 9), 10, 0, 1, psi. split; [exact E|]. intros brent n N B.
  destruct (same_segments brent _ n 1 (1 / 9) (2 / 9) 10 0 1 psi N B E R) as (a & G & A). exists a, (a / INR n). split; [exact G|].
  assert (psi <> 0).
  { intros ->. assert (PI * IZR k = - 1 / 2) by lra. assert (P : 1 < PI) by (pose proof PI2_1; unfold PI2 in *; lra). assert (k <= -1 \/ 0 <= k)%Z as [K|K] by lia; apply IZR_le in K; nra. }
  apply Rdiv_lt_0_compat; [pose proof PI_RGT_0; destruct A; lra|now apply lt_0_INR].
Qed.
Print Assumptions C176_stddev_refuted.
Example C176_nonvacuous : cyclic_distance (PI / 4) (PI / 2) (PI / 4) /\ Rabs (PI / 2 - PI / 4) <= PI / 2.
Proof. pose proof PI_RGT_0. split; [split; [lra|right; exists 0%Z; lra]|]. rewrite Rabs_right; lra. Qed.

(* ---------- C177: rms and correlations ---------- *)
Theorem C177_rms : forall freq df model crit,
  0 <= df -> (forall f, 0 <= model f) ->
  match crit with CAll | CPosfreq | COptimal | CWindow (Some _) => True | _ => False end ->
  exists r, compute_rms freq df model crit = Ok (Some r) /\ 0 <= r /\
    r * r = df * total (fun f => match crit with
                                 | CAll => model f
                                 | CPosfreq | COptimal => if Rlt_dec 0 f then model f else 0
                                 | CWindow (Some (x, w)) => if Rlt_dec (Rabs (f - x)) (w / 2) then model f else 0
                                 | _ => 0 end) freq.
Proof. exact rms_value. Qed.
Print Assumptions C177_rms.
Theorem C177_rms_refused : forall freq df model,
  compute_rms freq df model COther = Err ValueError /\ compute_rms freq df model (CWindow None) = Err AssertionError.
Proof. exact rms_refused. Qed.
Print Assumptions C177_rms_refused.
Theorem C177_positive : forall freq df model,
  (forall f, In f freq -> 0 < f) -> compute_rms freq df model CPosfreq = compute_rms freq df model CAll /\ compute_rms freq df model COptimal = compute_rms freq df model CAll.
Proof. exact rms_positive. Qed.
Print Assumptions C177_positive.
Theorem C177_ccf : forall x y rms nb m,
  length x = length y -> (m < length x)%nat ->
  nth m (ccf (map (cross_at x y) (seq 0 (length x))) rms nb) 0 = 2 / INR nb / rms * rs (length x) (fun j => val x j * val y ((m + j) mod length x)).
Proof. exact ccf_correlation. Qed.
Print Assumptions C177_ccf.
Theorem C177_ccf_error : forall segs weights rms nb,
  (2 <= length segs)%nat -> (forall p, In p segs -> length p = length weights) -> rms <> 0 -> (0 < nb)%nat -> (0 < length weights)%nat ->
  exists err av, ccf_error segs weights rms nb = Ok (err, av) /\ length err = length weights /\ length av = length weights /\
    forall m, (m < length weights)%nat -> let col := map (fun p => folded (weighted weights p) rms nb m) segs in
      nth m av 0 = S_exvar.average col /\ nth m err None = Some (error_of_mean col).
Proof. exact ccf_error_main. Qed.
Print Assumptions C177_ccf_error.
Theorem C177_few_segments_error : forall weights p rms nb,
  ccf_error [] weights rms nb = Err ZeroDivisionError /\ ccf_error [p] weights rms nb = Err IndexError.
Proof. exact ccf_refused. Qed.
Print Assumptions C177_few_segments_error.
(* the phases of the cross spectra are thrown away *)
Theorem C177_moduli_error : forall segs segs' weights rms nb,
  Forall2 (Forall2 (fun a b => cabs a = cabs b)) segs segs' -> ccf_error segs weights rms nb = ccf_error segs' weights rms nb.
Proof. exact ccf_error_moduli. Qed.
Print Assumptions C177_moduli_error.
Theorem C177_peak_error : forall segs weights rms nb err av m,
  (2 <= length segs)%nat -> (forall p, In p segs -> length p = length weights) -> 0 < rms -> (0 < nb)%nat ->
  (forall w, In w weights -> 0 <= w) -> ccf_error segs weights rms nb = Ok (err, av) -> (m < length weights)%nat -> Rabs (nth m av 0) <= nth 0 av 0.
Proof. exact ccf_error_peak. Qed.
Print Assumptions C177_peak_error.
Theorem C177_lag_refuted : exists x y rms nb, delayed 1 x y /\ 0 < rms /\ (0 < nb)%nat /\
  let cross := map (cross_at x y) (seq 0 (length x)) in
  nth 0 (ccf cross rms nb) 0 < nth 1 (ccf cross rms nb) 0 /\
  exists err av, ccf_error [cross; cross] (repeat 1 (length x)) rms nb = Ok (err, av) /\ nth 1 av 0 <= nth 0 av 0.
Proof.
  exists [1; 0; 0; 0], [0; 1; 0; 0], 1, 1%nat. split.
  { split; [reflexivity|]. intros j Hj. cbn [length] in Hj. destruct j as [|[|[|[|j]]]]; try lia; reflexivity. }
  split; [lra|]. split; [lia|]. cbv zeta. split.
  - rewrite !ccf_correlation by (cbn [length]; lia). unfold rs, val. cbn. lra.
  - set (cross := map _ _). assert (L : forall p, In p [cross; cross] -> length p = length (repeat 1 (length [1; 0; 0; 0]))).
    { intros p [<-|[<-|[]]]; unfold cross; rewrite map_length, seq_length, repeat_length; reflexivity. }
    destruct (ccf_error_main [cross; cross] (repeat 1 (length [1; 0; 0; 0])) 1 1) as (err & av & E & _); [cbn; lia|exact L|lra|lia|cbn; lia|].
    exists err, av. split; [exact E|]. apply (Rle_trans _ (Rabs (nth 1 av 0))); [apply Rle_abs|].
    apply (ccf_error_peak [cross; cross] (repeat 1 (length [1; 0; 0; 0])) 1 1 err); [cbn; lia|exact L|lra|lia| |exact E|cbn; lia].
    intros w W. apply repeat_spec in W. lra.
Qed.
Print Assumptions C177_lag_refuted.
Example C177_nonvacuous : total (fun f => if Rlt_dec (Rabs (f - 2)) (2 / 2) then f else 0) [1; 2; 3] = 2.
Proof.
  cbn [total]. destruct (Rlt_dec (Rabs (1 - 2)) (2 / 2)) as [A|_]; [rewrite Rabs_left in A; lra|]. destruct (Rlt_dec (Rabs (2 - 2)) (2 / 2)) as [_|B]; [|elim B; rewrite Rminus_diag_eq, Rabs_R0 by reflexivity; lra].
  destruct (Rlt_dec (Rabs (3 - 2)) (2 / 2)) as [C|_]; [rewrite Rabs_right in C; lra|lra].
Qed.


(* ---------- C174: the nearest frequency in short lists ---------- *)
Theorem C174_nearest_short : (forall x, nearest_index [] x = Err IndexError) /\ (forall a x, nearest_index [a] x = Ok 0%nat) /\
  nearest_index [2; 1] (1 / 2) = Ok 1%nat.
Proof.
  split; [reflexivity|]. split.
  - intros a x. unfold nearest_index. simpl. destruct (Rlt_dec a x); simpl; [reflexivity|]. destruct (Rlt_dec _ _); reflexivity.
  - unfold nearest_index. cbn [bsearch List.length Nat.eqb Nat.ltb Nat.leb Nat.sub Nat.add Nat.div Nat.divmod fst nth].
    destruct (Rlt_dec 1 (1 / 2)) as [H|_]; [exfalso; Lra.lra|].
    cbn [bsearch List.length Nat.eqb Nat.ltb Nat.leb Nat.sub Nat.add Nat.div Nat.divmod fst nth].
    destruct (Rlt_dec 2 (1 / 2)) as [H|_]; [exfalso; Lra.lra|]. cbn [Nat.eqb].
    destruct (Rlt_dec _ _) as [_|H]; [reflexivity|]. exfalso. apply H. rewrite !Rabs_left by Lra.lra. Lra.lra.
Qed.
Print Assumptions C174_nearest_short.
