(* T_timmer.v: property theorems about light curves simulated from a power spectrum (C126) and the relativistic response (C127). *)
From Verif Require Import Np Lib Cplx M_fourier S_fourier M_espec M_timmer S_timmer P_timmer P_timmer2 P_timmer3.
From Coq Require Import ZArith QArith Qreals Reals List Bool Arith Lra Lia.
Import ListNotations.
Open Scope R_scope.

(* ---------- C126: light curves from a power spectrum ---------- *)
Theorem C126_inverse : forall f n k,
  (k < n)%nat -> dft (irfft f n) k = nth k (hermitian f n) c0.
Proof. exact dft_irfft. Qed.
Print Assumptions C126_inverse.
Theorem C126_curve : forall m rms n cut pds g1 g2,
  (0 < n)%nat -> pds <> [] -> length g1 = length pds -> length g2 = length pds ->
  exists x, has_spectrum m n pds g1 g2 x /\
    (variance x = 0 -> timmerkoenig m rms n 1 cut pds g1 g2 = Ok (repeat None n)) /\
    (variance x <> 0 -> exists y, timmerkoenig m rms n 1 cut pds g1 g2 = Ok (map Some y) /\ rescaled m (if Req_EM_T m 0 then rms else m * rms) x y).
Proof. exact tk_curve. Qed.
Print Assumptions C126_curve.
Theorem C126_model : forall m rms dt n cut model g1 g2,
  (2 <= n)%nat -> length g1 = (n / 2)%nat -> length g2 = (n / 2)%nat ->
  exists x, length x = n /\ rlsum x = INR n * m /\
    (forall k, (0 < k < n / 2)%nat -> dft x k = (bin_of g1 k * sqrt (model (INR k / (INR n * dt)) / 2), bin_of g2 k * sqrt (model (INR k / (INR n * dt)) / 2))) /\
    dft x (n / 2) = (bin_of g1 (n / 2) * sqrt (model (INR (n / 2) / (INR n * dt)) / 2), 0) /\
    (variance x <> 0 -> exists y, simulate_model m rms dt n 1 cut model g1 g2 = Ok (map Some y) /\ rescaled m (if Req_EM_T m 0 then rms else m * rms) x y).
Proof. exact model_curve. Qed.
Print Assumptions C126_model.
Theorem C126_power_law : forall m rms dt n red cut b g1 g2,
  simulate_power_law m rms dt n red cut b g1 g2 = simulate_model m rms dt n red cut (fun w => Rpower (1 / w) b) g1 g2.
Proof. exact power_law_model. Qed.
Print Assumptions C126_power_law.
Theorem C126_spectrum : forall m rms n cut s g1 g2,
  simulate_power_spectrum m rms n 1 cut s g1 g2 = timmerkoenig m rms n 1 cut s g1 g2.
Proof. exact spectrum_curve. Qed.
Print Assumptions C126_spectrum.
Theorem C126_long_curve : forall m rms n red cut pds g1 g2,
  (0 < n)%nat -> (2 <= red)%nat -> (n - 1 <= cut)%nat -> (cut <= red * n - n)%nat -> pds <> [] -> length g1 = length pds -> length g2 = length pds ->
  exists x, has_spectrum m (n * red) pds g1 g2 x /\
    (variance x <> 0 -> exists y, timmerkoenig m rms n red cut pds g1 g2 = Ok (map Some y) /\ length y = n /\ rlsum y = INR n * m /\
       forall i j, (i < n)%nat -> (j < n)%nat -> val y i - val y j = (val x (cut + i) - val x (cut + j)) * ((if Req_EM_T m 0 then rms else m * rms) / sqrt (variance x))).
Proof. exact tk_long. Qed.
Print Assumptions C126_long_curve.
Theorem C126_long_spectrum : forall m rms n red cut s g1 g2,
  (0 < n)%nat -> (2 <= red)%nat -> (n - 1 <= cut)%nat -> (cut <= red * n - n)%nat -> s <> [] -> length g1 = (length s * red)%nat -> length g2 = (length s * red)%nat ->
  exists x, length x = (n * red)%nat /\ rlsum x = INR (n * red) * m /\
    (forall k, (0 < k)%nat -> (2 * k < n * red)%nat -> (k <= length s)%nat -> dft x k = (bin_of g1 k * sqrt (bin_of s k / 2), bin_of g2 k * sqrt (bin_of s k / 2))) /\
    (forall k, (2 * k <= n * red)%nat -> (length s < k)%nat -> dft x k = c0) /\
    (variance x <> 0 -> exists y, simulate_power_spectrum m rms n red cut s g1 g2 = Ok (map Some y) /\ length y = n /\ rlsum y = INR n * m /\
       forall i j, (i < n)%nat -> (j < n)%nat -> val y i - val y j = (val x (cut + i) - val x (cut + j)) * ((if Req_EM_T m 0 then rms else m * rms) / sqrt (variance x))).
Proof. exact spectrum_long. Qed.
Print Assumptions C126_long_spectrum.
Theorem C126_odd_refuted : 
  exists m rms n cut model g1 g2 y, n = 3%nat /\ g1 = [1] /\ g2 = [1] /\ (forall w, model w = 2) /\ simulate_model m rms 1 n 1 cut model g1 g2 = Ok (map Some y) /\ 2 * 1 < INR n /\ re (dft y 1) <> 0 /\ im (dft y 1) = 0.
Proof. exact odd_phase. Qed.
Print Assumptions C126_odd_refuted.

Example C126_nonvacuous : exists y, simulate_model 10 (1 / 2) 1 4 1 0 (fun _ => 2) [1; 0] [1; 0] = Ok (map Some y) /\ length y = 4%nat /\ rlsum y = 40 /\ variance y = 25 /\ re (dft y 1) <> 0.
Proof.
  destruct (model_curve 10 (1 / 2) 1 4 0 (fun _ => 2) [1; 0] [1; 0]) as (x & L & _ & E & _ & Y); [lia|reflexivity|reflexivity|].
  pose proof (E 1%nat ltac:(cbn; lia)) as E1. unfold bin_of in E1. cbn [Nat.sub nth] in E1. replace (2 / 2) with 1 in E1 by field. rewrite sqrt_1 in E1.
  assert (V : variance x <> 0).
  { intros C. assert (XN : x <> []) by (intros ->; discriminate). pose proof (P_dft.parseval_pos x XN) as PP. rewrite C, L in PP. change (Nat.even 4) with true in PP. change (n_pos 4) with 1%nat in PP. cbn iota in PP. unfold rs in PP. cbn [seq map rlsum fold_right] in PP. rewrite P_dft.power_at_norm, E1 in PP. unfold cnorm2, re, im in PP. cbn [fst snd] in PP. unfold power_at in PP. nra. }
  destruct (Y V) as (y & Ey & R1 & R2 & R3 & R4). exists y. split; [exact Ey|]. split; [congruence|]. rewrite R2, R3, L. destruct (Req_EM_T 10 0); [lra|]. split; [cbn; lra|]. split; [field|]. rewrite R4 by (rewrite L; lia). rewrite E1. destruct (Req_EM_T 10 0); [lra|].
  unfold cscal, re. cbn [fst]. assert (0 < sqrt (variance x)) by (apply sqrt_lt_R0; pose proof (variance_nonneg x); lra). intros C. apply (f_equal (fun q => q * sqrt (variance x))) in C. field_simplify in C; lra.
Qed.

(* ---------- C127: the relativistic impulse response ---------- *)
Theorem C127_relativistic : forall dt t1 t2 t3 m1 m2 m3 p1 p2 rise decay,
  (t1 < t2)%Q -> (t2 < t3)%Q -> p1 < p2 -> 0 <= rise -> (t1 / dt == inject_Z (Z.of_nat m1))%Q -> ((t2 - t1) / dt == inject_Z (Z.of_nat m2))%Q -> ((t3 - t2) / dt == inject_Z (Z.of_nat m3))%Q ->
  (0 < m2)%nat -> (0 < m3)%nat -> Q2R (t1 / dt) <= Q2R (t2 / dt) ->
  exists sec dec, relativistic_ir dt t1 t2 t3 p1 p2 rise decay = Ok (repeat 0 m1 ++ [p1] ++ sec ++ dec) /\ length sec = m2 /\ length dec = m3 /\
    (forall v, In v sec -> p1 < v <= p2) /\ nth (m2 - 1) sec 0 = p2 /\ nth 0 dec 0 = exp (- decay * (Q2R (t2 / dt) - Q2R (4 / dt))).
Proof. exact relativistic. Qed.
Print Assumptions C127_relativistic.
Theorem C127_relativistic_order_error : forall dt t1 t2 t3 p1 p2 rise decay,
  (t2 <= t1)%Q \/ (t3 <= t2)%Q \/ p2 <= p1 -> relativistic_ir dt t1 t2 t3 p1 p2 rise decay = Err AssertionError.
Proof. exact relativistic_order. Qed.
Print Assumptions C127_relativistic_order_error.
Theorem C127_relativistic_refuted : 
  exists h, relativistic_ir (1 # 8) 3 4 10 1 (14 / 10) (6 / 10) (1 / 10) = Ok h /\ nth 32 h 0 = 14 / 10 /\ nth 33 h 0 = 1.
Proof. exact relativistic_default. Qed.
Print Assumptions C127_relativistic_refuted.
Theorem C127_relativistic_later_refuted : 
  exists h, relativistic_ir 1 3 6 10 1 2 (6 / 10) 1 = Ok h /\ nth 6 h 0 = 2 /\ nth 7 h 0 = exp (-2).
Proof. exact relativistic_later. Qed.
Print Assumptions C127_relativistic_later_refuted.
Theorem C127_relativistic_negative_error : forall dt t1 t2 t3 p1 p2 rise decay,
  (t1 < t2)%Q -> (t2 < t3)%Q -> p1 < p2 -> (py_int (t1 / dt) < 0)%Z ->
  relativistic_ir dt t1 t2 t3 p1 p2 rise decay = Err ValueError.
Proof. exact relativistic_negative. Qed.
Print Assumptions C127_relativistic_negative_error.
Theorem C126_no_powers_error : forall m rms n red cut g1 g2,
  timmerkoenig m rms n red cut [] g1 g2 = Err IndexError.
Proof. exact timmer_no_powers. Qed.
Print Assumptions C126_no_powers_error.
Theorem C126_no_bins_error : forall m rms n red cut pds g1 g2,
  pds <> [] -> (n * red = 0)%nat -> timmerkoenig m rms n red cut pds g1 g2 = Err ValueError.
Proof. exact timmer_no_bins. Qed.
Print Assumptions C126_no_bins_error.
Theorem C126_poisson_means : forall l,
  Forall2 (fun x y => match x with Some v => y = Some (Rmax 0 v) | None => y = None end) l (poisson_means l).
Proof. exact poisson_ok. Qed.
Print Assumptions C126_poisson_means.

