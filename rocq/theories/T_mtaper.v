(* T_mtaper.v: theorems about multitaper spectra, multitaper.py. *)
From Verif Require Import Np S_gti M_gti M_utils M_base M_lc Cplx M_fourier M_exvar M_mtaper S_fourier S_mtaper P_exvar P_dft P_mtaper P_mtaper2 P_mtaper3.
From Coq Require Import Reals List Arith ZArith Bool QArith Lia Lra.
Import ListNotations.
Open Scope R_scope.

(* ---------- C180: combined tapers ---------- *)
Theorem C180_mean : forall col w,
  length col = length w -> rs (length w) (fun k => nth k w 0 * nth k w 0) <> 0 ->
  psd_from_freq_response col w = Some (weighted_mean (length w) (fun k => nth k w 0 * nth k w 0) (fun k => 2 * cnorm2 (nth k col c0))).
Proof. exact psd_exact. Qed.
Print Assumptions C180_mean.
Theorem C180_between : forall col w lo hi,
  length col = length w -> (exists k, (k < length w)%nat /\ nth k w 0 <> 0) -> (forall k, (k < length col)%nat -> lo <= 2 * cnorm2 (nth k col c0) <= hi) ->
  exists p, psd_from_freq_response col w = Some p /\ lo <= p <= hi.
Proof. exact psd_between. Qed.
Print Assumptions C180_between.
Theorem C180_weights : forall col w c,
  c <> 0 -> length col = length w -> psd_from_freq_response col (map (fun x => c * x) w) = psd_from_freq_response col w.
Proof. exact psd_weights_scaled. Qed.
Print Assumptions C180_weights.
Theorem C180_scaled : forall col w c,
  length col = length w -> psd_from_freq_response (map (fun x => cscal x c) col) w = flet p := psd_from_freq_response col w in Some (c * c * p).
Proof. exact psd_data_scaled. Qed.
Print Assumptions C180_scaled.
Theorem C180_one : forall x w,
  w <> 0 -> psd_from_freq_response [x] [w] = Some (2 * cnorm2 x).
Proof. exact psd_one. Qed.
Print Assumptions C180_one.
Theorem C180_no_weight_error : forall col w,
  (forall x, In x w -> x = 0) -> psd_from_freq_response col w = None.
Proof. exact psd_nan. Qed.
Print Assumptions C180_no_weight_error.
Theorem C180_selected : forall te,
  (exists p, In p te /\ 9 / 10 < snd p) -> select_tapers true te = Ok (filter (fun p => if Rlt_dec (9 / 10) (snd p) then true else false) te).
Proof. exact select_low. Qed.
Print Assumptions C180_selected.
Theorem C180_best : forall te,
  te <> [] -> (forall p, In p te -> snd p <= 9 / 10) -> exists j, (j < length te)%nat /\ select_tapers true te = Ok [nth j te ([], 0)] /\
  (forall q, (q < length te)%nat -> snd (nth q te ([], 0)) <= snd (nth j te ([], 0))).
Proof. exact select_none. Qed.
Print Assumptions C180_best.
Theorem C180_all : forall te,
  select_tapers false te = Ok te.
Proof. exact select_all. Qed.
Print Assumptions C180_all.
Example C180_nonvacuous : exists (col : list cx) w, length col = length w /\ exists k, (k < length w)%nat /\ nth k w 0 <> 0.
Proof. exists [(1, 0); (0, 2)], [1; 2]. split; [reflexivity|]. exists 0%nat. cbn. split; [lia|lra]. Qed.

(* ---------- C181: adaptive weights ---------- *)
Theorem C181_sound : forall cols eig it,
  (3 <= length eig)%nat -> (0 < it)%nat -> cols <> [] -> (forall e, In e eig -> 0 < e <= 1) -> (forall c, In c cols -> length c = length eig /\ seen c 2) ->
  exists ps ws, get_adaptive_psd cols eig it = Ok (map Some ps, map Some ws) /\ length ps = length cols /\ length ws = length cols /\
    forall f, (f < length cols)%nat -> sound (nth f cols []) (nth f ps 0) /\ length (nth f ws []) = length eig /\ forall x, In x (nth f ws []) -> 0 < x.
Proof. exact adaptive_sound. Qed.
Print Assumptions C181_sound.
Theorem C181_fixed : forall cols eig it ps ws,
  (3 <= length eig)%nat -> (0 < it)%nat -> get_adaptive_psd cols eig it = Ok (map Some ps, map Some ws) -> exists v,
  ws = map (fun p => map (fun e => sqrt e * p / (e * p + (1 - e) * v)) eig) ps \/ map Some ps = map (fun p => psd_from_freq_response (fst p) (snd p)) (combine cols ws).
Proof. exact adaptive_fixed. Qed.
Print Assumptions C181_fixed.
Theorem C181_ones : forall cols K it,
  (3 <= K)%nat -> (2 <= it)%nat -> cols <> [] -> (forall c, In c cols -> length c = K /\ seen c 2) ->
  get_adaptive_psd cols (repeat 1 K) it = Ok (map (fun c => Some (2 * (rs K (fun k => cnorm2 (nth k c c0)) / INR K))) cols, map (fun _ => Some (repeat 1 K)) cols).
Proof. exact adaptive_ones. Qed.
Print Assumptions C181_ones.
Theorem C181_few : forall cols eig it,
  (length eig < 3)%nat -> get_adaptive_psd cols eig it = Ok (map (fun c => psd_from_freq_response c (map sqrt eig)) cols, map (fun _ => Some (map sqrt eig)) cols).
Proof. exact adaptive_few. Qed.
Print Assumptions C181_few.
Theorem C181_no_variation_error : forall cols eig it,
  (3 <= length eig)%nat -> (0 < it)%nat -> cols <> [] -> (forall e, In e eig -> 0 < e <= 1) -> (forall c, In c cols -> forall x, In x c -> x = c0) ->
  get_adaptive_psd cols eig it = Ok (map (fun _ => None) cols, map (fun _ => None) cols) /\ forall c, In c cols -> psd_from_freq_response c (map sqrt eig) = Some 0.
Proof. exact adaptive_zero. Qed.
Print Assumptions C181_no_variation_error.
(* a constant light curve: the plain spectrum is zero, the adaptive one is nan *)
Theorem C181_constant_refuted : exists counts tapers eig, (forall t, In t tapers -> length t = length counts) /\ length tapers = length eig /\ (forall e, In e eig -> 0 < e <= 1) /\
  (0 < length (columns counts tapers))%nat /\ (forall c, In c (columns counts tapers) -> psd_from_freq_response c (map sqrt eig) = Some 0) /\
  get_adaptive_psd (columns counts tapers) eig 150 = Ok (map (fun _ => None) (columns counts tapers), map (fun _ => None) (columns counts tapers)).
Proof.
  set (t := [1; 1; 1; 1]). exists [5; 5; 5; 5], [t; t; t], [1; 1; 1].
  assert (E : forall e, In e [1; 1; 1] -> 0 < e <= 1) by (intros e [<-|[<-|[<-|[]]]]; lra).
  split; [intros x [<-|[<-|[<-|[]]]]; reflexivity|]. split; [reflexivity|]. split; [exact E|]. split; [cbn; lia|].
  assert (Z : forall c, In c (columns [5; 5; 5; 5] [t; t; t]) -> forall x, In x c -> x = c0).
  { intros c I x J. destruct (columns_len [5; 5; 5; 5] [t; t; t]) as [L1 L2]. specialize (L2 c I). apply (In_nth _ _ []) in I. destruct I as (i & Hi & <-). apply (In_nth _ _ c0) in J. destruct J as (j & Hj & <-). rewrite L1 in Hi. rewrite L2 in Hj.
    rewrite (columns_at _ _ i (S i) j); [|intros y [<-|[<-|[<-|[]]]]; reflexivity|exact Hi|exact Hj|reflexivity].
    assert (T : tapered [5; 5; 5; 5] (nth j [t; t; t] []) = [0; 0; 0; 0]). { replace (nth j [t; t; t] []) with t by (cbn [length] in Hj; destruct j as [|[|[|j]]]; [reflexivity..|lia]). unfold tapered, t, mean_of. cbn [map combine fst snd length]. unfold rlsum. cbn. repeat f_equal; field. }
    rewrite T. unfold dft. cbn [length]. rewrite !(rs_zero 4); [unfold c0; f_equal; ring| |]; intros q Hq; unfold val; destruct q as [|[|[|[|q]]]]; try lia; cbn [nth]; ring. }
  destruct (adaptive_zero (columns [5; 5; 5; 5] [t; t; t]) [1; 1; 1] 150 ltac:(cbn; lia) ltac:(lia) ltac:(discriminate) E Z) as [A B]. split; [exact B|exact A].
Qed.
Print Assumptions C181_constant_refuted.
Example C181_nonvacuous : exists (cols : list (list cx)) eig, (3 <= length eig)%nat /\ cols <> [] /\ (forall e, In e eig -> 0 < e <= 1) /\ (forall c, In c cols -> length c = length eig /\ seen c 2).
Proof.
  exists [[(1, 0); (0, 2); (1, 1)]], [1; 1 / 2; 1 / 4]. split; [cbn; lia|]. split; [discriminate|]. split; [intros e [<-|[<-|[<-|[]]]]; lra|].
  intros c [<-|[]]. split; [reflexivity|]. exists 0%nat. split; [lia|]. unfold cnorm2. cbn. lra.
Qed.

(* ---------- C182: jackknife variances ---------- *)
Theorem C182_variance : forall col eig,
  length col = length eig -> (2 <= length eig)%nat -> (forall e, In e eig -> 0 < e) -> (forall x, In x col -> 0 < cnorm2 x) ->
  let K := length eig in
  exists p : nat -> R, (forall i, (i < K)%nat -> psd_from_freq_response (without i col) (map sqrt (without i eig)) = Some (p i) /\ 0 < p i) /\
    exists v, jackknife col eig = Some v /\ 0 <= v /\ v = rs K (fun i => (ln (p i) - rs K (fun j => ln (p j)) / INR K) * (ln (p i) - rs K (fun j => ln (p j)) / INR K)) * ((INR K - 1) * (INR K - 1) / INR K / (INR K - 1 / 2)).
Proof. exact jackknife_ok. Qed.
Print Assumptions C182_variance.
Theorem C182_scaled : forall col eig c,
  c <> 0 -> length col = length eig -> (2 <= length eig)%nat -> (forall e, In e eig -> 0 < e) -> (forall x, In x col -> 0 < cnorm2 x) ->
  jackknife (map (fun x => cscal x c) col) eig = jackknife col eig.
Proof. exact jackknife_scaled. Qed.
Print Assumptions C182_scaled.
Theorem C182_equal : forall col eig r,
  0 < r -> length col = length eig -> (2 <= length eig)%nat -> (forall e, In e eig -> 0 < e) -> (forall x, In x col -> cnorm2 x = r) ->
  jackknife col eig = Some 0.
Proof. exact jackknife_equal. Qed.
Print Assumptions C182_equal.
Theorem C182_single_error : forall x e,
  jackknife [x] [e] = None.
Proof. exact jackknife_single. Qed.
Print Assumptions C182_single_error.
Theorem C182_bandwidth : forall NW,
  1 / 2 <= NW < 1 -> kmax NW = 1%Z.
Proof. exact kmax_one. Qed.
Print Assumptions C182_bandwidth.
Theorem C182_one_taper_error : forall dpss counts dt NW lb t e,
  1 / 2 <= NW -> dpss (length counts) NW (kmax NW) = [(t, e)] -> exists psd,
  fourier_multitaper dpss counts dt NW lb = Ok (frequencies (length counts) dt, psd, repeat None (length counts / 2 - 1)).
Proof. exact jackknife_one. Qed.
Print Assumptions C182_one_taper_error.
(* the default jackknife variances are nan for any half-bandwidth below one *)
Theorem C182_default_refuted : exists NW, 1 / 2 <= NW /\ forall (dpss : nat -> R -> Z -> list (list R * R)) counts dt lb, (forall n w k, Z.of_nat (length (dpss n w k)) = k) ->
  exists psd, fourier_multitaper dpss counts dt NW lb = Ok (frequencies (length counts) dt, psd, repeat None (length counts / 2 - 1)).
Proof.
  exists (1 / 2). split; [lra|]. intros dpss counts dt lb D. specialize (D (length counts) (1 / 2) (kmax (1 / 2))).
  destruct (dpss (length counts) (1 / 2) (kmax (1 / 2))) as [|[t e] [|]] eqn:E; rewrite (kmax_one (1 / 2)) in D by lra; try (cbn [length] in D; lia). exact (jackknife_one dpss counts dt (1 / 2) lb t e ltac:(lra) E).
Qed.
Print Assumptions C182_default_refuted.
Example C182_nonvacuous : exists (col : list cx) (eig : list R), length col = length eig /\ (2 <= length eig)%nat /\ (forall e, In e eig -> 0 < e) /\ (forall x, In x col -> 0 < cnorm2 x).
Proof. exists [(1, 0); (0, 2)], [1; 1 / 2]. split; [reflexivity|]. split; [cbn; lia|]. split; [intros e [<-|[<-|[]]]; lra|]. intros x [<-|[<-|[]]]; unfold cnorm2; cbn; lra. Qed.

(* ---------- C183: frequencies, tapered data, white noise ---------- *)
Theorem C183_columns : forall counts tapers i k j,
  (forall t, In t tapers -> length t = length counts) -> (i < length counts / 2 - 1)%nat -> (j < length tapers)%nat -> k = S i ->
  nth j (nth i (columns counts tapers) []) c0 = dft (tapered counts (nth j tapers [])) k.
Proof. exact columns_at. Qed.
Print Assumptions C183_columns.
Theorem C183_shift : forall dpss counts dt NW lb c,
  counts <> [] -> fourier_multitaper dpss (map (fun y => y + c) counts) dt NW lb = fourier_multitaper dpss counts dt NW lb.
Proof. exact shift_invariant. Qed.
Print Assumptions C183_shift.
Theorem C183_scale : forall counts tapers c,
  (forall t, In t tapers -> length t = length counts) -> columns (map (fun y => y * c) counts) tapers = map (map (fun x => cscal x c)) (columns counts tapers).
Proof. exact columns_scale. Qed.
Print Assumptions C183_scale.
Theorem C183_even : forall n dt k,
  Nat.even n = true -> (0 < k)%nat -> (2 * k < n)%nat -> In (INR k / (INR n * dt)) (frequencies n dt).
Proof. exact frequencies_even. Qed.
Print Assumptions C183_even.
Theorem C183_frequency : forall n dt i,
  (i < n / 2 - 1)%nat -> nth i (frequencies n dt) 0 = INR (S i) / (INR n * dt).
Proof. exact frequencies_at. Qed.
Print Assumptions C183_frequency.
Theorem C183_odd_error : forall m dt,
  (0 < m)%nat -> 0 < dt -> ~ In (INR m / (INR (2 * m + 1) * dt)) (frequencies (2 * m + 1) dt).
Proof. exact frequencies_odd. Qed.
Print Assumptions C183_odd_error.
Theorem C183_bandwidth_error : forall dpss counts dt NW lb,
  NW < 1 / 2 -> fourier_multitaper dpss counts dt NW lb = Err ValueError.
Proof. exact half_bandwidth. Qed.
Print Assumptions C183_bandwidth_error.
Theorem C183_white : forall ens n m s2 tapers w (p : (nat -> R) -> R) i,
  (0 < n)%nat -> (forall t, In t tapers -> length t = n /\ rs n (fun j => val t j * val t j) = 1) -> white_noise ens n m s2 ->
  length w = length tapers -> (exists k, (k < length w)%nat /\ nth k w 0 <> 0) -> (i < n / 2 - 1)%nat ->
  (forall x, In x ens -> psd_from_freq_response (nth i (columns (series_of n x) tapers) []) w = Some (p x)) ->
  over ens p = INR (length ens) * (2 * s2 * weighted_mean (length w) (fun k => nth k w 0 * nth k w 0) (fun k => 1 - power_at (nth k tapers []) (S i) / INR n)).
Proof. exact over_psd. Qed.
Print Assumptions C183_white.
Theorem C183_white_periodogram : forall ens n m s2 k,
  (0 < n)%nat -> (0 < k < n)%nat -> white_noise ens n m s2 -> over ens (fun x => power_at (series_of n x) k) = INR (length ens) * (INR n * s2).
Proof. exact over_periodogram. Qed.
Print Assumptions C183_white_periodogram.
(* odd numbers of bins: the highest frequency is missing *)
Theorem C183_odd_refuted : exists n dt k, 0 < dt /\ (0 < k)%nat /\ (2 * k < n)%nat /\ ~ In (INR k / (INR n * dt)) (frequencies n dt).
Proof. exists 5%nat, 1, 2%nat. split; [lra|]. split; [lia|]. split; [lia|]. exact (frequencies_odd 2 1 ltac:(lia) ltac:(lra)). Qed.
Print Assumptions C183_odd_refuted.
(* Leahy powers are twice those of the periodogram *)
Theorem C183_leahy_refuted : exists (dpss : nat -> R -> Z -> list (list R * R)) counts dt NW p jk, (forall n w k, Forall (fun te => rs 4 (fun j => val (fst te) j * val (fst te) j) = 1) (dpss n w k)) /\
  fourier_multitaper dpss counts dt NW true = Ok (frequencies 4 dt, [Some p], jk) /\ 2 * power_at counts 1 / rlsum counts = 2 /\
  multitaper_power (Some p) 4 dt (rlsum counts) Leahy = Ok (Some 4).
Proof.
  set (t := [1 / 2; 1 / 2; 1 / 2; 1 / 2]). exists (fun _ _ _ => [(t, 1)]), [1; 0; 0; 0], 1, (1 / 2), (1 / 2), [None].
  split; [intros n w k; constructor; [|constructor]; cbn [fst]; unfold t, val; rewrite !rs_S, rs_0; cbn [nth]; field|].
  assert (P1 : power_at [1; 0; 0; 0] 1 = 1).
  { unfold power_at, dft. cbn [length]. rewrite !rs_S, !rs_0. unfold val. cbn [nth]. cbn [Nat.mul INR]. replace (2 * PI * 0 / (1 + 1 + 1 + 1)) with 0 by field. rewrite cos_0, sin_0. unfold cnorm2. cbn [re im fst snd]. ring. }
  split; [|split].
  - unfold fourier_multitaper. destruct (Rlt_dec (1 / 2) (1 / 2)) as [X|_]; [lra|]. unfold select_tapers. cbn [filter snd]. unfold above. destruct (Rlt_dec (9 / 10) 1) as [_|X]; [|lra]. cbn [bind map fst snd length].
    assert (C : columns [1; 0; 0; 0] [t] = [[dft (tapered [1; 0; 0; 0] t) 1]]).
    { destruct (columns_len [1; 0; 0; 0] [t]) as [L1 L2]. change (length [1; 0; 0; 0] / 2 - 1)%nat with 1%nat in L1. destruct (columns [1; 0; 0; 0] [t]) as [|c [|c' l]] eqn:E; try discriminate.
      specialize (L2 c ltac:(now left)). destruct c as [|x [|y c]]; try discriminate. do 2 f_equal. pose proof (columns_at [1; 0; 0; 0] [t] 0 1 0 ltac:(intros y [<-|[]]; reflexivity) ltac:(cbn; lia) ltac:(cbn; lia) eq_refl) as Q. rewrite E in Q. exact Q. }
    rewrite C. cbn [map]. rewrite jackknife_single. rewrite psd_one by (rewrite sqrt_1; lra). do 2 f_equal. f_equal. f_equal. f_equal.
    assert (T : tapered [1; 0; 0; 0] t = [3 / 8; - (1 / 8); - (1 / 8); - (1 / 8)]). { unfold tapered, t, mean_of. cbn [map combine fst snd length]. unfold rlsum. cbn [fold_right INR]. do 4 (apply (f_equal2 (@cons R)); [field|]). reflexivity. }
    rewrite T. unfold dft. cbn [length]. rewrite !rs_S, !rs_0. unfold val. cbn [nth]. cbn [Nat.mul INR Nat.add].
    replace (2 * PI * 0 / (1 + 1 + 1 + 1)) with 0 by field. replace (2 * PI * 1 / (1 + 1 + 1 + 1)) with (PI / 2) by field. replace (2 * PI * (1 + 1) / (1 + 1 + 1 + 1)) with PI by field. replace (2 * PI * (1 + 1 + 1) / (1 + 1 + 1 + 1)) with (3 * (PI / 2)) by field.
    rewrite cos_0, sin_0, cos_PI2, sin_PI2, cos_PI, sin_PI, cos_3PI2, sin_3PI2. unfold cnorm2. cbn [re im fst snd]. field.
  - rewrite P1. unfold rlsum. cbn. field.
  - unfold multitaper_power, unnormalized. rewrite fdiv_some by lra. cbn [normalize bind]. unfold normalize_leahy_poisson. do 2 f_equal. unfold rlsum. cbn [fold_right INR]. field.
Qed.
Print Assumptions C183_leahy_refuted.
(* all combinations of two signs of two bins *)
Example C183_nonvacuous : white_noise (map (fun ab => fun i => match i with O => fst ab | _ => snd ab end) [(1, 1); (1, -1); (-1, 1); (-1, -1)]) 2 0 1.
Proof.
  split; [intros [|[|i]] Hi; try lia; unfold over; cbn; lra|]. intros [|[|i]] [|[|j]] Hi Hj; try lia; unfold over; cbn; lra.
Qed.

(* ---------- C184: good time intervals and uneven data ---------- *)
Theorem C184_same_error : forall numba srt g g' lc r r',
  multitaper_light_curve numba srt (Some g) lc = Ok r -> multitaper_light_curve numba srt (Some g') lc = Ok r' -> snd r = snd r'.
Proof. exact light_curve_same. Qed.
Print Assumptions C184_same_error.
Theorem C184_several_error : forall numba srt g lc,
  (length g <> 1)%nat -> (exists own, gti_of lc = Some own) -> check_gtis g = Ok tt -> multitaper_light_curve numba srt (Some g) lc = Err TypeError.
Proof. exact light_curve_several. Qed.
Print Assumptions C184_several_error.
Theorem C184_energy : forall t counts s,
  length t = length counts -> rlsum (map (fun x => x * x) t) = s -> s <> 0 ->
  exists y, tapered_uneven t counts = map Some y /\ ((forall c, In c counts -> (c - mean_of counts) * (c - mean_of counts) = 1) -> rlsum (map (fun x => x * x) y) = INR (length counts) / s).
Proof. exact uneven_energy. Qed.
Print Assumptions C184_energy.
(* the good time intervals given to Multitaper do not select any data *)
Theorem C184_gti_refuted : exists numba srt lc g r t, multitaper_light_curve numba srt (Some g) lc = Ok (g, r) /\ In t (s_time r) /\ (forall iv, In iv g -> t < fst iv)%Q.
Proof.
  exists false, (fun l => l), (mkSeries [0; 1; 2; 3; 4; 5]%Q [] [] 1%Q None 0%Q None None), [(3, 5)%Q]. eexists. exists 0%Q. split; [vm_compute; reflexivity|]. split; [now left|]. intros iv [<-|[]]. reflexivity.
Qed.
Print Assumptions C184_gti_refuted.
(* the squares of the interpolated taper sum to four: the tapered data have a quarter of the energy *)
Theorem C184_energy_refuted : exists t counts y, length t = length counts /\ (forall c, In c counts -> (c - mean_of counts) * (c - mean_of counts) = 1) /\ tapered_uneven t counts = map Some y /\
  rlsum (map (fun x => x * x) y) = INR (length counts) / 4.
Proof.
  assert (M : mean_of [2; 0] = 1) by (unfold mean_of, rlsum; cbn; field). destruct (uneven_energy [2; 0] [2; 0] 4) as (y & A & B); [reflexivity|unfold rlsum; cbn; ring|lra|].
  assert (D : forall c, In c [2; 0] -> (c - mean_of [2; 0]) * (c - mean_of [2; 0]) = 1) by (intros c [<-|[<-|[]]]; rewrite M; ring).
  exists [2; 0], [2; 0], y. split; [reflexivity|]. split; [exact D|]. split; [exact A|]. apply B, D.
Qed.
Print Assumptions C184_energy_refuted.
Example C184_nonvacuous : check_gtis [(3, 5)%Q] = Ok tt /\ check_gtis [(0, 1)%Q; (3, 5)%Q] = Ok tt.
Proof. split; reflexivity. Qed.

