(* T_fourier.v: property theorems about Fourier products (C26-C33, C59, C60). *)
From Verif Require Import Np Cplx M_fourier S_fourier P_dft P_norm P_avg P_avgcs P_spec P_self P_lag P_avg2 P_cserr.
From Coq Require Import Lra.
Open Scope R_scope.

(* data for the examples *)
Definition ex_seg (l : list R) : seg := {| s_flux := l; s_err := None |}.
Lemma ex_nonzero a l : a <> 0 -> nonzero (ex_seg (a :: l)) = true.
Proof. intros H. unfold nonzero. cbn. destruct (Req_EM_T a 0); [contradiction|reflexivity]. Qed.
Definition ex_segs : list (option seg) := [Some (ex_seg [1; 0; 0]); None; Some (ex_seg [0; 0; 0]); Some (ex_seg [2; 1; 3])].
Lemma ex_zero : nonzero (ex_seg [0; 0; 0]) = false.
Proof. unfold nonzero. cbn. destruct (Req_EM_T 0 0); [reflexivity|lra]. Qed.
Lemma ex_usable : usable ex_segs = [ex_seg [1; 0; 0]; ex_seg [2; 1; 3]].
Proof. unfold usable, ex_segs. cbn [flat_map]. rewrite ex_zero, !ex_nonzero by lra. reflexivity. Qed.
Lemma ex_tuples : tuples_nonzero ex_segs.
Proof. intros s H. unfold ex_segs in H. cbn in H. intros E. repeat (destruct H as [H|H]; [try discriminate; injection H as <-; now elim E|]). destruct H. Qed.
Lemma ex_lengths : forall u, In u (usable ex_segs) -> length (s_flux u) = 3%nat.
Proof. rewrite ex_usable. intros u [ <- |[ <- |[]]]; reflexivity. Qed.

(* ---------- C26 ---------- *)
Theorem C26_positive_bins : forall n d (iz : bool),
  (0 < n)%nat -> 0 < d ->
  length (fftfreq n d) = n /\
  (forall k, (k < n)%nat -> nth k (fftfreq n d) 0 = bin_freq n d k) /\
  cut (fftfreq n d) (positive_fft_bins n iz) = filter (if iz then nonnegb else posb) (fftfreq n d) /\
  (forall k, (k < n)%nat ->
     (fst (positive_fft_bins n iz) <= k < snd (positive_fft_bins n iz))%nat <->
     (if iz then 0 <= bin_freq n d k else 0 < bin_freq n d k)).
Proof. exact pos_bins_main. Qed.
Print Assumptions C26_positive_bins.

Example C26_nonvacuous : (0 < 5)%nat /\ positive_fft_bins 5 false = (1, 3)%nat /\ positive_fft_bins 6 true = (0, 3)%nat.
Proof. repeat split. lia. Qed.

(* ---------- C27 ---------- *)
Theorem C27_round_trip : forall (p : list cx) dt n nph bkg norm,
  dt <> 0 -> (0 < n)%nat -> nph <> 0 ->
  norm <> OtherNorm -> (0 < bkg -> nph / INR n <> bkg) ->
  exists q, normalize cmulr p dt n (Some (nph / INR n)) (Some nph) None bkg norm = Ok q /\
            unnormalize cmulr q dt n nph None bkg norm = Ok p.
Proof. exact roundtrip_main. Qed.
Print Assumptions C27_round_trip.
Theorem C27_round_trip_back : forall (p : list cx) dt n nph bkg norm,
  dt <> 0 -> (0 < n)%nat -> nph <> 0 ->
  norm <> OtherNorm -> (0 < bkg -> nph / INR n <> bkg) ->
  exists q, unnormalize cmulr p dt n nph None bkg norm = Ok q /\
            normalize cmulr q dt n (Some (nph / INR n)) (Some nph) None bkg norm = Ok p.
Proof. exact roundtrip_back. Qed.
Print Assumptions C27_round_trip_back.
Theorem C27_factors : forall (z : cx) dt n mean nph bkg,
  normalize cscal z dt n (Some mean) (Some nph) None bkg Frac =
    Ok (cscal z (2 * dt / ((mean - Rmax 0 bkg) * (mean - Rmax 0 bkg) * INR n))) /\
  normalize cscal z dt n (Some mean) (Some nph) None bkg AbsNorm = Ok (cscal z (2 / (INR n * dt))) /\
  normalize cscal z dt n (Some mean) (Some nph) None bkg Leahy = Ok (cscal z (2 / nph)) /\
  (forall v, v <> 0 ->
     normalize cscal z dt n (Some mean) (Some nph) (Some v) bkg Leahy = Ok (cscal z (2 / (v * INR n)))) /\
  normalize cscal z dt n (Some mean) (Some nph) (Some 0) bkg Leahy = Err ValueError /\
  normalize cscal z dt n (Some mean) (Some nph) None bkg NoNorm = Ok z /\
  normalize cscal z dt n (Some mean) (Some nph) None bkg OtherNorm = Err ValueError.
Proof. exact normalize_values. Qed.
Print Assumptions C27_factors.
(* with an explicit variance the inverse of the Leahy normalization multiplies by photons/bin instead *)
Theorem C27_variance_error : forall (p : list cx) dt n nph v bkg,
  (0 < n)%nat -> v <> 0 ->
  exists q, normalize cmulr p dt n (Some (nph / INR n)) (Some nph) (Some v) bkg Leahy = Ok q /\
            unnormalize cmulr q dt n nph (Some v) bkg Leahy = Ok (map (fun z => cscal z (nph / INR n)) p).
Proof. exact roundtrip_variance. Qed.
Print Assumptions C27_variance_error.
Theorem C27_variance_refuted : 
  exists (p q r : list cx) dt n nph v, 0 < dt /\ (0 < n)%nat /\ 0 < nph /\ 0 < v /\
    normalize cmulr p dt n (Some (nph / INR n)) (Some nph) (Some v) 0 Leahy = Ok q /\
    unnormalize cmulr q dt n nph (Some v) 0 Leahy = Ok r /\ r <> p.
Proof. exact roundtrip_variance_refuted. Qed.
Print Assumptions C27_variance_refuted.

Example C27_nonvacuous : exists q : list cx, (10 : R) <> 0 /\ (0 < 1 / 2 -> 10 / INR 4 <> 1 / 2) /\
  normalize cmulr [(1, 2)] 1 4 (Some (10 / INR 4)) (Some 10) None (1 / 2) Leahy = Ok q /\ q <> [(1, 2)].
Proof.
  eexists. split; [lra|]. split; [cbn; lra|]. split; [reflexivity|]. intros E. apply (f_equal (fun l => re (nth 0 l c0))) in E.
  cbn in E. lra.
Qed.

(* ---------- C28 ---------- *)
Theorem C28_poisson_level : forall dt n nph backrate norm,
  0 < dt -> (0 < n)%nat -> nph <> 0 -> 0 <= backrate ->
  nph / (INR n * dt) <> backrate -> norm <> OtherNorm ->
  let unnorm_level := nph in
  let meanrate := nph / (INR n * dt) in
  exists l, poisson_level norm (Some meanrate) (Some nph) backrate = Ok l /\
    normalize Rmult unnorm_level dt n (Some (nph / INR n)) (Some nph) None (backrate * dt) norm = Ok l.
Proof. exact poisson_main. Qed.
Print Assumptions C28_poisson_level.
Theorem C28_missing_arguments : 
  (forall n_ph b, poisson_level Frac None n_ph b = Err ValueError) /\
  (forall n_ph b, poisson_level AbsNorm None n_ph b = Err ValueError) /\
  (forall mr b, poisson_level NoNorm mr None b = Err ValueError) /\
  (forall mr n_ph b, poisson_level OtherNorm mr n_ph b = Err ValueError).
Proof. exact poisson_missing. Qed.
Print Assumptions C28_missing_arguments.
Theorem C28_negative_background_refuted : 
  exists dt n nph backrate l l', 0 < dt /\ (0 < n)%nat /\ 0 < nph /\ backrate < 0 /\
    poisson_level Frac (Some (nph / (INR n * dt))) (Some nph) backrate = Ok l /\
    normalize Rmult nph dt n (Some (nph / INR n)) (Some nph) None (backrate * dt) Frac = Ok l' /\ l <> l'.
Proof. exact poisson_negative_background. Qed.
Print Assumptions C28_negative_background_refuted.

Example C28_nonvacuous : 0 < 1 / 2 /\ (0 < 4)%nat /\ (10 : R) <> 0 /\ 0 <= 1 /\ 10 / (INR 4 * (1 / 2)) <> 1 /\ Frac <> OtherNorm.
Proof. repeat split; try lra; try lia; cbn; try discriminate. lra. Qed.

(* ---------- C29 ---------- *)
Theorem C29_parseval : forall x,
  rs (length x) (fun k => power_at x k) = INR (length x) * rs (length x) (fun j => val x j * val x j).
Proof. exact parseval. Qed.
Print Assumptions C29_parseval.
Theorem C29_parseval_positive : forall x,
  x <> [] ->
  2 * rs (n_pos (length x)) (fun k => power_at x (S k))
  + (if Nat.even (length x) then power_at x (length x / 2) else 0)
  = INR (length x) * INR (length x) * variance x.
Proof. exact parseval_pos. Qed.
Print Assumptions C29_parseval_positive.
Theorem C29_fractional_power_partial : forall segs dt (subcs : bool) n t,
  (0 < n)%nat -> 0 < dt ->
  tuples_nonzero segs -> (forall u, In u (usable segs) -> length (s_flux u) = n) ->
  avg_pds segs dt Frac true subcs = Ok (Some t) -> p_mean t <> 0 ->
  rlsum (map (fun p => p * p_df t) (p_power t)) =
  (avg (fun u => variance (s_flux u)) (usable segs)
   - (if Nat.even n then avg (fun u => power_at (s_flux u) (n / 2)) (usable segs) / (INR n * INR n) else 0))
  / (p_mean t * p_mean t).
Proof. exact frac_power. Qed.
Print Assumptions C29_fractional_power_partial.
Theorem C29_even_length_refuted : 
  exists x dt t, length x = 2%nat /\ 0 < dt /\
    avg_pds [Some {| s_flux := x; s_err := None |}] dt Frac true false = Ok (Some t) /\ 0 < p_mean t /\
    rlsum (map (fun p => p * p_df t) (p_power t)) <> variance x / (p_mean t * p_mean t).
Proof. exact frac_power_even_refuted. Qed.
Print Assumptions C29_even_length_refuted.
Theorem C29_rms_partial : forall segs dt norm (common subcs : bool) n t ss (frac : bool),
  (0 < n)%nat -> 0 < dt ->
  tuples_nonzero segs -> (forall u, In u (usable segs) -> length (s_flux u) = n) ->
  avg_pds segs dt norm common subcs = Ok (Some t) -> 0 < p_mean t -> (ss = None \/ ss = Some (p_segment_size t)) ->
  rms_from_unnorm (p_unnorm t) (p_nphots t) (p_df t) (Some 0) ss frac =
  sqrt (avg (fun u => variance (s_flux u)) (usable segs)
        - (if Nat.even n then avg (fun u => power_at (s_flux u) (n / 2)) (usable segs) / (INR n * INR n) else 0))
  / (if frac then p_mean t else dt).
Proof. exact rms_main. Qed.
Print Assumptions C29_rms_partial.
Theorem C29_rms_noise : forall powers noise df,
  0 <= rms_from_rms_norm powers noise df /\
  let tot := rlsum (map (fun p => (p - noise) * df) powers) in
  (0 <= tot -> rms_from_rms_norm powers noise df * rms_from_rms_norm powers noise df = tot) /\
  (tot < 0 -> rms_from_rms_norm powers noise df = 0).
Proof. exact rms_noise. Qed.
Print Assumptions C29_rms_noise.

Example C29_nonvacuous : exists t, tuples_nonzero ex_segs /\ (forall u, In u (usable ex_segs) -> length (s_flux u) = 3%nat) /\
  avg_pds ex_segs 1 Frac true false = Ok (Some t) /\ 0 < p_mean t /\ 0 < avg (fun u => variance (s_flux u)) (usable ex_segs).
Proof.
  eexists. split; [exact ex_tuples|]. split; [exact ex_lengths|]. split.
  - rewrite (avg_pds_common ex_segs 1 Frac false 3 ltac:(lia) ex_tuples ex_lengths). rewrite ex_usable. cbn [kind]. reflexivity.
  - cbn [p_mean]. rewrite ex_usable. unfold avg, variance, photons, avg, rlsum. cbn. split; lra.
Qed.

(* ---------- C30 ---------- *)
Theorem C30_cross_spectrum_with_itself : forall segs dt norm (common auxil subcs : bool) n,
  (0 < n)%nat ->
  tuples_nonzero segs -> (forall u, In u (usable segs) -> length (s_flux u) = n) ->
  (forall u, In u (usable segs) -> 0 <= photons u) ->
  match avg_pds segs dt norm common subcs with
  | Ok (Some t) => exists c, avg_cs segs segs dt norm common false PAll auxil subcs = Ok (Some c) /\ same_table t c
  | Ok None => avg_cs segs segs dt norm common false PAll auxil subcs = Ok None
  | Err e => avg_cs segs segs dt norm common false PAll auxil subcs = Err e
  end.
Proof. exact cs_self. Qed.
Print Assumptions C30_cross_spectrum_with_itself.

Example C30_nonvacuous : tuples_nonzero ex_segs /\ (forall u, In u (usable ex_segs) -> length (s_flux u) = 3%nat) /\
  (forall u, In u (usable ex_segs) -> 0 <= photons u) /\ length (usable ex_segs) = 2%nat.
Proof.
  split; [exact ex_tuples|]. split; [exact ex_lengths|]. rewrite ex_usable. split; [|reflexivity].
  intros u [ <- |[ <- |[]]]; unfold photons, rlsum; cbn; lra.
Qed.

(* ---------- C31 ---------- *)
(* the complete result tables *)
Theorem C31_average_common_mean : forall segs dt norm subcs n,
  (0 < n)%nat ->
  (forall s, In (Some s) segs -> s_err s <> None -> nonzero s = true) ->
  (forall u, In u (usable segs) -> length (s_flux u) = n) ->
  let us := usable segs in
  let ks := seq 1 (n_pos n) in
  let nph := avg photons us in
  let mean := nph / INR n in
  let var := mean_present (map err2 us) in
  let unnorm k := avg (fun u => power_at (s_flux u) k) us in
  avg_pds segs dt norm true subcs =
  match us with
  | [] => Ok None
  | _ =>
    match kind norm var with
    | None => Err ValueError
    | Some kn =>
      let f := factor kn dt n mean nph in
      Ok (Some {| p_freq := map (fun k => INR k / (INR n * dt)) ks;
                  p_power := map (fun k => unnorm k * f) ks;
                  p_unnorm := map unnorm ks;
                  p_n := n; p_m := length us; p_dt := dt; p_norm := norm; p_df := 1 / (dt * INR n);
                  p_nphots := nph; p_mean := mean; p_variance := var; p_segment_size := dt * INR n;
                  p_subcs := if subcs then Some (map (fun u => map (fun k => power_at (s_flux u) k * f) ks) us) else None;
                  p_unnorm_subcs := if subcs then Some (map (fun u => map (power_at (s_flux u)) ks) us) else None |})
    end
  end.
Proof. exact avg_pds_common. Qed.
Print Assumptions C31_average_common_mean.
Theorem C31_average_own_mean : forall segs dt norm subcs n,
  (0 < n)%nat ->
  (forall s, In (Some s) segs -> s_err s <> None -> nonzero s = true) ->
  (forall u, In u (usable segs) -> length (s_flux u) = n) ->
  let us := usable segs in
  let ks := seq 1 (n_pos n) in
  let nph := avg photons us in
  let own u k := power_at (s_flux u) k *
                 match kind norm (err2 u) with
                 | Some kn => factor kn dt n (photons u / INR n) (photons u)
                 | None => 0
                 end in
  let unnorm k := avg (fun u => power_at (s_flux u) k) us in
  avg_pds segs dt norm false subcs =
  match us with
  | [] => Ok None
  | _ =>
    if existsb (fun u => match kind norm (err2 u) with None => true | Some _ => false end) us
    then Err ValueError
    else
      Ok (Some {| p_freq := map (fun k => INR k / (INR n * dt)) ks;
                  p_power := map (fun k => avg (fun u => own u k) us) ks;
                  p_unnorm := map unnorm ks;
                  p_n := n; p_m := length us; p_dt := dt; p_norm := norm; p_df := 1 / (dt * INR n);
                  p_nphots := nph; p_mean := nph / INR n;
                  p_variance := mean_present (map err2 us); p_segment_size := dt * INR n;
                  p_subcs := if subcs then Some (map (fun u => map (own u) ks) us) else None;
                  p_unnorm_subcs := if subcs then Some (map (fun u => map (power_at (s_flux u)) ks) us) else None |})
  end.
Proof. exact avg_pds_own. Qed.
Print Assumptions C31_average_own_mean.
Theorem C31_cross_common_mean : forall segs1 segs2 dt norm (fullspec : bool) pt (auxil subcs : bool) n,
  (0 < n)%nat ->
  tuples_nonzero segs1 -> tuples_nonzero segs2 ->
  let us := usable2 segs1 segs2 in
  (forall p, In p us -> length (s_flux (fst p)) = n /\ length (s_flux (snd p)) = n) ->
  let ks := bins fullspec n in
  let nph1 := avg (fun p => photons (fst p)) us in
  let nph2 := avg (fun p => photons (snd p)) us in
  let nph := gmean nph1 nph2 in
  let var1 := mean_present (map pvar1 us) in
  let var2 := mean_present (map pvar2 us) in
  let var := gmean_opt var1 var2 in
  let unnorm k := cavg (fun p => cpower p k) us in
  let upds1 k := avg (fun p => pow1 p k) us in
  let upds2 k := avg (fun p => pow2 p k) us in
  let scale z := as_type pt (cscal z (fac norm var dt n (nph / INR n) nph)) in
  avg_cs segs1 segs2 dt norm true fullspec pt auxil subcs =
  match us with
  | [] => Ok None
  | _ =>
    if (refused norm var || bad_type pt)%bool then Err ValueError
    else Ok (Some {|
      c_freq := map (bin_freq n dt) ks;
      c_power := map (fun k => scale (unnorm k)) ks; c_unnorm := map unnorm ks;
      c_n := n; c_m := length us; c_dt := dt; c_norm := norm; c_df := 1 / (dt * INR n);
      c_segment_size := dt * INR n; c_nphots := nph; c_nphots1 := nph1; c_nphots2 := nph2;
      c_mean := nph / INR n; c_mean1 := nph1 / INR n; c_mean2 := nph2 / INR n;
      c_variance := var; c_variance1 := var1; c_variance2 := var2;
      c_auxil := if auxil then
         Some (map (fun k => as_type_r pt (upds1 k * fac norm var1 dt n (nph1 / INR n) nph1)) ks,
               map (fun k => as_type_r pt (upds2 k * fac norm var2 dt n (nph2 / INR n) nph2)) ks,
               (map upds1 ks, map upds2 ks)) else None;
      c_subcs := if subcs then
         Some (map (fun p => map (fun k => scale (cpower p k)) ks) us, map (fun p => map (cpower p) ks) us)
         else None |})
  end.
Proof. exact avg_cs_common. Qed.
Print Assumptions C31_cross_common_mean.
Theorem C31_cross_own_mean : forall segs1 segs2 dt norm (fullspec : bool) pt (auxil subcs : bool) n,
  (0 < n)%nat ->
  tuples_nonzero segs1 -> tuples_nonzero segs2 ->
  let us := usable2 segs1 segs2 in
  (forall p, In p us -> length (s_flux (fst p)) = n /\ length (s_flux (snd p)) = n) ->
  let ks := bins fullspec n in
  let nph1 := avg (fun p => photons (fst p)) us in
  let nph2 := avg (fun p => photons (snd p)) us in
  let nph := gmean nph1 nph2 in
  let var1 := mean_present (map pvar1 us) in
  let var2 := mean_present (map pvar2 us) in
  let own p k := as_type pt (cscal (cpower p k) (fac norm (pvar p) dt n (pph p / INR n) (pph p))) in
  let own1 p k := as_type_r pt (pow1 p k * fac norm (pvar1 p) dt n (photons (fst p) / INR n) (photons (fst p))) in
  let own2 p k := as_type_r pt (pow2 p k * fac norm (pvar2 p) dt n (photons (snd p) / INR n) (photons (snd p))) in
  avg_cs segs1 segs2 dt norm false fullspec pt auxil subcs =
  match us with
  | [] => Ok None
  | _ =>
    if existsb (fun p => refused norm (pvar p) || bad_type pt)%bool us then Err ValueError
    else Ok (Some {|
      c_freq := map (bin_freq n dt) ks;
      c_power := map (fun k => cavg (fun p => own p k) us) ks;
      c_unnorm := map (fun k => cavg (fun p => cpower p k) us) ks;
      c_n := n; c_m := length us; c_dt := dt; c_norm := norm; c_df := 1 / (dt * INR n);
      c_segment_size := dt * INR n; c_nphots := nph; c_nphots1 := nph1; c_nphots2 := nph2;
      c_mean := nph / INR n; c_mean1 := nph1 / INR n; c_mean2 := nph2 / INR n;
      c_variance := gmean_opt var1 var2; c_variance1 := var1; c_variance2 := var2;
      c_auxil := if auxil then
         Some (map (fun k => rlsum (map (fun p => own1 p k) us)) ks,
               map (fun k => rlsum (map (fun p => own2 p k) us)) ks,
               (map (fun k => avg (fun p => pow1 p k) us) ks, map (fun k => avg (fun p => pow2 p k) us) ks)) else None;
      c_subcs := if subcs then
         Some (map (fun p => map (own p) ks) us, map (fun p => map (cpower p) ks) us)
         else None |})
  end.
Proof. exact avg_cs_own. Qed.
Print Assumptions C31_cross_own_mean.
Theorem C31_mean_of_stored_spectra : forall segs dt norm (common : bool) n t,
  (0 < n)%nat ->
  tuples_nonzero segs -> (forall u, In u (usable segs) -> length (s_flux u) = n) ->
  avg_pds segs dt norm common true = Ok (Some t) ->
  exists subs usubs, p_subcs t = Some subs /\ p_unnorm_subcs t = Some usubs /\
    length subs = p_m t /\ length usubs = p_m t /\ p_m t = length (usable segs) /\
    length (p_freq t) = n_pos n /\ length (p_power t) = n_pos n /\ length (p_unnorm t) = n_pos n /\
    forall j, (j < n_pos n)%nat ->
      nth j (p_power t) 0 = avg (fun s => nth j s 0) subs /\ nth j (p_unnorm t) 0 = avg (fun s => nth j s 0) usubs.
Proof. exact subcs_mean. Qed.
Print Assumptions C31_mean_of_stored_spectra.
Theorem C31_zero_tuple_refuted : 
  exists segs t, (forall u, In (Some u) segs -> length (s_flux u) = 3%nat) /\
    avg_pds segs 1 NoNorm true false = Ok (Some t) /\ p_m t <> length (usable segs).
Proof. exact zero_tuple_refuted. Qed.
Print Assumptions C31_zero_tuple_refuted.
Theorem C31_auxiliary_sum_refuted : 
  exists segs c p1 p2 u, tuples_nonzero segs /\ (forall s, In (Some s) segs -> length (s_flux s) = 3%nat) /\
    avg_cs segs segs 1 NoNorm false false PAll true false = Ok (Some c) /\ c_auxil c = Some (p1, p2, u) /\
    nth 0 p1 0 <> nth 0 (fst u) 0 /\ nth 0 p1 0 = INR (c_m c) * nth 0 (fst u) 0.
Proof. exact auxil_sum_refuted. Qed.
Print Assumptions C31_auxiliary_sum_refuted.
Theorem C31_mixed_lengths_refuted : 
  exists segs t, avg_pds segs 1 NoNorm true false = Ok (Some t) /\
    p_freq t = [1 / 3] /\ p_df t = 1 / 4 /\ p_n t = 4%nat /\ p_m t = 2%nat.
Proof. exact mixed_lengths_refuted. Qed.
Print Assumptions C31_mixed_lengths_refuted.

Example C31_nonvacuous : exists t, tuples_nonzero ex_segs /\ (forall u, In u (usable ex_segs) -> length (s_flux u) = 3%nat) /\
  avg_pds ex_segs 1 Leahy false true = Ok (Some t) /\ p_m t = 2%nat /\ length (p_power t) = 1%nat.
Proof.
  eexists. split; [exact ex_tuples|]. split; [exact ex_lengths|]. split.
  - rewrite (avg_pds_own ex_segs 1 Leahy true 3 ltac:(lia) ex_tuples ex_lengths). rewrite ex_usable. reflexivity.
  - cbn [p_m p_power]. rewrite map_length. split; reflexivity.
Qed.

(* ---------- C32 ---------- *)
Theorem C32_coherence : forall segs1 segs2 dt norm (common fullspec : bool) subcs n c z p q m,
  (0 < n)%nat -> tuples_nonzero segs1 -> tuples_nonzero segs2 ->
  (forall s, In s (usable2 segs1 segs2) -> length (s_flux (fst s)) = n /\ length (s_flux (snd s)) = n) ->
  avg_cs segs1 segs2 dt norm common fullspec PAll true subcs = Ok (Some c) ->
  forall j a, c_auxil c = Some a ->
  nth_error (c_unnorm c) j = Some z -> nth_error (fst (snd a)) j = Some p -> nth_error (snd (snd a)) j = Some q ->
  0 < p -> 0 < q ->
  raw_coherence z p q 0 0 m 1 = cnorm2 z / (p * q) /\ 0 <= raw_coherence z p q 0 0 m 1 <= 1.
Proof. exact coherence_main. Qed.
Print Assumptions C32_coherence.
Theorem C32_coherence_with_noise : forall segs1 segs2 dt norm (common fullspec : bool) subcs n c z p q m n1 n2,
  (0 < n)%nat -> tuples_nonzero segs1 -> tuples_nonzero segs2 ->
  (forall s, In s (usable2 segs1 segs2) -> length (s_flux (fst s)) = n /\ length (s_flux (snd s)) = n) ->
  avg_cs segs1 segs2 dt norm common fullspec PAll true subcs = Ok (Some c) ->
  forall j a, c_auxil c = Some a ->
  nth_error (c_unnorm c) j = Some z -> nth_error (fst (snd a)) j = Some p -> nth_error (snd (snd a)) j = Some q ->
  0 < p -> 0 < q -> (0 < m)%nat -> 0 <= n1 <= p -> 0 <= n2 <= q ->
  0 <= raw_coherence z p q n1 n2 m 1 <= 1.
Proof. exact coherence_averaged_noise. Qed.
Print Assumptions C32_coherence_with_noise.
Theorem C32_noise_refuted : 
  exists z p q noise m, 0 < p /\ 0 < q /\ 0 < noise /\ (0 < m)%nat /\ cnorm2 z <= p * q /\
    1 < raw_coherence z p q noise noise m 1.
Proof. exact coherence_noise_refuted. Qed.
Print Assumptions C32_noise_refuted.

Example C32_nonvacuous : exists c, avg_cs ex_segs ex_segs 1 NoNorm true false PAll true false = Ok (Some c) /\
  exists a z p q, c_auxil c = Some a /\ nth_error (c_unnorm c) 0 = Some z /\ nth_error (fst (snd a)) 0 = Some p /\
    nth_error (snd (snd a)) 0 = Some q /\ 0 < p /\ 0 < q.
Proof.
  eexists. split.
  - rewrite (avg_cs_common ex_segs ex_segs 1 NoNorm false PAll true false 3 ltac:(lia) ex_tuples ex_tuples).
    + rewrite usable2_self, ex_usable. cbn [map refused kind bad_type orb]. reflexivity.
    + rewrite usable2_self, ex_usable. intros p [ <- |[ <- |[]]]; split; reflexivity.
  - cbn [c_auxil c_unnorm bins]. change (n_pos 3) with 1%nat. cbn [seq map nth_error fst snd].
    assert (P : 0 < avg (fun p => pow1 p 1) [dup (ex_seg [1; 0; 0]); dup (ex_seg [2; 1; 3])]).
    { unfold avg. cbn [map length]. unfold pow1 at 1, power_at at 1. cbn [dup fst ex_seg s_flux]. rewrite dft_unit.
      pose proof (cnorm2_nonneg (dft [2; 1; 3] 1)) as C. rewrite <- power_at_norm in C. unfold rlsum. cbn [fold_right re im fst snd INR].
      unfold pow1. cbn [dup fst ex_seg s_flux]. lra. }
    do 4 eexists. repeat split; exact P.
Qed.

(* ---------- C33 ---------- *)
Theorem C33_lag_of_a_delay : forall segs1 segs2 dt norm (common auxil subcs : bool) n d c,
  (0 < n)%nat -> 0 < dt -> tuples_nonzero segs1 -> tuples_nonzero segs2 ->
  (forall s, In s (usable2 segs1 segs2) -> length (s_flux (fst s)) = n /\ delayed_seg d s) ->
  avg_cs segs1 segs2 dt norm common false PAll auxil subcs = Ok (Some c) ->
  forall j k, nth_error (seq 1 (n_pos n)) j = Some k -> (2 * k * d < n)%nat ->
  0 < avg (fun s => pow1 s k) (usable2 segs1 segs2) ->
  nth_error (phase_lag (c_unnorm c)) j = Some (- (2 * PI * INR k * INR d / INR n)) /\
  nth_error (time_lag (c_unnorm c) (c_freq c)) j = Some (- (INR d * dt)).
Proof. exact lag_main. Qed.
Print Assumptions C33_lag_of_a_delay.
Theorem C33_shift : forall d x y k,
  x <> [] -> delayed d x y ->
  dft y k = cmul (dft x k) (cis (length x) (- Z.of_nat (k * d))).
Proof. exact dft_delay. Qed.
Print Assumptions C33_shift.
Theorem C33_angle : forall r th,
  0 < r -> - PI < th <= PI -> angle (r * cos th, r * sin th) = th.
Proof. exact angle_polar. Qed.
Print Assumptions C33_angle.

Example C33_nonvacuous : let s1 := [Some (ex_seg [1; 0; 0])] in let s2 := [Some (ex_seg [0; 1; 0])] in
  (forall s, In s (usable2 s1 s2) -> length (s_flux (fst s)) = 3%nat /\ delayed_seg 1 s) /\
  nth_error (seq 1 (n_pos 3)) 0 = Some 1%nat /\ (2 * 1 * 1 < 3)%nat /\ 0 < avg (fun s => pow1 s 1) (usable2 s1 s2) /\
  exists c, avg_cs s1 s2 1 NoNorm true false PAll false false = Ok (Some c).
Proof.
  cbv zeta. set (s1 := [Some (ex_seg [1; 0; 0])]). set (s2 := [Some (ex_seg [0; 1; 0])]).
  assert (N : nonzero (ex_seg [0; 1; 0]) = true).
  { unfold nonzero. cbn. destruct (Req_EM_T 0 0); [|lra]. destruct (Req_EM_T 1 0); [lra|reflexivity]. }
  assert (U : usable2 s1 s2 = [(ex_seg [1; 0; 0], ex_seg [0; 1; 0])]).
  { unfold usable2, s1, s2. cbn [combine flat_map]. rewrite ex_nonzero, N by lra. reflexivity. }
  assert (D : forall s, In s (usable2 s1 s2) -> length (s_flux (fst s)) = 3%nat /\ delayed_seg 1 s).
  { rewrite U. intros s [ <- |[]]. split; [reflexivity|]. split; [reflexivity|].
    intros [|[|[|j]]] H; cbn in *; try reflexivity; lia. }
  split; [exact D|]. split; [reflexivity|]. split; [lia|]. split.
  - rewrite U. unfold avg, pow1, power_at. cbn [map fst ex_seg s_flux length]. rewrite dft_unit. unfold rlsum. cbn. lra.
  - assert (T1 : tuples_nonzero s1) by (intros x [E|[]]; injection E as <-; intros E; now elim E).
    assert (T2 : tuples_nonzero s2) by (intros x [E|[]]; injection E as <-; intros E; now elim E).
    eexists. rewrite (avg_cs_common s1 s2 1 NoNorm false PAll false false 3 ltac:(lia) T1 T2).
    + rewrite U. cbn [refused kind bad_type orb]. reflexivity.
    + rewrite U. intros p [ <- |[]]. split; reflexivity.
Qed.

(* ---------- C59: avg_cs_from_iterables_quick ---------- *)
Theorem C59_quick_average : forall segs1 segs2 dt norm,
  plain segs1 -> plain segs2 ->
  avg_cs_quick segs1 segs2 dt norm = avg_cs segs1 segs2 dt norm true false PAll false false.
Proof. exact quick_main. Qed.
Print Assumptions C59_quick_average.

Example C59_nonvacuous : plain ex_segs /\ length (usable ex_segs) = 2%nat.
Proof.
  split; [|rewrite ex_usable; reflexivity]. intros s H. unfold ex_segs in H. cbn in H.
  repeat (destruct H as [H|H]; [try discriminate; injection H as <-; reflexivity|]). destruct H.
Qed.

(* ---------- C60: errors of averaged cross spectra, covariance ---------- *)
Theorem C60_cross_errors : forall z ps pr m dre dim dphi dg,
  0 < ps -> 0 < pr -> (0 < m)%nat -> cnorm2 z <= ps * pr ->
  error_on_cs z ps pr m 0 0 = (dre, dim, dphi, dg) ->
  0 <= dre /\ 0 <= dim /\ 0 <= dphi /\ 0 <= dg /\
  2 * INR m * (dre * dre) = ps * pr + re z * re z - im z * im z /\
  2 * INR m * (dim * dim) = ps * pr - re z * re z + im z * im z /\
  INR m * (dg * dg) = ps * pr /\
  dre * dre + dim * dim = dg * dg /\
  (cnorm2 z <> 0 -> 2 * INR m * cnorm2 z * (dphi * dphi) = ps * pr - cnorm2 z).
Proof. exact cs_errors. Qed.
Print Assumptions C60_cross_errors.
Theorem C60_common_reference : forall z ps pr m ns nr d dphi,
  0 < pr -> nr < pr -> (0 < m)%nat ->
  let g := cnorm2 z - expected_bias ps pr ns nr m 1 in
  0 < g -> g <= ps * (pr - nr) ->
  error_on_cs_common z ps pr m ns nr = (d, dphi) ->
  0 <= d /\ 0 <= dphi /\
  2 * INR m * (pr - nr) * (d * d) = pr * (ps * (pr - nr) - g) /\
  dphi * dphi * g = d * d.
Proof. exact common_errors. Qed.
Print Assumptions C60_common_reference.
Theorem C60_covariance : forall z ref noise dnu,
  noise < ref -> 0 <= dnu ->
  cnorm2 (cross_to_covariance z ref noise dnu) = cnorm2 z * dnu / (ref - noise) /\
  re z * im (cross_to_covariance z ref noise dnu) = im z * re (cross_to_covariance z ref noise dnu) /\
  0 <= re z * re (cross_to_covariance z ref noise dnu).
Proof. exact covariance_main. Qed.
Print Assumptions C60_covariance.

Example C60_nonvacuous : exists dre dim dphi dg, cnorm2 (1, 1) <= 2 * 3 /\ cnorm2 (1, 1) <> 0 /\
  error_on_cs (1, 1) 2 3 10 0 0 = (dre, dim, dphi, dg).
Proof. unfold error_on_cs. do 4 eexists. split; [unfold cnorm2; cbn; lra|]. split; [unfold cnorm2; cbn; lra|]. reflexivity. Qed.

Example C60_common_nonvacuous : let g := cnorm2 (1, 1) - expected_bias 2 3 0 1 600 1 in
  0 < g /\ g <= 2 * (3 - 1) /\ exists d dphi, error_on_cs_common (1, 1) 2 3 600 0 1 = (d, dphi).
Proof.
  cbv zeta. unfold expected_bias. change (500 <? 600)%nat with true. cbv iota.
  split; [unfold cnorm2; cbn; lra|]. split; [unfold cnorm2; cbn; lra|]. unfold error_on_cs_common. do 2 eexists. reflexivity.
Qed.

(* ---------- C61: intrinsic coherence ---------- *)
Theorem C61_bounds : forall z p q m,
  0 < p -> 0 < q -> (0 < m)%nat -> cnorm2 z <= p * q ->
  0 <= intrinsic_coherence z p q 0 0 m <= 1.
Proof. exact intrinsic_main. Qed.
Print Assumptions C61_bounds.
Theorem C61_perfect_coherence : forall z p q n1 n2 m,
  n1 < p -> n2 < q -> (0 < m)%nat ->
  cnorm2 z = expected_bias p q n1 n2 m 1 + (p - n1) * (q - n2) ->
  intrinsic_coherence z p q n1 n2 m = 1.
Proof. exact intrinsic_perfect. Qed.
Print Assumptions C61_perfect_coherence.

Example C61_nonvacuous : 0 < 1 /\ (0 < 3)%nat /\ cnorm2 (1, 0) <= 1 * 2 /\
  cnorm2 (2, 0) = expected_bias 3 3 1 1 600 1 + (3 - 1) * (3 - 1).
Proof.
  unfold expected_bias. change (500 <? 600)%nat with true. cbv iota.
  unfold cnorm2. cbn. repeat split; try lra; lia.
Qed.

