(* T_tonorm.v: property theorems about changes of normalization (C42). *)
From Verif Require Import Np Lib Cplx M_fourier M_norm S_fourier S_norm P_norm P_avg P_avgcs P_tonorm P_tonorm2.
From Coq Require Import Lra Lia.
Open Scope R_scope.

(* ---------- C42 ---------- *)
Theorem C42_values : forall s b,
  sp_unnorm s <> None -> complete s -> computable s b -> b <> sp_norm s ->
  exists s', to_norm b s = Ok s' /\ consistent s' /\ sp_norm s' = b /\ same_raw s s' /\ same_errors s s'.
Proof. exact tonorm_values. Qed.
Print Assumptions C42_values.
Theorem C42_path_independent : forall s a b s1,
  to_norm a s = Ok s1 -> b <> sp_norm s -> to_norm b s1 = to_norm b s.
Proof. exact path_independent. Qed.
Print Assumptions C42_path_independent.
Theorem C42_round_trip_partial : forall s a s1,
  consistent s -> complete s -> computable s (sp_norm s) -> sp_unnorm s <> None ->
  to_norm a s = Ok s1 -> to_norm (sp_norm s) s1 = Ok s.
Proof. exact tonorm_back. Qed.
Print Assumptions C42_round_trip_partial.
Theorem C42_unknown_norm_error : forall s,
  sp_unnorm s <> None -> (sp_gauss s = true -> sp_power_type s = false -> sp_var1 s <> None /\ sp_var2 s <> None) ->
  to_norm OtherNorm s = Err ValueError.
Proof. exact unknown_norm. Qed.
Print Assumptions C42_unknown_norm_error.
Theorem C42_powerspectrum_common_mean : forall segs dt a b (sub : bool) n t t',
  (0 < n)%nat -> tuples_nonzero segs -> (forall u, In u (usable segs) -> length (s_flux u) = n) ->
  avg_pds segs dt a true sub = Ok (Some t) -> avg_pds segs dt b true sub = Ok (Some t') ->
  to_norm b (spectrum_of_pds t) = Ok (spectrum_of_pds t').
Proof. exact pds_renorm. Qed.
Print Assumptions C42_powerspectrum_common_mean.
Theorem C42_crossspectrum_common_mean : forall cs_errors segs1 segs2 dt a b (fullspec sub : bool) n t t',
  (0 < n)%nat -> tuples_nonzero segs1 -> tuples_nonzero segs2 ->
  (forall p, In p (usable2 segs1 segs2) -> length (s_flux (fst p)) = n /\ length (s_flux (snd p)) = n) ->
  avg_cs segs1 segs2 dt a true fullspec PAll true sub = Ok (Some t) -> avg_cs segs1 segs2 dt b true fullspec PAll true sub = Ok (Some t') ->
  exists s s', spectrum_of_cs cs_errors PAll t = Ok s /\ spectrum_of_cs cs_errors PAll t' = Ok s' /\ to_norm b s = Ok s'.
Proof. exact cs_renorm. Qed.
Print Assumptions C42_crossspectrum_common_mean.
Theorem C42_crossspectrum_powers_partial : forall cs_errors segs1 segs2 dt a b (fullspec : bool) pt (sub : bool) n t t',
  (0 < n)%nat -> tuples_nonzero segs1 -> tuples_nonzero segs2 ->
  (forall p, In p (usable2 segs1 segs2) -> length (s_flux (fst p)) = n /\ length (s_flux (snd p)) = n) ->
  avg_cs segs1 segs2 dt a true fullspec pt true sub = Ok (Some t) -> avg_cs segs1 segs2 dt b true fullspec pt true sub = Ok (Some t') ->
  exists s s' h1 h2 p1 p2 u, spectrum_of_cs cs_errors pt t = Ok s /\ to_norm b s = Ok s' /\ sp_power s' = Some (c_power t') /\
    sp_halves s' = Some (h1, h2) /\ c_auxil t' = Some (p1, p2, u) /\ h_power h1 = rl p1 /\ h_power h2 = rl p2.
Proof. exact cs_renorm_power. Qed.
Print Assumptions C42_crossspectrum_powers_partial.
Theorem C42_raw_cross_errors : forall cross pds1 pds2 m r1 r2 n1 n2 i z s r,
  (0 < m)%nat ->
  nth_error cross i = Some z -> nth_error pds1 i = Some s -> nth_error pds2 i = Some r ->
  exists dre dim, nth_error (raw_cross_errors cross pds1 pds2 m r1 r2 n1 n2) i = Some (dre, dim) /\
    (Rabs (re z * re z - im z * im z) <= s * r ->
       0 <= dre /\ 0 <= dim /\ dre * dre + dim * dim = s * r / INR m /\ dre * dre - dim * dim = (re z * re z - im z * im z) / INR m) /\
    (s * r < Rabs (re z * re z - im z * im z) -> dre = sqrt (2 / INR m) * sqrt (n1 * n2) / 2 /\ dim = dre).
Proof. exact raw_errors_main. Qed.
Print Assumptions C42_raw_cross_errors.
Theorem C42_own_mean_refuted : 
  exists segs t s1 s2, tuples_nonzero segs /\ (forall u, In u (usable segs) -> length (s_flux u) = 3%nat) /\
  avg_pds segs 1 Frac false false = Ok (Some t) /\ to_norm NoNorm (spectrum_of_pds t) = Ok s1 /\ to_norm Frac s1 = Ok s2 /\
  sp_power s2 <> sp_power (spectrum_of_pds t).
Proof. exact own_mean_refuted. Qed.
Print Assumptions C42_own_mean_refuted.
Theorem C42_real_power_errors_refuted : 
  exists t s s1 s2, 
  avg_cs [Some seg_x] [Some seg_y] 1 NoNorm true false PReal true false = Ok (Some t) /\ spectrum_of_cs raw_cross_errors PReal t = Ok s /\
  to_norm AbsNorm s = Ok s1 /\ to_norm NoNorm s1 = Ok s2 /\ sp_power s2 = sp_power s /\ sp_err s2 <> sp_err s.
Proof. exact real_error_refuted. Qed.
Print Assumptions C42_real_power_errors_refuted.

Example C42_nonvacuous : exists t t', tuples_nonzero two_segs /\ (forall u, In u (usable two_segs) -> length (s_flux u) = 3%nat) /\
  avg_pds two_segs 1 Frac true false = Ok (Some t) /\ avg_pds two_segs 1 Leahy true false = Ok (Some t') /\
  sp_power (spectrum_of_pds t) <> sp_power (spectrum_of_pds t') /\
  consistent (spectrum_of_pds t) /\ complete (spectrum_of_pds t) /\ computable (spectrum_of_pds t) Frac /\ sp_unnorm (spectrum_of_pds t) <> None.
Proof.
  assert (T : tuples_nonzero two_segs) by (intros s [[= <-]|[[= <-]|[]]] F; cbn in F; congruence).
  assert (L : forall u, In u (usable two_segs) -> length (s_flux u) = 3%nat) by (rewrite usable_two; intros u [<-|[<-|[]]]; reflexivity).
  pose proof (avg_pds_common two_segs 1 Frac false 3 ltac:(lia) T L) as E. cbv zeta in E. rewrite usable_two in E. cbn [kind] in E.
  pose proof (avg_pds_common two_segs 1 Leahy false 3 ltac:(lia) T L) as E'. cbv zeta in E'. rewrite usable_two in E'. cbn [kind mean_present map err2 option_map s_err present flat_map app] in E'.
  do 2 eexists. split; [exact T|]. split; [exact L|]. split; [exact E|]. split; [exact E'|].
  destruct (consistent_pds two_segs 1 Frac false 3 _ ltac:(lia) T L E) as (C1 & C2 & C3 & _).
  split; [|split; [exact C1|split; [exact C2|split; [exact C3|discriminate]]]].
  cbn [spectrum_of_pds sp_power p_power]. change (n_pos 3) with 1%nat. cbn [seq map]. intros F. injection F as F.
  unfold avg, photons in F. cbn [map rlsum fold_right length s_flux factor] in F. rewrite !power_first in F. cbn in F. field_simplify in F. lra.
Qed.

