(* T_corr.v: property theorems about correlations (C41, C68, C69). *)
From Verif Require Import Np Lib Cplx M_fourier M_zn M_corr S_corr P_corr.
From Coq Require Import Lra.
Open Scope R_scope.

Notation range_of mode := (match mode with Full => AllLags | Same => CentralLags | Valid => OverlapLags end).
Notation lag_list n1 n2 mode := (lags_in n1 n2 (range_of mode)).

(* ---------- C41: auto-correlation ---------- *)
Theorem C41_autocorrelation_partial : forall x dt mode,
  x <> [] -> ~ constant x -> exists r, auto_corr x dt mode = Ok r /\ c_shift r = 0.
Proof. exact auto_main. Qed.
Print Assumptions C41_autocorrelation_partial.
Theorem C41_constant_refuted : 
  exists x dt mode r, x <> [] /\ 0 < dt /\ auto_corr x dt mode = Ok r /\ c_shift r <> 0.
Proof. exact auto_refuted. Qed.
Print Assumptions C41_constant_refuted.

Example C41_nonvacuous : [1; 3; 2] <> [] /\ ~ constant [1; 3; 2].
Proof. split; [discriminate|]. intros C. specialize (C 0%nat 1%nat ltac:(cbn; lia) ltac:(cbn; lia)). cbn in C. lra. Qed.

(* ---------- C68: cross-correlation of light curves ---------- *)
Theorem C68_correlation : forall x y dt1 dt2 mode,
  x <> [] -> y <> [] -> same_binning dt1 dt2 -> (mode = Same -> length x = length y) ->
  exists k, make_corr x y dt1 dt2 mode = Ok (mkCorr (map (corr_at x y) (lag_list (length x) (length y) mode))
      (map (fun k => IZR k * dt2) (lag_list (length x) (length y) mode)) (IZR k * dt2)) /\
    first_best (corr_at x y) (lag_list (length x) (length y) mode) k.
Proof. exact corr_main. Qed.
Print Assumptions C68_correlation.
Theorem C68_different_binning_error : forall x y dt1 dt2 mode,
  ~ same_binning dt1 dt2 -> make_corr x y dt1 dt2 mode = Err StingrayError.
Proof. exact corr_binning. Qed.
Print Assumptions C68_different_binning_error.
Theorem C68_variance_values : forall x y ex ey dt1 dt2 mode,
  x <> [] -> y <> [] -> same_binning dt1 dt2 -> (mode = Same -> length x = length y) ->
  exists k, make_corr_variance x y ex ey dt1 dt2 mode =
    Ok (mkCorr (map (fun k => corr_at x y k / (INR (length x) * sqrt ((scatter2 x / INR (length x) - average ex ^ 2) * (scatter2 y / INR (length y) - average ey ^ 2))))
                  (lag_list (length x) (length y) mode))
               (map (fun k => IZR k * dt2) (lag_list (length x) (length y) mode)) (IZR k * dt2)) /\
    first_best (corr_at x y) (lag_list (length x) (length y) mode) k.
Proof. exact var_values. Qed.
Print Assumptions C68_variance_values.
Theorem C68_variance_bound : forall x y ex ey dt1 dt2 mode,
  length x = length y -> ~ constant x -> ~ constant y ->
  x <> [] -> average ex = 0 -> average ey = 0 -> same_binning dt1 dt2 ->
  exists r, make_corr_variance x y ex ey dt1 dt2 mode = Ok r /\
    c_corr r = map (fun k => corr_at x y k / sqrt (scatter2 x * scatter2 y)) (lag_list (length x) (length y) mode) /\
    (forall c, In c (c_corr r) -> -1 <= c <= 1) /\ (x = y -> In 1 (c_corr r)).
Proof. exact corr_variance. Qed.
Print Assumptions C68_variance_bound.

Example C68_nonvacuous : same_binning 1 1 /\ ~ same_binning 1 2 /\ length [1; 2] = length [3; 1] /\ ~ constant [1; 2] /\ ~ constant [3; 1] /\
  average [0; 0] = 0.
Proof.
  split; [apply same_binning_refl|]. split.
  { unfold same_binning.
    replace (1 - 2) with (-(1)) by ring. rewrite Rabs_Ropp, Rabs_R1, (Rabs_right 2) by lra. intros C.
    assert (1 / 10 ^ 8 <= 1 / 10) by (apply Rmult_le_compat_l; [lra|]; apply Rinv_le_contravar; [lra|]; cbn; lra).
    assert (1 / 10 ^ 5 <= 1 / 10) by (apply Rmult_le_compat_l; [lra|]; apply Rinv_le_contravar; [lra|]; cbn; lra). lra. }
  split; [reflexivity|]. split; [|split].
  - intros C. specialize (C 0%nat 1%nat ltac:(cbn; lia) ltac:(cbn; lia)). cbn in C. lra.
  - intros C. specialize (C 0%nat 1%nat ltac:(cbn; lia) ltac:(cbn; lia)). cbn in C. lra.
  - unfold average. cbn. lra.
Qed.

(* ---------- C69: cross-correlation from a cross spectrum ---------- *)
Theorem C69_same_mode_partial : forall X df m,
  X <> [] ->
  exists k, make_cross_corr X df m Same =
    Ok (mkCorr (map (fun k => Rabs (re (inverse_at X k))) (lag_list (length X) (length X) Same))
               (map (fun k => IZR k * (1 / (df * INR m))) (lag_list (length X) (length X) Same)) (IZR k * (1 / (df * INR m)))) /\
    first_best (fun k => Rabs (re (inverse_at X k))) (lag_list (length X) (length X) Same) k.
Proof. exact cross_same. Qed.
Print Assumptions C69_same_mode_partial.
Theorem C69_full_mode_lags_error : forall X df m r,
  (2 <= length X)%nat -> make_cross_corr X df m Full = Ok r -> length (c_corr r) <> length (c_lags r).
Proof. exact cross_full_error. Qed.
Print Assumptions C69_full_mode_lags_error.
Theorem C69_full_mode_refuted : 
  exists X df m r, X <> [] /\ 0 < df /\ (0 < m)%nat /\ make_cross_corr X df m Full = Ok r /\ length (c_corr r) <> length (c_lags r).
Proof. exact cross_full_refuted. Qed.
Print Assumptions C69_full_mode_refuted.
Theorem C69_valid_mode_refuted : 
  exists X df m, X <> [] /\ 0 < df /\ (0 < m)%nat /\ make_cross_corr X df m Valid = Err IndexError.
Proof. exact cross_valid_refuted. Qed.
Print Assumptions C69_valid_mode_refuted.
Theorem C69_sign_refuted : 
  exists X df m r, X <> [] /\ 0 < df /\ (0 < m)%nat /\ make_cross_corr X df m Same = Ok r /\
  c_corr r <> map (fun k => re (inverse_at X k)) (lag_list (length X) (length X) Same).
Proof. exact cross_sign_refuted. Qed.
Print Assumptions C69_sign_refuted.

Example C69_nonvacuous : [(1, 2); (3, 4)] <> ([] : list cx).
Proof. discriminate. Qed.

