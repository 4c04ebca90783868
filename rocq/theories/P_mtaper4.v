(* P_mtaper4.v: further lemmas about multitaper spectra. *)
From Verif Require Import Np S_gti M_gti M_utils M_base M_lc Cplx M_fourier M_exvar M_mtaper S_fourier S_mtaper P_exvar P_dft P_mtaper P_mtaper2 P_mtaper3.
From Coq Require Import Reals List Arith ZArith Bool QArith Lia Lra.
Import ListNotations.
Open Scope R_scope.

(* the iterations stop when the mean squared change of the weights is below 1e-10 at every frequency *)
Lemma converged_iff a : forall b, length a = length b -> converged (map Some a) (map Some b) = true <->
  forall f, (f < length a)%nat -> rlsum (map (fun p => (fst p - snd p) * (fst p - snd p)) (combine (nth f a []) (nth f b []))) / INR (length (nth f a [])) < / 10000000000.
Proof.
  assert (T : / 10 ^ 10 = / 10000000000) by (f_equal; ring). unfold converged.
  induction a as [|x a IH]; intros [|y b] L; try discriminate.
  - split; [intros _ f F; cbn in F; lia|reflexivity].
  - cbn [map combine forallb]. rewrite andb_true_iff. cbn [length] in L. rewrite (IH b) by lia. split.
    + intros [A B] [|f] F; cbn [nth]; [|apply B; cbn [length] in F; lia]. unfold mean_square in A. rewrite T in A. destruct (Rlt_dec _ _) as [r|]; [exact r|discriminate].
    + intros H. split; [|intros f F; apply (H (S f)); cbn [length]; lia]. pose proof (H 0%nat ltac:(cbn; lia)) as H0. cbn [nth] in H0. unfold mean_square. rewrite T.
      destruct (Rlt_dec _ _) as [|N]; [reflexivity|contradiction].
Qed.
(* powers of the plain multitaper spectrum: per unit of frequency *)
Lemma multitaper_powers dpss counts dt NW lb f psd jk te : fourier_multitaper dpss counts dt NW lb = Ok (f, psd, jk) ->
  select_tapers lb (dpss (length counts) NW (kmax NW)) = Ok te -> length psd = (length counts / 2 - 1)%nat /\
  forall i p, (i < length counts / 2 - 1)%nat -> psd_from_freq_response (nth i (columns counts (map fst te)) []) (map sqrt (map snd te)) = Some p -> nth i psd None = Some (p * dt).
Proof.
  unfold fourier_multitaper. destruct (Rlt_dec NW _); [discriminate|]. intros E S. rewrite S in E. cbn [bind] in E. injection E as _ <- _.
  assert (LC : length (columns counts (map fst te)) = (length counts / 2 - 1)%nat) by (apply columns_len).
  split; [rewrite map_length; exact LC|]. intros i p I Q.
  set (g := fun c => flet q := psd_from_freq_response c (map sqrt (map snd te)) in Some (q * dt)).
  rewrite (nth_indep _ None (g [])) by (rewrite map_length, LC; exact I). rewrite (map_nth g). unfold g. rewrite Q. reflexivity.
Qed.
(* fractional and absolute rms powers of a spectrum per unit of frequency *)
Lemma multitaper_rms p n dt nphots : (0 < n)%nat -> 0 < dt -> 0 < nphots ->
  multitaper_power (Some p) n dt nphots Frac = Ok (Some (2 * p * (INR n * INR n) / (nphots * nphots))) /\
  multitaper_power (Some p) n dt nphots AbsNorm = Ok (Some (2 * p / (dt * dt))) /\
  multitaper_power (Some p) n dt nphots NoNorm = Ok (Some (p * INR n / dt)).
Proof.
  intros N D H. apply lt_0_INR in N. unfold multitaper_power, unnormalized. rewrite fdiv_some by lra. cbn [normalize bind].
  unfold normalize_frac, normalize_abs. destruct (Rlt_dec 0 0); [lra|]. split; [|split]; do 2 f_equal; try (field; lra).
Qed.
Lemma light_curve_empty numba srt gti lc : gti_of lc = None -> multitaper_light_curve numba srt gti lc = Err TypeError.
Proof. intros E. unfold multitaper_light_curve. rewrite E. reflexivity. Qed.
