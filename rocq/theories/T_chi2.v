(* T_chi2.v: property theorems about log probabilities and equivalent sigmas (C170 - C173). *)
From Verif Require Import Np Cplx M_stats S_stats M_chi2 S_chi2 P_stats P_chi2 P_chi22.
From Coq Require Import Reals List Arith Lra Lia.
Import ListNotations.
Open Scope R_scope.

(* ---------- C170: asymptotic gamma functions ---------- *)
Theorem C170_incomplete : forall n z fuel, (0 < n)%nat -> 2 * INR n <= z -> (n < fuel)%nat ->
  exists l, log_asymptotic_incomplete_gamma fuel (INR n) z = Ok l /\
    (1 - 1 / 10 ^ 15) * (INR (fact (n - 1)) * erlang n z) <= exp l <= INR (fact (n - 1)) * erlang n z.
Proof. intros n z fuel Hn Hz. now apply incomplete_main. Qed.
Print Assumptions C170_incomplete.
Theorem C170_gamma : forall n,
  (0 < n)%nat -> - (415 / 10 ^ 5) <= log_asymptotic_gamma (INR n) - ln (INR (fact (n - 1))) <= 228 / 10 ^ 5.
Proof. exact stirling_close. Qed.
Print Assumptions C170_gamma.
Theorem C170_same_tail : forall n x,
  erlang n (x / 2) = chi2_even_sf x n.
Proof. exact erlang_same. Qed.
Print Assumptions C170_same_tail.
Theorem C170_forever_refuted : exists a z, 0 < a /\ 10 * a < z /\ forall fuel, log_asymptotic_incomplete_gamma fuel a z = Err OutOfFuel.
Proof.
  exists (3 / 2), 23. split; [lra|]. split; [lra|]. intros fuel. unfold log_asymptotic_incomplete_gamma. rewrite loop_start.
  rewrite loop_forever; [reflexivity|]. intros k. apply u3_large. lra.
Qed.
Print Assumptions C170_forever_refuted.
Example C170_example : (0 < 3)%nat /\ 2 * INR 3 <= 20 /\ erlang 1 2 = exp (- 2).
Proof. split; [lia|]. split; [cbn; lra|]. rewrite erlang_one. reflexivity. Qed.

(* ---------- C171: log of the tail probability of chi squared ---------- *)
Theorem C171_even : forall logsf fuel chi2 n,
  (0 < n)%nat -> (n < fuel)%nat -> asymptotic chi2 (2 * n) ->
  exists l, chi2_logp logsf fuel chi2 (2 * n) = Ok l /\ Rabs (l - ln (erlang n (chi2 / 2))) <= 416 / 10 ^ 5.
Proof. exact even_dof. Qed.
Print Assumptions C171_even.
Theorem C171_two : forall logsf fuel chi2,
  30 < chi2 -> chi2_logp logsf (S (S fuel)) chi2 2 = Ok (- chi2 / 2 - log_asymptotic_gamma 1).
Proof. exact two_dof. Qed.
Print Assumptions C171_two.
Theorem C171_two_error : 
  - (308 / 10 ^ 6) <= log_asymptotic_gamma 1 <= - (306 / 10 ^ 6).
Proof. exact gamma_1. Qed.
Print Assumptions C171_two_error.
Theorem C171_branches : forall logsf fuel chi2 dof,
  (2 <= dof)%nat ->
  (asymptotic chi2 dof -> chi2_logp logsf fuel chi2 dof = (let! g := log_asymptotic_incomplete_gamma fuel (5 / 10 * INR dof) (5 / 10 * chi2) in Ok (g - log_asymptotic_gamma (5 / 10 * INR dof)))) /\
  (~ asymptotic chi2 dof -> chi2_logp logsf fuel chi2 dof = Ok (logsf chi2 dof)).
Proof. exact chi2_branch. Qed.
Print Assumptions C171_branches.
Theorem C171_few_error : forall logsf fuel chi2 dof,
  (dof < 2)%nat -> chi2_logp logsf fuel chi2 dof = Err ValueError.
Proof. exact few_dof. Qed.
Print Assumptions C171_few_error.
Theorem C171_three_refuted : exists chi2 dof, (2 <= dof)%nat /\ forall logsf fuel, chi2_logp logsf fuel chi2 dof = Err OutOfFuel.
Proof. exists 50, 3%nat. split; [lia|]. intros logsf fuel. apply three_dof. lra. Qed.
Print Assumptions C171_three_refuted.
(* all statistics between 45 and 60 with three degrees of freedom *)
Theorem C171_three_error : forall logsf fuel chi2,
  45 < chi2 <= 60 -> chi2_logp logsf fuel chi2 3 = Err OutOfFuel.
Proof. exact three_dof. Qed.
Print Assumptions C171_three_error.
Theorem C171_monotone_refuted : forall logsf fuel,
  logsf 30 2%nat = - 15 -> exists x y lx ly, x < y /\
  chi2_logp logsf (S (S fuel)) x 2 = Ok lx /\ chi2_logp logsf (S (S fuel)) y 2 = Ok ly /\ lx < ly.
Proof. exact not_monotone. Qed.
Print Assumptions C171_monotone_refuted.
Example C171_example : asymptotic 100 (2 * 3) /\ ~ asymptotic 40 (2 * 3) /\ asymptotic 2000 (2 * 100).
Proof.
  unfold asymptotic. rewrite !mult_INR, !(INR_IZR_INZ 2), (INR_IZR_INZ 3), (INR_IZR_INZ 100). cbn [Z.of_nat Pos.of_succ_nat Pos.succ]. split; [left; lra|]. split; [intros [A|[A _]]; [lra|lia]|right; split; [lia|lra]].
Qed.

(* ---------- C172: equivalent sigmas ---------- *)
Theorem C172_inverse : forall isf sf p,
  (forall q, 0 < q < 1 -> sf (isf q) = q) -> exp (- 300) <= p < 1 -> sf (equivalent_gaussian_Nsigma isf p) = p.
Proof. exact nsigma_main. Qed.
Print Assumptions C172_inverse.
Theorem C172_extended_increasing : forall l l',
  l < l' -> l' <= 0 -> extended_equiv_gaussian_Nsigma l' < extended_equiv_gaussian_Nsigma l.
Proof. exact extended_increasing. Qed.
Print Assumptions C172_extended_increasing.
Theorem C172_extended_bounds : forall l,
  l <= - 300 -> sqrt (- 2 * l) - 3 / 5 < extended_equiv_gaussian_Nsigma l < sqrt (- 2 * l).
Proof. exact extended_bounds. Qed.
Print Assumptions C172_extended_bounds.
Example C172_example : exp (- 300) <= exp (- 299) < 1 /\ (- 400 <= - 300).
Proof.
  split; [|lra]. split; [left; apply exp_increasing; lra|]. rewrite <- exp_0. apply exp_increasing. lra.
Qed.

(* ---------- C173: log probabilities of statistics ---------- *)
Theorem C173_pds : forall logsf sf level ntrial ns nr fuel, (forall x d, 0 < sf x d -> logsf x d = ln (sf x d)) ->
  (0 < ns)%nat -> (0 < nr)%nat -> level / 2 <= 6 -> 0 < sf (level * INR ns * INR nr) (2 * ns * nr)%nat ->
  exists l, pds_logprobability logsf fuel level ntrial ns nr = Ok l /\ exp l = pds_probability sf level ntrial ns nr.
Proof. intros. now apply pds_agree. Qed.
Print Assumptions C173_pds.
Theorem C173_z2 : forall logsf sf z2 n ntrial ns fuel, (forall x d, 0 < sf x d -> logsf x d = ln (sf x d)) ->
  (0 < n)%nat -> (0 < ns)%nat -> z2 / (2 * INR n) <= 6 -> 0 < sf (z2 * INR ns) (2 * n * ns)%nat ->
  exists l, z2_n_logprobability logsf fuel z2 n ntrial ns = Ok l /\ exp l = z2_n_probability sf z2 n ntrial ns.
Proof. intros. now apply z2_agree. Qed.
Print Assumptions C173_z2.
Theorem C173_fold : forall logsf sf stat nbin ntrial fuel, (forall x d, 0 < sf x d -> logsf x d = ln (sf x d)) ->
  (3 <= nbin)%nat -> stat / INR (nbin - 1) <= 6 -> 0 < sf stat (nbin - 1)%nat ->
  exists l, fold_profile_logprobability logsf fuel stat nbin ntrial = Ok l /\ exp l = fold_profile_probability sf stat nbin ntrial.
Proof. intros. now apply fold_agree. Qed.
Print Assumptions C173_fold.
Theorem C173_pds_large : forall logsf level ntrial ns nr fuel,
  (0 < ns)%nat -> (0 < nr)%nat -> (ns * nr < fuel)%nat ->
  (30 < level \/ ((75 < ns * nr)%nat /\ 12 < level)) ->
  exists l, pds_logprobability logsf fuel level ntrial ns nr = Ok (logp_multitrial l ntrial) /\
    Rabs (l - ln (erlang (ns * nr) (level * INR (ns * nr) / 2))) <= 416 / 10 ^ 5.
Proof. exact pds_large. Qed.
Print Assumptions C173_pds_large.
Theorem C173_phase_level : forall cdf ppf eps ntrial ns nbin l,
  (forall a b p, 0 < p < 1 -> cdf a b (ppf a b p) = p) -> 0 < eps < 1 -> (0 < ntrial)%nat ->
  phase_dispersion_detection_level ppf ns nbin eps ntrial = Some l -> phase_dispersion_probability cdf l ns nbin ntrial = eps.
Proof. exact pd_level. Qed.
Print Assumptions C173_phase_level.
Theorem C173_phase_order : forall cdf a ns nbin ntrial b,
  (forall x y, a <= x -> x <= y -> y <= b -> cdf ((INR ns - INR nbin) / 2) ((INR nbin - 1) / 2) x <= cdf ((INR ns - INR nbin) / 2) ((INR nbin - 1) / 2) y) ->
  (forall x, a <= x <= b -> 0 < cdf ((INR ns - INR nbin) / 2) ((INR nbin - 1) / 2) x <= 1) -> (0 < ntrial)%nat ->
  forall x y, a <= x -> x <= y -> y <= b -> cdf ((INR ns - INR nbin) / 2) ((INR nbin - 1) / 2) y * INR ntrial < exp (- 7) ->
  phase_dispersion_probability cdf x ns nbin ntrial <= phase_dispersion_probability cdf y ns nbin ntrial.
Proof. exact pd_better. Qed.
Print Assumptions C173_phase_order.
Theorem C173_phase_log : forall cdf logcdf x ns nbin ntrial,
  (forall a b v, 0 < cdf a b v -> logcdf a b v = ln (cdf a b v)) ->
  0 < cdf ((INR ns - INR nbin) / 2) ((INR nbin - 1) / 2) x ->
  exp (phase_dispersion_logprobability logcdf x ns nbin ntrial) = phase_dispersion_probability cdf x ns nbin ntrial.
Proof. exact pd_log. Qed.
Print Assumptions C173_phase_log.
Theorem C173_four_bins_refuted : exists stat nbin ntrial, (3 <= nbin)%nat /\ forall logsf fuel, fold_profile_logprobability logsf fuel stat nbin ntrial = Err OutOfFuel.
Proof. exists 50, 4%nat, 1%nat. split; [lia|]. intros. apply fold_four. lra. Qed.
Print Assumptions C173_four_bins_refuted.
(* all statistics between 45 and 60 of a profile with four bins *)
Theorem C173_four_bins_error : forall logsf fuel stat ntrial,
  45 < stat <= 60 -> fold_profile_logprobability logsf fuel stat 4 ntrial = Err OutOfFuel.
Proof. exact fold_four. Qed.
Print Assumptions C173_four_bins_error.
Example C173_example : exists sf logsf : R -> nat -> R, (forall x d, 0 < sf x d -> logsf x d = ln (sf x d)) /\ 0 < sf 4 2%nat /\ (4 / 2 <= 6).
Proof. exists (fun x _ => exp (- x / 2)), (fun x _ => - x / 2). split; [intros; now rewrite ln_exp|]. split; [apply exp_pos|lra]. Qed.

