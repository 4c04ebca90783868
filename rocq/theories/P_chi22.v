(* P_chi22.v: two degrees of freedom, equivalent sigmas, log probabilities of statistics. *)
From Verif Require Import Np Cplx M_stats S_stats M_chi2 S_chi2 P_stats P_chi2.
From Coq Require Import Reals List Arith Lra Lia.
Import ListNotations.
Open Scope R_scope.

Lemma gamma_1 : - (308 / 10 ^ 6) <= log_asymptotic_gamma 1 <= - (306 / 10 ^ 6).
Proof. unfold log_asymptotic_gamma. rewrite ln_1. split; lra. Qed.
Lemma two_dof logsf fuel chi2 : 30 < chi2 -> chi2_logp logsf (S (S fuel)) chi2 2 = Ok (- chi2 / 2 - log_asymptotic_gamma 1).
Proof.
  intros H. destruct (chi2_branch logsf (S (S fuel)) chi2 2 ltac:(lia)) as [B _]. rewrite B by (left; change (INR 2) with (1 + 1); lra).
  replace (5 / 10 * INR 2) with 1 by (cbn; field). unfold log_asymptotic_incomplete_gamma. cbn [inc_loop].
  rewrite Rabs_R1. destruct (Rlt_dec (1 / 10 ^ 15) 1) as [_|C]; [|lra]. change (INR 1) with 1. rewrite Rminus_diag_eq, Rmult_0_r by reflexivity.
  assert (Z : 0 / (5 / 10 * chi2) ^ 1 = 0) by (unfold Rdiv; ring). rewrite Z, Rabs_R0. destruct (Rlt_dec (1 / 10 ^ 15) 0) as [C|_]; [lra|].
  cbn [bind]. rewrite Rplus_0_r, ln_1. f_equal. lra.
Qed.
(* a larger chi squared has a larger probability across the limit of 15 *)
Lemma not_monotone logsf fuel : logsf 30 2%nat = - 15 -> exists x y lx ly, x < y /\
  chi2_logp logsf (S (S fuel)) x 2 = Ok lx /\ chi2_logp logsf (S (S fuel)) y 2 = Ok ly /\ lx < ly.
Proof.
  intros H. exists 30, (30 + 1 / 10 ^ 4). do 2 eexists. split; [lra|]. split; [|split; [apply two_dof; lra|]].
  - destruct (chi2_branch logsf (S (S fuel)) 30 2 ltac:(lia)) as [_ B]. rewrite B; [rewrite H; reflexivity|].
    intros [A|[A _]]; [change (INR 2) with (1 + 1) in A; lra|lia].
  - pose proof gamma_1. lra.
Qed.
Lemma few_dof logsf fuel chi2 dof : (dof < 2)%nat -> chi2_logp logsf fuel chi2 dof = Err ValueError.
Proof. intros H. unfold chi2_logp. destruct (Nat.ltb_spec dof 2); [reflexivity|lia]. Qed.

(* ---- equivalent sigmas ---- *)
Definition num (t : R) : R := 2515517 / 10 ^ 6 + t * (802853 / 10 ^ 6 + t * (10328 / 10 ^ 6)).
Definition den (t : R) : R := 1 + t * (1432788 / 10 ^ 6 + t * (189269 / 10 ^ 6 + t * (1308 / 10 ^ 6))).
Lemma den_pos t : 0 <= t -> 1 <= den t.
Proof. intros H. unfold den. assert (0 <= t * (1432788 / 10 ^ 6 + t * (189269 / 10 ^ 6 + t * (1308 / 10 ^ 6)))); [|lra]. apply Rmult_le_pos; [lra|]. assert (0 <= t * (189269 / 10 ^ 6 + t * (1308 / 10 ^ 6))); [|lra]. apply Rmult_le_pos; [lra|]. assert (0 <= t * (1308 / 10 ^ 6)) by (apply Rmult_le_pos; lra). lra. Qed.
Lemma num_pos t : 0 <= t -> 0 < num t.
Proof. intros H. unfold num. assert (0 <= t * (802853 / 10 ^ 6 + t * (10328 / 10 ^ 6))); [|lra]. apply Rmult_le_pos; [lra|]. assert (0 <= t * (10328 / 10 ^ 6)) by (apply Rmult_le_pos; lra). lra. Qed.
Lemma ratio_down s t : 0 <= s -> s < t -> num t / den t < num s / den s.
Proof.
  intros Hs Ht. pose proof (den_pos s Hs) as Ds. pose proof (den_pos t ltac:(lra)) as Dt.
  apply (Rmult_lt_reg_r (den s * den t)); [apply Rmult_lt_0_compat; lra|].
  replace (num t / den t * (den s * den t)) with (num t * den s) by (field; lra). replace (num s / den s * (den s * den t)) with (num s * den t) by (field; lra).
  apply Rminus_lt_0_compat || idtac. apply Rminus_gt_0_lt.
  set (d := t - s). assert (Hd : 0 < d) by (unfold d; lra). replace t with (s + d) by (unfold d; ring). unfold num, den.
  ring_simplify. 
  assert (P : forall i j, 0 <= s ^ i * d ^ j) by (intros; apply Rmult_le_pos; apply pow_le; lra).
  pose proof (P 4%nat 1%nat). pose proof (P 3%nat 2%nat). pose proof (P 3%nat 1%nat). pose proof (P 2%nat 3%nat). pose proof (P 2%nat 2%nat). pose proof (P 2%nat 1%nat).
  pose proof (P 1%nat 3%nat). pose proof (P 1%nat 2%nat). pose proof (P 1%nat 1%nat). pose proof (P 0%nat 3%nat). pose proof (P 0%nat 2%nat).
  cbn [pow] in *. lra.
Qed.
Lemma extended_increasing l l' : l < l' -> l' <= 0 -> extended_equiv_gaussian_Nsigma l' < extended_equiv_gaussian_Nsigma l.
Proof.
  intros H H0. unfold extended_equiv_gaussian_Nsigma. fold (num (sqrt (- 2 * l))) (den (sqrt (- 2 * l))) (num (sqrt (- 2 * l'))) (den (sqrt (- 2 * l'))).
  assert (S : sqrt (- 2 * l') < sqrt (- 2 * l)) by (apply sqrt_lt_1; lra).
  pose proof (ratio_down _ _ (sqrt_pos (- 2 * l')) S). lra.
Qed.
Lemma extended_bounds l : l <= - 300 -> sqrt (- 2 * l) - 3 / 5 < extended_equiv_gaussian_Nsigma l < sqrt (- 2 * l).
Proof.
  intros H. unfold extended_equiv_gaussian_Nsigma. set (t := sqrt (- 2 * l)). assert (T : 24 <= t).
  { unfold t. rewrite <- (sqrt_square 24) by lra. apply sqrt_le_1; lra. }
  fold (num t) (den t). pose proof (den_pos t ltac:(lra)). pose proof (num_pos t ltac:(lra)).
  assert (0 < num t / den t) by (apply Rdiv_lt_0_compat; lra).
  assert (num t / den t < 3 / 5); [|lra]. apply (Rmult_lt_reg_r (den t)); [lra|]. unfold Rdiv at 1. rewrite Rmult_assoc, Rinv_l, Rmult_1_r by lra.
  unfold num, den. nra.
Qed.
Lemma nsigma_main isf sf p : (forall q, 0 < q < 1 -> sf (isf q) = q) -> exp (- 300) <= p < 1 -> sf (equivalent_gaussian_Nsigma isf p) = p.
Proof.
  intros S H. pose proof (exp_pos (- 300)) as E. unfold equivalent_gaussian_Nsigma, equivalent_gaussian_Nsigma_from_logp.
  destruct (Rlt_dec (ln p) (- 300)) as [L|L].
  - exfalso. apply exp_increasing in L. rewrite exp_ln in L by lra. lra.
  - rewrite exp_ln by lra. apply S. lra.
Qed.

(* ---- log probabilities ---- *)
Section Wrap.
Variables (logsf sf : R -> nat -> R).
Hypothesis agree : forall x d, 0 < sf x d -> logsf x d = ln (sf x d).
Lemma log_agree x dof fuel ntrial : (2 <= dof)%nat -> ~ asymptotic x dof -> 0 < sf x dof ->
  exists l, chi2_logp logsf fuel x dof = Ok l /\ exp (logp_multitrial l ntrial) = p_multitrial (sf x dof) ntrial.
Proof.
  intros H A P. destruct (chi2_branch logsf fuel x dof H) as [_ B]. rewrite (B A). eexists. split; [reflexivity|]. unfold p_multitrial. now rewrite agree.
Qed.
Lemma pds_agree level ntrial ns nr fuel : (0 < ns)%nat -> (0 < nr)%nat -> level / 2 <= 6 ->
  0 < sf (level * INR ns * INR nr) (2 * ns * nr) ->
  exists l, pds_logprobability logsf fuel level ntrial ns nr = Ok l /\ exp l = pds_probability sf level ntrial ns nr.
Proof.
  intros Hs Hr HL P. assert (A1 : 1 <= INR ns) by (apply (le_INR 1); lia). assert (A2 : 1 <= INR nr) by (apply (le_INR 1); lia).
  assert (Q : level * INR ns * INR nr / INR (2 * ns * nr) = level / 2) by (rewrite !mult_INR; change (INR 2) with (1 + 1); field; lra).
  destruct (log_agree (level * INR ns * INR nr) (2 * ns * nr) fuel ntrial) as (l & E & F); [nia| |exact P|].
  { intros [A|[_ A]]; rewrite Q in A; lra. }
  exists (logp_multitrial l ntrial). unfold pds_logprobability. rewrite E. split; [reflexivity|exact F].
Qed.
Lemma z2_agree z2 n ntrial ns fuel : (0 < n)%nat -> (0 < ns)%nat -> z2 / (2 * INR n) <= 6 ->
  0 < sf (z2 * INR ns) (2 * n * ns) ->
  exists l, z2_n_logprobability logsf fuel z2 n ntrial ns = Ok l /\ exp l = z2_n_probability sf z2 n ntrial ns.
Proof.
  intros Hs Hr HL P. assert (A1 : 1 <= INR n) by (apply (le_INR 1); lia). assert (A2 : 1 <= INR ns) by (apply (le_INR 1); lia).
  assert (Q : z2 * INR ns / INR (2 * n * ns) = z2 / (2 * INR n)) by (rewrite !mult_INR; change (INR 2) with (1 + 1); field; lra).
  destruct (log_agree (z2 * INR ns) (2 * n * ns) fuel ntrial) as (l & E & F); [nia| |exact P|].
  { intros [A|[_ A]]; rewrite Q in A; lra. }
  exists (logp_multitrial l ntrial). unfold z2_n_logprobability. rewrite E. split; [reflexivity|exact F].
Qed.
Lemma fold_agree stat nbin ntrial fuel : (3 <= nbin)%nat -> stat / INR (nbin - 1) <= 6 -> 0 < sf stat (nbin - 1) ->
  exists l, fold_profile_logprobability logsf fuel stat nbin ntrial = Ok l /\ exp l = fold_profile_probability sf stat nbin ntrial.
Proof.
  intros Hb HL P. destruct (log_agree stat (nbin - 1) fuel ntrial) as (l & E & F); [lia| |exact P|].
  { intros [A|[_ A]]; lra. }
  exists (logp_multitrial l ntrial). unfold fold_profile_logprobability. rewrite E. split; [reflexivity|exact F].
Qed.
End Wrap.
(* large powers *)
Lemma pds_large logsf level ntrial ns nr fuel : (0 < ns)%nat -> (0 < nr)%nat -> (ns * nr < fuel)%nat ->
  (30 < level \/ ((75 < ns * nr)%nat /\ 12 < level)) ->
  exists l, pds_logprobability logsf fuel level ntrial ns nr = Ok (logp_multitrial l ntrial) /\
    Rabs (l - ln (erlang (ns * nr) (level * INR (ns * nr) / 2))) <= 416 / 10 ^ 5.
Proof.
  intros Hs Hr Hf HL. assert (A1 : 1 <= INR ns) by (apply (le_INR 1); lia). assert (A2 : 1 <= INR nr) by (apply (le_INR 1); lia).
  assert (Q : level * INR ns * INR nr / INR (2 * (ns * nr)) = level / 2) by (rewrite !mult_INR; change (INR 2) with (1 + 1); field; lra).
  unfold pds_logprobability. replace (2 * ns * nr)%nat with (2 * (ns * nr))%nat by lia.
  destruct (even_dof logsf fuel (level * INR ns * INR nr) (ns * nr)) as (l & -> & L); [nia|exact Hf| |].
  { unfold asymptotic. rewrite Q. destruct HL as [HL|[H1 H2]]; [left; lra|right; split; [lia|lra]]. }
  exists l. split; [reflexivity|]. rewrite mult_INR. rewrite <- Rmult_assoc. exact L.
Qed.
(* a profile of four bins *)
Lemma fold_four logsf fuel stat ntrial : 45 < stat <= 60 -> fold_profile_logprobability logsf fuel stat 4 ntrial = Err OutOfFuel.
Proof. intros H. unfold fold_profile_logprobability. change (4 - 1)%nat with 3%nat. now rewrite three_dof. Qed.

(* ---- phase dispersion ---- *)
Lemma pd_level cdf ppf eps ntrial ns nbin l : (forall a b p, 0 < p < 1 -> cdf a b (ppf a b p) = p) -> 0 < eps < 1 -> (0 < ntrial)%nat ->
  phase_dispersion_detection_level ppf ns nbin eps ntrial = Some l -> phase_dispersion_probability cdf l ns nbin ntrial = eps.
Proof.
  intros I He Hn. unfold phase_dispersion_detection_level. destruct (p_single_trial eps ntrial) as [q|] eqn:E; [|discriminate]. cbn [option_map].
  intros X. injection X as <-. apply multi_of_single in E; [|assumption..]. destruct E as [Q M]. unfold phase_dispersion_probability. rewrite I by exact Q. exact M.
Qed.
Lemma pd_better cdf a ns nbin ntrial b : (forall x y, a <= x -> x <= y -> y <= b -> cdf ((INR ns - INR nbin) / 2) ((INR nbin - 1) / 2) x <= cdf ((INR ns - INR nbin) / 2) ((INR nbin - 1) / 2) y) ->
  (forall x, a <= x <= b -> 0 < cdf ((INR ns - INR nbin) / 2) ((INR nbin - 1) / 2) x <= 1) -> (0 < ntrial)%nat ->
  forall x y, a <= x -> x <= y -> y <= b -> cdf ((INR ns - INR nbin) / 2) ((INR nbin - 1) / 2) y * INR ntrial < exp (- 7) ->
  phase_dispersion_probability cdf x ns nbin ntrial <= phase_dispersion_probability cdf y ns nbin ntrial.
Proof.
  intros M P Hn x y Hx Hxy Hy S. unfold phase_dispersion_probability. pose proof (M x y Hx Hxy Hy) as C. pose proof (P x ltac:(lra)). pose proof (P y ltac:(lra)).
  rewrite !multi_value by (try assumption; lra). pose proof (pos_INR ntrial).
  set (cx := cdf _ _ x) in *. set (cy := cdf _ _ y) in *. destruct (Rlt_dec (cy * INR ntrial) (exp (- 7))) as [_|K]; [|lra].
  destruct (Rlt_dec (cx * INR ntrial) (exp (- 7))) as [_|K]; [|exfalso; apply K; nra]. nra.
Qed.
Lemma pd_log cdf logcdf x ns nbin ntrial : (forall a b v, 0 < cdf a b v -> logcdf a b v = ln (cdf a b v)) ->
  0 < cdf ((INR ns - INR nbin) / 2) ((INR nbin - 1) / 2) x ->
  exp (phase_dispersion_logprobability logcdf x ns nbin ntrial) = phase_dispersion_probability cdf x ns nbin ntrial.
Proof. intros A P. unfold phase_dispersion_logprobability, phase_dispersion_probability, p_multitrial. now rewrite A. Qed.
Lemma erlang_same n x : erlang n (x / 2) = chi2_even_sf x n.
Proof.
  unfold erlang, chi2_even_sf. f_equal. induction n as [|n IH]; [reflexivity|]. rewrite rs_S, IH. reflexivity.
Qed.
Lemma erlang_one z : erlang 1 z = exp (- z).
Proof. unfold erlang, rs. cbn [seq map rlsum fold_right pow fact]. change (INR 1) with 1. field. Qed.
