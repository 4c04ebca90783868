(* P_parest.v: proofs about M_parest: criteria, statistics, the loop of fit, p-values *)
From Coq Require Import String.
From Verif Require Import Np M_utils Cplx M_posterior M_parest S_parest P_posterior P_posterior2.
From Coq Require Import Reals List Bool Arith Lra Lia Permutation Sorted.
Import ListNotations.
Open Scope R_scope.

(* criteria *)
Lemma criteria_likelihood l p_opt nx : (1 <= nx)%nat ->
  compute_criteria OfLogLikelihood (- l) p_opt nx = Ok (- 2 * l, - l + 2 * INR (List.length p_opt), Some (- l + INR (List.length p_opt) * ln (INR nx))).
Proof.
  intros N. unfold compute_criteria. cbn [bind]. unfold olog. assert (0 < INR nx) by (apply lt_0_INR; lia). destruct (Rlt_dec 0 (INR nx)); [|contradiction].
  cbn [oadd omul opt2]. replace (2 * - l) with (- 2 * l) by ring. reflexivity.
Qed.
Lemma criteria_posterior like l res p_opt nx : (1 <= nx)%nat -> like p_opt false = Ok l ->
  compute_criteria (OfPosterior like) res p_opt nx = Ok (- 2 * l, res + 2 * INR (List.length p_opt), Some (res + INR (List.length p_opt) * ln (INR nx))).
Proof.
  intros N L. unfold compute_criteria. rewrite L. cbn [bind]. unfold olog. assert (0 < INR nx) by (apply lt_0_INR; lia). destruct (Rlt_dec 0 (INR nx)); [|contradiction].
  reflexivity.
Qed.
Lemma aic_refuted : exists l p_opt nx deviance aic bic, (1 <= nx)%nat /\ compute_criteria OfLogLikelihood (- l) p_opt nx = Ok (deviance, aic, Some bic) /\
  aic <> - 2 * l + 2 * INR (List.length p_opt) /\ bic <> - 2 * l + INR (List.length p_opt) * ln (INR nx).
Proof. exists (- 1), [1], 1%nat. do 3 eexists. split; [lia|]. split; [apply criteria_likelihood; lia|]. split; lra. Qed.
(* the preference between two models by the Akaike criterion: the true criterion prefers the second one, the result the first *)
Lemma aic_preference_refuted : exists l1 l2 p1 p2 nx d1 a1 b1 d2 a2 b2, (1 <= nx)%nat /\
  compute_criteria OfLogLikelihood (- l1) p1 nx = Ok (d1, a1, b1) /\ compute_criteria OfLogLikelihood (- l2) p2 nx = Ok (d2, a2, b2) /\
  - 2 * l2 + 2 * INR (List.length p2) < - 2 * l1 + 2 * INR (List.length p1) /\ a1 < a2.
Proof.
  exists 0, (3 / 2), [1], [1; 1], 10%nat. do 6 eexists. split; [lia|]. split; [apply criteria_likelihood; lia|]. split; [apply criteria_likelihood; lia|]. cbn. lra.
Qed.
Lemma deviance_sign_refuted : exists l p_opt nx deviance aic bic, compute_criteria OfLogLikelihood l p_opt nx = Ok (deviance, aic, bic) /\ deviance <> - 2 * l.
Proof. exists 1, [1], 1%nat. do 3 eexists. split; [reflexivity|]. lra. Qed.

(* statistics *)
Lemma merit_value y : forall mfit, List.length mfit = List.length y -> Forall (fun m => m <> 0) mfit -> forall p_opt,
  exists v, s_merit (compute_statistics y mfit p_opt) = Some v /\ v = rlsum (map (fun q => ((fst q - snd q) / snd q) ^ 2) (combine y mfit)) /\ 0 <= v /\ (v = 0 <-> y = mfit).
Proof.
  induction y as [|a y IH]; intros [|m mfit] L F p; cbn in L; try discriminate.
  - exists 0. cbn. repeat split; try lra; auto.
  - inversion F as [|? ? M F']; subst. destruct (IH mfit ltac:(lia) F' p) as (v & V1 & V2 & V3 & V4). unfold compute_statistics in *. cbn [s_merit] in *.
    exists (((a - m) / m) ^ 2 + v). cbn [combine map]. rewrite osum_cons, V1. cbn [odiv]. cbn [fst snd]. destruct (Req_EM_T m 0); [contradiction|]. cbn [option_map].
    split; [reflexivity|]. split; [rewrite rlsum_cons, V2; reflexivity|]. pose proof (pow2_ge_0 ((a - m) / m)) as Q. split; [lra|]. split.
    + intros E. assert (v = 0) by lra. assert (Z : ((a - m) / m) ^ 2 = 0) by lra. apply V4 in H. f_equal; [|exact H].
      assert (Z' : (a - m) / m = 0). { destruct (Req_dec ((a - m) / m) 0) as [|N]; [assumption|]. exfalso. apply (pow_nonzero _ 2 N Z). }
      apply (f_equal (fun z => z * m)) in Z'. unfold Rdiv in Z'. rewrite Rmult_assoc, Rinv_l in Z' by assumption. lra.
    + intros [= -> ->]. destruct V4 as [_ V4]. rewrite (V4 eq_refl). replace ((m - m) / m) with 0 by (field; assumption). ring.
Qed.
Lemma statistics_values y mfit p_opt : let s := compute_statistics y mfit p_opt in
  s_dof s = INR (List.length y) - INR (List.length p_opt) /\ s_sexp s = 2 * INR (List.length p_opt) * INR (List.length y) /\ s_ssd s = sqrt (2 * s_sexp s).
Proof. cbn. split; [reflexivity|]. split; [ring|reflexivity]. Qed.
Lemma sobs_value y : forall mfit p_opt, List.length mfit = List.length y -> s_sobs (compute_statistics y mfit p_opt) = rlsum y - rlsum mfit.
Proof.
  unfold compute_statistics; cbn [s_sobs]. induction y as [|a y IH]; intros [|m mfit] p L; cbn in L; try discriminate; [cbn; ring|].
  cbn [combine map]. rewrite !rlsum_cons, (IH mfit p) by lia. cbn [fst snd]. ring.
Qed.

(* the loop of fit *)
Lemma acceptable_iff v : retry (funcval_of v) = false <-> acceptable v.
Proof.
  destruct v as [r|]; [|cbn; split; [discriminate|tauto]]. cbn [funcval_of acceptable]. unfold close_to, logmin.
  rewrite (Rabs_left (- 10000000000000000)), (Rabs_left (2 * - 10000000000000000)) by lra.
  replace (r - - 10000000000000000) with (r + 10 ^ 16) by lra. replace (r - 2 * - 10000000000000000) with (r + 2 * 10 ^ 16) by lra.
  replace (1 / 10 ^ 8 + 1 / 10 ^ 5 * - - 10000000000000000) with (/ 10 ^ 8 + 10 ^ 11) by (field; lra).
  replace (1 / 10 ^ 8 + 1 / 10 ^ 5 * - (2 * - 10000000000000000)) with (/ 10 ^ 8 + 2 * 10 ^ 11) by (field; lra).
  destruct (Rle_dec (Rabs (r + 10 ^ 16)) _) as [C|C]; cbn [orb].
  { cbn [retry]. destruct (Req_EM_T 100 100) as [_|N]; [|contradiction N; reflexivity]. split; [discriminate|]. intros (_ & _ & _ & H & _). lra. }
  destruct (Rle_dec (Rabs (r + 2 * 10 ^ 16)) _) as [C'|C'].
  { cbn [retry]. destruct (Req_EM_T 100 100) as [_|N]; [|contradiction N; reflexivity]. split; [discriminate|]. intros (_ & _ & _ & _ & H). lra. }
  cbn [retry]. destruct (Req_EM_T r 100); [split; [discriminate|tauto]|]. destruct (Req_EM_T r 200); [split; [discriminate|tauto]|]. destruct (Req_EM_T r 0); [split; [discriminate|tauto]|].
  split; [|reflexivity]. intros _. repeat split; try assumption; lra.
Qed.
Lemma retry_iff v : retry (funcval_of v) = true <-> ~ acceptable v.
Proof. rewrite <- acceptable_iff. destruct (retry (funcval_of v)); split; intros H; try discriminate; try reflexivity. exfalso; apply H; reflexivity. Qed.
Lemma fit_loop_found outcome k : acceptable (outcome k) -> forall d i fuel fv, (i + d = k)%nat -> (k <= 20)%nat -> (d < fuel)%nat -> retry fv = true ->
  (forall j, (i <= j < k)%nat -> ~ acceptable (outcome j)) -> fit_loop outcome fuel i fv = Ok k.
Proof.
  intros A. induction d as [|d IH]; intros i fuel fv E K Fu Rt B; (destruct fuel as [|fuel]; [lia|]); cbn [fit_loop]; rewrite Rt.
  - replace i with k by lia. destruct (Nat.ltb_spec 20 k); [lia|]. destruct fuel; cbn [fit_loop]; apply acceptable_iff in A; rewrite A; f_equal; lia.
  - destruct (Nat.ltb_spec 20 i); [lia|]. apply IH; try lia; [apply retry_iff, B; lia|]. intros j J; apply B; lia.
Qed.
Lemma fit_loop_failed outcome : (forall j, (j <= 20)%nat -> ~ acceptable (outcome j)) -> forall d i fuel fv, (i + d = 21)%nat -> (d <= fuel)%nat -> retry fv = true ->
  fit_loop outcome fuel i fv = Err RuntimeError.
Proof.
  intros B. induction d as [|d IH]; intros i fuel fv E Fu Rt.
  - destruct fuel; cbn [fit_loop]; rewrite Rt; destruct (Nat.ltb_spec 20 i); try lia; reflexivity.
  - destruct fuel as [|fuel]; [lia|]. cbn [fit_loop]. rewrite Rt. destruct (Nat.ltb_spec 20 i); [lia|]. apply IH; try lia. apply retry_iff, B. lia.
Qed.
Lemma acceptable_dec v : {acceptable v} + {~ acceptable v}.
Proof. destruct (retry (funcval_of v)) eqn:E; [right; apply retry_iff; exact E|left; apply acceptable_iff; exact E]. Qed.
Lemma first_acceptable outcome n : (exists k, (k <= n)%nat /\ acceptable (outcome k) /\ forall j, (j < k)%nat -> ~ acceptable (outcome j)) \/ (forall j, (j <= n)%nat -> ~ acceptable (outcome j)).
Proof.
  induction n as [|n IH].
  - destruct (acceptable_dec (outcome 0%nat)) as [A|A]; [left; exists 0%nat; repeat split; [lia|exact A|lia]|right; intros j J; replace j with 0%nat by lia; exact A].
  - destruct IH as [(k & K & A & B)|B]; [left; exists k; repeat split; [lia|exact A|exact B]|].
    destruct (acceptable_dec (outcome (S n))) as [A|A]; [left; exists (S n); repeat split; [lia|exact A|intros j J; apply B; lia]|].
    right. intros j J. destruct (Nat.eq_dec j (S n)) as [->|]; [exact A|apply B; lia].
Qed.
Lemma retry_100 : retry (Some 100) = true.
Proof. cbn. destruct (Req_EM_T 100 100) as [_|N]; [reflexivity|contradiction N; reflexivity]. Qed.
Lemma fit_kept npar t0 outcome k : List.length t0 = npar ->
  (fit npar t0 outcome = Ok k <-> (k <= 20)%nat /\ acceptable (outcome k) /\ forall j, (j < k)%nat -> ~ acceptable (outcome j)).
Proof.
  intros L. unfold fit. rewrite L, Nat.eqb_refl. cbn [negb]. split.
  - intros E. destruct (first_acceptable outcome 20) as [(k' & K & A & B)|B].
    + rewrite (fit_loop_found outcome k' A k' 0 22 (Some 100)) in E; try lia; [|apply retry_100|intros j J; apply B; lia]. injection E as <-. repeat split; assumption.
    + rewrite (fit_loop_failed outcome B 21 0 22 (Some 100)) in E; try lia; [discriminate|apply retry_100].
  - intros (K & A & B). apply (fit_loop_found outcome k A k 0); try lia; [apply retry_100|intros j J; apply B; lia].
Qed.
Lemma fit_failed npar t0 outcome : List.length t0 = npar -> (forall j, (j <= 20)%nat -> ~ acceptable (outcome j)) -> fit npar t0 outcome = Err RuntimeError.
Proof. intros L B. unfold fit. rewrite L, Nat.eqb_refl. cbn [negb]. apply (fit_loop_failed outcome B 21); try lia. apply retry_100. Qed.
Lemma fit_total npar t0 outcome : (exists k, fit npar t0 outcome = Ok k) \/ fit npar t0 outcome = Err RuntimeError \/ (fit npar t0 outcome = Err ValueError /\ List.length t0 <> npar).
Proof.
  destruct (Nat.eq_dec (List.length t0) npar) as [L|L].
  - destruct (first_acceptable outcome 20) as [(k & H)|B]; [left; exists k; apply fit_kept; assumption|right; left; apply fit_failed; assumption].
  - right; right. unfold fit. destruct (Nat.eqb_spec (List.length t0) npar); [contradiction|]. split; [reflexivity|assumption].
Qed.
(* minimizing the negative posterior, the failure value -1e16 shows as 1e16 and is kept *)
Lemma fit_failure_refuted : exists npar t0 (posterior : nat -> R), List.length t0 = npar /\ (forall j, posterior j = - 10 ^ 16) /\ fit npar t0 (fun j => Some (- posterior j)) = Ok 0%nat.
Proof.
  exists 1%nat, [1], (fun _ => - 10 ^ 16). split; [reflexivity|]. split; [reflexivity|]. apply fit_kept; [reflexivity|]. split; [lia|]. split; [|lia].
  cbn [acceptable]. rewrite !Rabs_right by lra. repeat split; lra.
Qed.
(* bounds *)
Lemma bounds_used_iff method bounds : use_bounds method bounds = true <-> (In method bounded_methods /\ Forall (fun b => b = (None, None)) bounds).
Proof.
  unfold use_bounds. assert (A : any_bound bounds = false <-> Forall (fun b => b = (None, None)) bounds).
  { unfold any_bound. induction bounds as [|[[l|] [u|]] bs IH]; cbn; split; intros H; try discriminate; try constructor; try (inversion H; discriminate).
    - reflexivity.
    - apply IH, H.
    - apply IH. inversion H; assumption. }
  assert (M : existsb (String.eqb method) bounded_methods = true <-> In method bounded_methods).
  { rewrite existsb_exists. split; [intros (m & I & E); apply String.eqb_eq in E; subst; exact I|]. intros I; exists method; split; [exact I|apply String.eqb_refl]. }
  destruct (any_bound bounds) eqn:EA; cbn [orb].
  - split; [discriminate|]. intros [_ F]. apply A in F. discriminate.
  - destruct (existsb (String.eqb method) bounded_methods) eqn:EM; cbn [negb]; [split; [intros _; split; [apply M; reflexivity|apply A; reflexivity]|reflexivity]|].
    split; [discriminate|]. intros [I _]. apply M in I. discriminate.
Qed.
Lemma bounds_refuted : exists method bounds, In method bounded_methods /\ In (Some 0, Some 1) bounds /\ use_bounds method bounds = false.
Proof. exists "L-BFGS-B"%string, [(Some 0, Some 1)]. split; [left; reflexivity|]. split; [left; reflexivity|reflexivity]. Qed.

(* likelihood ratios *)
Lemma lrt_value l1 l2 p1 p2 nx d1 a1 b1 d2 a2 b2 :
  compute_criteria OfLogLikelihood (- l1) p1 nx = Ok (d1, a1, b1) -> compute_criteria OfLogLikelihood (- l2) p2 nx = Ok (d2, a2, b2) ->
  compute_lrt d1 d2 = 2 * (l2 - l1).
Proof. unfold compute_criteria, compute_lrt. cbn [bind]. intros [= <- _ _] [= <- _ _]. ring. Qed.
(* p-values *)
Lemma pvalue_above obs sim k : sim <> [] -> above obs sim k -> compute_pvalue obs sim = Ok (INR k / INR (List.length sim)).
Proof.
  intros N A. unfold compute_pvalue. assert (E : List.length (filter (fun s => if Rlt_dec obs s then true else false) sim) = k).
  { clear N. induction A as [|s l k H A IH|s l k H A IH]; [reflexivity| |]; cbn [filter]; destruct (Rlt_dec obs s); try lra; cbn [List.length]; rewrite IH; reflexivity. }
  rewrite E. destruct sim; [contradiction N; reflexivity|reflexivity].
Qed.
Lemma above_exists obs sim : exists k, above obs sim k /\ (k <= List.length sim)%nat.
Proof.
  induction sim as [|s l (k & A & K)]; [exists 0%nat; split; [constructor|cbn; lia]|]. destruct (Rlt_dec obs s).
  - exists (S k). split; [constructor; assumption|cbn; lia].
  - exists k. split; [apply above_no; [lra|assumption]|cbn; lia].
Qed.
Lemma above_monotone obs1 obs2 sim : obs1 <= obs2 -> forall k1 k2, above obs1 sim k1 -> above obs2 sim k2 -> (k2 <= k1)%nat.
Proof.
  intros H. induction sim as [|s l IH]; intros k1 k2 A1 A2; inversion A1; inversion A2; subst; try lia; try lra.
  - match goal with X : above obs1 l ?a, Y : above obs2 l ?b |- _ => specialize (IH _ _ X Y) end. lia.
  - match goal with X : above obs1 l ?a, Y : above obs2 l ?b |- _ => specialize (IH _ _ X Y) end. lia.
  - match goal with X : above obs1 l ?a, Y : above obs2 l ?b |- _ => specialize (IH _ _ X Y) end. lia.
Qed.
Lemma pvalue_range obs sim : sim <> [] -> exists p, compute_pvalue obs sim = Ok p /\ 0 <= p <= 1.
Proof.
  intros N. destruct (above_exists obs sim) as (k & A & K). exists (INR k / INR (List.length sim)). split; [apply pvalue_above; assumption|].
  assert (0 < INR (List.length sim)) by (apply lt_0_INR; destruct sim; [contradiction N; reflexivity|cbn; lia]). apply le_INR in K. pose proof (pos_INR k).
  split; [apply Rmult_le_pos; [lra|left; apply Rinv_0_lt_compat; assumption]|]. apply (Rmult_le_reg_r (INR (List.length sim))); [assumption|]. unfold Rdiv. rewrite Rmult_assoc, Rinv_l by lra. lra.
Qed.
Lemma pvalue_monotone obs1 obs2 sim p1 p2 : obs1 <= obs2 -> compute_pvalue obs1 sim = Ok p1 -> compute_pvalue obs2 sim = Ok p2 -> p2 <= p1.
Proof.
  intros H E1 E2. destruct sim as [|s sim]; [discriminate|]. destruct (above_exists obs1 (s :: sim)) as (k1 & A1 & _), (above_exists obs2 (s :: sim)) as (k2 & A2 & _).
  assert (NE : s :: sim <> []) by discriminate. rewrite (pvalue_above _ _ _ NE A1) in E1. rewrite (pvalue_above _ _ _ NE A2) in E2. 
  assert (p1 = INR k1 / INR (List.length (s :: sim))) as -> by congruence. assert (p2 = INR k2 / INR (List.length (s :: sim))) as -> by congruence.
  apply Rmult_le_compat_r; [left; apply Rinv_0_lt_compat, lt_0_INR; cbn; lia|]. apply le_INR, (above_monotone obs1 obs2 (s :: sim)); assumption.
Qed.
Lemma pvalue_empty obs : compute_pvalue obs [] = Err ZeroDivisionError.
Proof. reflexivity. Qed.
(* failed simulations count as 0 *)
Definition succeeds {A} (statistic : A -> result R) (s : A) : bool := match statistic s with Ok _ => true | _ => false end.
Lemma simulate_ok {A} (statistic : A -> result R) s_all sims :
  Forall2 (fun s v => statistic s = Ok v) s_all sims -> simulate statistic s_all = Ok sims.
Proof. unfold simulate. induction 1 as [|s v l l' H _ IH]; [reflexivity|]. cbn [map_result]. rewrite H. cbn [bind]. rewrite IH. reflexivity. Qed.
Lemma simulate_failed_refuted : exists (statistic : nat -> result R) s_all sims good obs,
  (forall s, statistic s = Err RuntimeError \/ exists v, statistic s = Ok v) /\ simulate statistic s_all = Ok sims /\
  Forall2 (fun s v => statistic s = Ok v) (filter (succeeds statistic) s_all) good /\ compute_pvalue obs sims <> compute_pvalue obs good.
Proof.
  exists (fun s => match s with O => Err RuntimeError | _ => Ok 2 end), [0%nat; 1%nat], [0; 2], [2], 1. split; [intros [|s]; [left; reflexivity|right; eexists; reflexivity]|].
  split; [reflexivity|]. split; [repeat constructor|].
  rewrite (pvalue_above 1 [0; 2] 1), (pvalue_above 1 [2] 1); try discriminate.
  - intros E. apply (f_equal (fun r => match r with Ok v => v | Err _ => 0 end)) in E. cbn in E. lra.
  - apply above_yes; [lra|constructor].
  - apply above_no; [lra|]. apply above_yes; [lra|constructor].
Qed.
(* simulated powers *)
Lemma generate_data_ratio m : m <> 0 -> forall model chisq, List.length chisq = List.length model -> Forall (fun s => s <> 0) model ->
  map (fun q => 2 * m * (fst q / snd q)) (combine (generate_data m model chisq) model) = chisq.
Proof.
  intros M. induction model as [|s model IH]; intros [|c chisq] L F; cbn in L; try discriminate; [reflexivity|]. inversion F; subst. unfold generate_data in *. cbn [combine map fst snd].
  rewrite (IH chisq) by (lia || assumption). f_equal. field. split; assumption.
Qed.
