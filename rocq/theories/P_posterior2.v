(* P_posterior2.v: the likelihood of periodograms, priors and posteriors of M_posterior *)
From Coq Require Import String.
From Verif Require Import Np M_utils Cplx M_posterior S_posterior P_posterior.
From Coq Require Import Reals List Bool Arith Lra Lia.
Import ListNotations.
Open Scope R_scope.

Definition all_pos (l : list R) : Prop := Forall (fun v => 0 < v) l.
Lemma product_cons a l : product (a :: l) = a * product l.
Proof. reflexivity. Qed.
Lemma rlsum_cons a l : rlsum (a :: l) = a + rlsum l.
Proof. reflexivity. Qed.
(* one periodogram *)
Lemma psd_single_sum y : forall mus, List.length mus = List.length y -> all_pos mus ->
  exists v, psd_loglike (MScalar 1) y (map Some mus) = Ok (Some v) /\ exp v = product (map2 exponential_density mus y).
Proof.
  unfold psd_loglike. destruct (Req_EM_T 1 1) as [_|N]; [|contradiction N; reflexivity].
  assert (S : forall mus, all_pos mus -> osum (map olog (map Some mus)) = Some (rlsum (map ln mus))).
  { induction 1 as [|s mus H _ IH]; [reflexivity|]. cbn [map]. rewrite osum_cons, IH. cbn. destruct (Rlt_dec 0 s); [reflexivity|contradiction]. }
  assert (D : forall y mus, all_pos mus -> osum (map (fun q => odiv (Some (fst q)) (snd q)) (combine y (map Some mus))) = Some (rlsum (map2 (fun a s => a / s) y mus))).
  { clear y. induction y as [|a y IH]; intros [|s mus] P; try reflexivity. inversion P; subst. unfold map2 in *. cbn [map combine]. rewrite osum_cons, IH by assumption.
    cbn. destruct (Req_EM_T s 0); [lra|reflexivity]. }
  intros mus L P. rewrite S, D by assumption. cbn. eexists; split; [reflexivity|]. clear S D.
  revert y L. induction P as [|s mus H _ IH]; intros [|a y] L; cbn in L; try discriminate.
  - cbn. replace (- 0 - 0) with 0 by ring. exact exp_0.
  - unfold map2 in *. cbn [map combine fst snd] in *. rewrite !rlsum_cons, product_cons, <- (IH y ltac:(lia)). cbn [fst snd]. unfold exponential_density.
    replace (- (ln s + rlsum (map ln mus)) - (a / s + rlsum (map (fun p => fst p / snd p) (combine y mus))))
      with (- (a / s) + (- ln s + (- rlsum (map ln mus) - rlsum (map (fun p => fst p / snd p) (combine y mus))))) by ring.
    rewrite !exp_plus, (exp_Ropp (ln s)), exp_ln by exact H. unfold Rdiv. ring.
Qed.
Lemma psd_single md x y pars theta mus :
  untied md -> filled (kinds md) pars theta -> has_values md theta x mus -> List.length y = List.length x -> all_pos mus ->
  exists v, psd_evaluate (MScalar 1) md x y pars false = Ok v /\ psd_evaluate (MScalar 1) md x y pars true = Ok (- v) /\
    exp v = product (map2 exponential_density mus y).
Proof.
  intros U F V L P. destruct (has_values_map _ _ _ _ V) as [M L3]. destruct (psd_single_sum y mus ltac:(lia) P) as (v & V1 & V2). exists v.
  pose proof (filled_npar _ _ _ F) as N. pose proof (fitter_filled _ _ _ U F) as W. rewrite <- (npar_untied _ U) in N.
  unfold psd_evaluate. split; [|split; [|exact V2]].
  - rewrite (evaluate_with_ok _ _ _ _ _ _ theta (Some v) N W); [reflexivity|]. rewrite M; exact V1.
  - rewrite (evaluate_with_ok _ _ _ _ _ _ theta (Some v) N W); [reflexivity|]. rewrite M; exact V1.
Qed.

(* averages of m periodograms: twice the logarithm of the density without its constant *)
Definition gamma_shape (m : nat) (s y : R) : R := gamma_density m s y / gamma_constant m.
Lemma gamma_constant_pos m : (1 <= m)%nat -> 0 < gamma_constant m.
Proof. intros M. unfold gamma_constant. apply Rdiv_lt_0_compat; [apply pow_lt, lt_0_INR; lia|apply fact_pos]. Qed.
Lemma gamma_density_pos m s y : (1 <= m)%nat -> 0 < s -> 0 < y -> 0 < gamma_density m s y.
Proof.
  intros M S Y. unfold gamma_density. apply Rdiv_lt_0_compat; [|apply fact_pos]. apply Rmult_lt_0_compat; [|apply exp_pos].
  apply Rmult_lt_0_compat; apply pow_lt; [|exact Y]. apply Rdiv_lt_0_compat; [apply lt_0_INR; lia|exact S].
Qed.
Lemma gamma_shape_ln m s y : (1 <= m)%nat -> 0 < s -> 0 < y ->
  ln (gamma_shape m s y) = - (INR m * ln s) - INR m * y / s + (INR m - 1) * ln y.
Proof.
  intros M S Y. assert (I : 0 < INR m) by (apply lt_0_INR; lia). assert (Fp := fact_pos (m - 1)).
  assert (Hp : 0 < INR m ^ m) by (apply pow_lt; exact I). assert (Hs : 0 < / s ^ m) by (apply Rinv_0_lt_compat, pow_lt; exact S). assert (Hy : 0 < y ^ (m - 1)) by (apply pow_lt; exact Y).
  replace (gamma_shape m s y) with (/ s ^ m * (y ^ (m - 1) * exp (- (INR m * y / s)))).
  - rewrite ln_mult, ln_mult, ln_exp, ln_Rinv; try assumption; try apply exp_pos; [|apply pow_lt; exact S|apply Rmult_lt_0_compat; [exact Hy|apply exp_pos]].
    rewrite <- (exp_pow_ln s m S), <- (exp_pow_ln y (m - 1) Y), !ln_exp. rewrite (minus_INR m 1 M). change (INR 1) with 1. unfold Rdiv. ring.
  - unfold gamma_shape, gamma_density, gamma_constant. replace ((INR m / s) ^ m) with (INR m ^ m * / s ^ m) by (unfold Rdiv; rewrite Rpow_mult_distr, pow_inv; reflexivity). field. repeat split; try lra. apply Rgt_not_eq, pow_lt; exact S.
Qed.
Lemma psd_m_sum ms : forall y mus, List.length y = List.length ms -> List.length mus = List.length ms -> Forall (fun m => (1 <= m)%nat) ms -> all_pos y -> all_pos mus ->
  exists v, psd_loglike_m (map INR ms) y (map Some mus) = Some v /\ v = 2 * rlsum (map ln (map3 gamma_shape ms mus y)).
Proof.
  intros y mus L1 L2 M Y P. eexists; split; [|reflexivity]. unfold psd_loglike_m.
  revert y mus L1 L2 Y P. induction M as [|m ms Hm M IH]; intros [|a y] [|s mus] L1 L2 Y P; cbn in L1, L2; try discriminate.
  - cbn. f_equal. ring.
  - inversion Y as [|? ? Ha Y']; inversion P as [|? ? Hs P']; subst. specialize (IH y mus ltac:(lia) ltac:(lia) Y' P').
    assert (I : 0 < INR m) by (apply lt_0_INR; lia).
    unfold map3, map2 in *. cbn [map combine fst snd] in *. rewrite !osum_cons.
    destruct (osum (map (fun q => omul (Some (fst q)) (olog (snd q))) (combine (map (fun m => 2 * m) (map INR ms)) (map Some mus)))) as [s1|]; [|discriminate IH].
    destruct (osum (map (fun q => odiv (Some (fst (fst q) * snd (fst q))) (snd q)) (combine (combine (map (fun m => 2 * m) (map INR ms)) y) (map Some mus)))) as [s2|]; [|discriminate IH].
    destruct (osum (map (fun q => omul (omul (Some (fst q)) (osub (odiv (Some 2) (Some (fst q))) (Some 1))) (olog (Some (snd q)))) (combine (map (fun m => 2 * m) (map INR ms)) y))) as [s3|]; [|discriminate IH].
    cbn [olog odiv omul osub opt2 fst snd].
    destruct (Rlt_dec 0 s) as [_|]; [|contradiction]. destruct (Rlt_dec 0 a) as [_|]; [|contradiction].
    destruct (Req_EM_T s 0); [lra|]. destruct (Req_EM_T (2 * INR m) 0); [lra|].
    set (rest := rlsum _) in IH. rewrite rlsum_cons. change (rlsum _) with rest. cbn [fst snd].
    assert (H : - (s1 + s2 + s3) = 2 * rest) by (injection IH as IH; exact IH). cbn. f_equal.
    rewrite (gamma_shape_ln m s a Hm Hs Ha), Rmult_plus_distr_l, <- H. field. lra.
Qed.
Lemma sum_ln_product l : all_pos l -> rlsum (map ln l) = ln (product l).
Proof.
  induction 1 as [|a l H F IH]; [cbn; symmetry; exact ln_1|]. cbn [map]. rewrite rlsum_cons, product_cons, ln_mult, IH; [reflexivity|exact H|exact (product_pos _ F)].
Qed.
Lemma shapes_positive ms : forall y mus, Forall (fun m => (1 <= m)%nat) ms -> all_pos y -> all_pos mus ->
  all_pos (map3 gamma_density ms mus y) /\ all_pos (map3 gamma_shape ms mus y).
Proof.
  induction ms as [|m ms IH]; intros [|a y] [|s mus] M Y P; unfold map3, map2 in *; cbn; try (split; constructor).
  all: inversion M; inversion Y; inversion P; subst.
  - apply gamma_density_pos; assumption.
  - apply IH; assumption.
  - unfold gamma_shape. cbn. apply Rdiv_lt_0_compat; [apply gamma_density_pos; assumption|apply gamma_constant_pos; assumption].
  - apply IH; assumption.
Qed.
Lemma shapes_product ms : forall y mus, List.length y = List.length ms -> List.length mus = List.length ms -> Forall (fun m => (1 <= m)%nat) ms ->
  product (map3 gamma_density ms mus y) = product (map gamma_constant ms) * product (map3 gamma_shape ms mus y).
Proof.
  induction ms as [|m ms IH]; intros [|a y] [|s mus] L1 L2 M; cbn in L1, L2; try discriminate.
  - cbn. ring.
  - inversion M; subst. unfold map3, map2 in *. cbn [map combine fst snd] in *. rewrite !product_cons, (IH y mus) by (assumption || lia).
    unfold gamma_shape at 2. pose proof (gamma_constant_pos m ltac:(assumption)). field. lra.
Qed.
Lemma map_repeat {A B} (f : A -> B) a n : map f (repeat a n) = repeat (f a) n.
Proof. induction n; cbn; [reflexivity|f_equal; assumption]. Qed.
(* what m is: a number of at least 2, or an array *)
Inductive averaged : multiplicity -> list nat -> Prop :=
| averaged_scalar m n : (2 <= m)%nat -> averaged (MScalar (INR m)) (repeat m n)
| averaged_array ms : Forall (fun m => (1 <= m)%nat) ms -> averaged (MArray (map INR ms)) ms.
Lemma averaged_ge m ms : averaged m ms -> Forall (fun m => (1 <= m)%nat) ms.
Proof. intros [k n H|l H]; [|exact H]. apply Forall_forall. intros q Q. apply repeat_spec in Q. lia. Qed.
Lemma averaged_loglike m ms y mm : averaged m ms -> List.length y = List.length ms -> psd_loglike m y mm = Ok (psd_loglike_m (map INR ms) y mm).
Proof.
  intros [k n H|l H] L; [|reflexivity]. unfold psd_loglike. assert (2 <= INR k) by (replace 2 with (INR 2) by reflexivity; apply le_INR; exact H).
  destruct (Req_EM_T (INR k) 1); [lra|]. destruct (Req_EM_T (INR k) 0); [lra|]. rewrite L, repeat_length, map_repeat. reflexivity.
Qed.
Lemma psd_averaged m ms md x y pars theta mus :
  averaged m ms -> untied md -> filled (kinds md) pars theta -> has_values md theta x mus -> List.length y = List.length x -> List.length ms = List.length x ->
  all_pos y -> all_pos mus ->
  exists v, psd_evaluate m md x y pars false = Ok v /\ psd_evaluate m md x y pars true = Ok (- v) /\
    v = 2 * (ln (product (map3 gamma_density ms mus y)) - ln (product (map gamma_constant ms))).
Proof.
  intros A U F V L Lm Y P. destruct (has_values_map _ _ _ _ V) as [M L3]. pose proof (averaged_ge _ _ A) as G.
  destruct (psd_m_sum ms y mus ltac:(lia) ltac:(lia) G Y P) as (v & V1 & V2). exists v.
  pose proof (filled_npar _ _ _ F) as N. pose proof (fitter_filled _ _ _ U F) as W. rewrite <- (npar_untied _ U) in N.
  assert (Q : psd_loglike m y (map (m_eval md theta) x) = Ok (Some v)) by (rewrite M, (averaged_loglike m ms) by (assumption || lia); rewrite V1; reflexivity).
  unfold psd_evaluate. split; [|split].
  - rewrite (evaluate_with_ok _ _ _ _ _ _ theta (Some v) N W Q). reflexivity.
  - rewrite (evaluate_with_ok _ _ _ _ _ _ theta (Some v) N W Q). reflexivity.
  - destruct (shapes_positive ms y mus G Y P) as [P1 P2]. rewrite V2, (sum_ln_product _ P2), (shapes_product ms y mus) by (assumption || lia).
    rewrite ln_mult; [ring| |exact (product_pos _ P2)]. apply product_pos. apply Forall_forall. intros c C. apply in_map_iff in C as (k & <- & K).
    apply gamma_constant_pos. rewrite Forall_forall in G. exact (G k K).
Qed.
(* the difference between two sets of parameters is twice the logarithm of the ratio of likelihoods *)
Lemma psd_difference m ms md x y p1 p2 th1 th2 mu1 mu2 :
  averaged m ms -> untied md -> filled (kinds md) p1 th1 -> filled (kinds md) p2 th2 -> has_values md th1 x mu1 -> has_values md th2 x mu2 ->
  List.length y = List.length x -> List.length ms = List.length x -> all_pos y -> all_pos mu1 -> all_pos mu2 ->
  exists v1 v2, psd_evaluate m md x y p1 false = Ok v1 /\ psd_evaluate m md x y p2 false = Ok v2 /\
    v1 - v2 = 2 * (ln (product (map3 gamma_density ms mu1 y)) - ln (product (map3 gamma_density ms mu2 y))).
Proof.
  intros A U F1 F2 V1 V2 L Lm Y P1 P2.
  destruct (psd_averaged m ms md x y p1 th1 mu1 A U F1 V1 L Lm Y P1) as (v1 & E1 & _ & Q1).
  destruct (psd_averaged m ms md x y p2 th2 mu2 A U F2 V2 L Lm Y P2) as (v2 & E2 & _ & Q2).
  exists v1, v2. split; [exact E1|split; [exact E2|]]. rewrite Q1, Q2. ring.
Qed.
(* two powers of 1, averages of two periodograms, the models 1 and 2 *)
Lemma psd_ratio_refuted : exists m ms md x y p1 p2 th1 th2 mu1 mu2 v1 v2,
  averaged m ms /\ untied md /\ filled (kinds md) p1 th1 /\ filled (kinds md) p2 th2 /\ has_values md th1 x mu1 /\ has_values md th2 x mu2 /\
  List.length y = List.length x /\ List.length ms = List.length x /\ all_pos y /\ all_pos mu1 /\ all_pos mu2 /\
  psd_evaluate m md x y p1 false = Ok v1 /\ psd_evaluate m md x y p2 false = Ok v2 /\
  v1 - v2 <> ln (product (map3 gamma_density ms mu1 y)) - ln (product (map3 gamma_density ms mu2 y)).
Proof.
  assert (A : averaged (MScalar (INR 2)) [2%nat]) by (apply (averaged_scalar 2 1); lia).
  assert (Y : all_pos [1]) by (constructor; [lra|constructor]).
  assert (P2 : all_pos (map (fun _ : R => 2) [0])) by (constructor; [lra|constructor]).
  assert (P1 : all_pos (map (fun _ : R => 1) [0])) by (constructor; [lra|constructor]).
  destruct (psd_difference (MScalar (INR 2)) [2%nat] constant_model [0] [1] [1] [2] [1] [2] (map (fun _ => 1) [0]) (map (fun _ => 2) [0]) A constant_untied (constant_filled 1) (constant_filled 2)
    (constant_values 1 [0]) (constant_values 2 [0]) eq_refl eq_refl Y P1 P2) as (v1 & v2 & E1 & E2 & D).
  exists (MScalar (INR 2)), [2%nat], constant_model, [0], [1], [1], [2], [1], [2], (map (fun _ => 1) [0]), (map (fun _ => 2) [0]), v1, v2.
  split; [exact A|]. split; [exact constant_untied|]. split; [exact (constant_filled 1)|]. split; [exact (constant_filled 2)|].
  split; [exact (constant_values 1 [0])|]. split; [exact (constant_values 2 [0])|]. split; [reflexivity|]. split; [reflexivity|]. split; [exact Y|]. split; [exact P1|]. split; [exact P2|].
  split; [exact E1|]. split; [exact E2|]. rewrite D. intros E.
  assert (Z : ln (product (map3 gamma_density [2%nat] (map (fun _ => 1) [0]) [1])) = ln (product (map3 gamma_density [2%nat] (map (fun _ => 2) [0]) [1]))) by lra.
  apply ln_inv in Z.
  - revert Z. unfold map3, map2, gamma_density. cbn [map combine fst snd product fold_right Nat.sub fact]. change (INR (1 + 0)) with 1. replace (INR 2) with 2 by reflexivity.
    replace (- (2 * 1 / 1)) with (- (1) + - (1)) by field. replace (- (2 * 1 / 2)) with (- (1)) by field. rewrite exp_plus, exp_Ropp.
    pose proof exp_le_3. pose proof (exp_pos 1) as E0. assert (U : / exp 1 * exp 1 = 1) by (apply Rinv_l; lra). set (u := / exp 1) in *. intros Z.
    assert (Z' : 4 * (u * u) = u)  by (change (INR (1 * 1)) with 1 in Z; etransitivity; [|etransitivity; [exact Z|]]; field).
    assert (Z2 : 4 * (u * u) * (exp 1 * exp 1) = u * (exp 1 * exp 1)) by (rewrite Z'; reflexivity).
    replace (4 * (u * u) * (exp 1 * exp 1)) with (4 * ((u * exp 1) * (u * exp 1))) in Z2 by ring. replace (u * (exp 1 * exp 1)) with (u * exp 1 * exp 1) in Z2 by ring.
    rewrite U in Z2. lra.
  - apply product_pos. apply (shapes_positive [2%nat] [1] _ ltac:(constructor; [lia|constructor]) Y P1).
  - apply product_pos. apply (shapes_positive [2%nat] [1] _ ltac:(constructor; [lia|constructor]) Y P2).
Qed.
(* one periodogram given as the array [1] *)
Lemma psd_array_refuted : exists md x y pars theta mus v w,
  untied md /\ filled (kinds md) pars theta /\ has_values md theta x mus /\ List.length y = List.length x /\ all_pos y /\ all_pos mus /\
  psd_evaluate (MScalar 1) md x y pars false = Ok v /\ psd_evaluate (MArray (map (fun _ => 1) x)) md x y pars false = Ok w /\ v <> w.
Proof.
  assert (Y : all_pos [1]) by (constructor; [lra|constructor]).
  assert (P1 : all_pos (map (fun _ : R => 1) [0])) by (constructor; [lra|constructor]).
  destruct (psd_single constant_model [0] [1] [1] [1] (map (fun _ => 1) [0]) constant_untied (constant_filled 1) (constant_values 1 [0]) eq_refl P1) as (v & E1 & _ & Q1).
  destruct (psd_averaged (MArray (map INR [1%nat])) [1%nat] constant_model [0] [1] [1] [1] (map (fun _ => 1) [0])
    (averaged_array [1%nat] ltac:(constructor; [lia|constructor])) constant_untied (constant_filled 1) (constant_values 1 [0]) eq_refl eq_refl Y P1) as (w & E2 & _ & Q2).
  exists constant_model, [0], [1], [1], [1], (map (fun _ => 1) [0]), v, w.
  split; [exact constant_untied|]. split; [exact (constant_filled 1)|]. split; [exact (constant_values 1 [0])|]. split; [reflexivity|]. split; [exact Y|]. split; [exact P1|].
  split; [exact E1|]. split; [exact E2|].
  assert (V : v = - 1).
  { apply exp_inv. rewrite Q1. unfold map2, exponential_density. cbn. replace (- (1 / 1)) with (- 1) by field. field. }
  assert (W : w = - 2).
  { rewrite Q2. unfold map3, map2, gamma_density, gamma_constant. cbn. replace (- (1 * 1 / 1)) with (- (1)) by field.
    replace (1 / 1 * 1 * 1 * exp (- (1)) / 1 * 1) with (exp (- (1))) by field. rewrite ln_exp. replace (1 * 1 / 1 * 1) with 1 by field. rewrite ln_1. ring. }
  lra.
Qed.
