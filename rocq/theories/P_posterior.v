(* P_posterior.v: the likelihoods of M_posterior are logarithms of products of densities *)
From Coq Require Import String.
From Verif Require Import Np M_utils Cplx M_posterior S_posterior.
From Coq Require Import Reals List Bool Arith Lra Lia.
Import ListNotations.
Open Scope R_scope.

Lemma osum_cons a l : osum (a :: l) = oadd a (osum l).
Proof. reflexivity. Qed.
Lemma osum_none l : In None l -> osum l = None.
Proof. induction l as [|a l IH]; [intros []|]. rewrite osum_cons. intros [->|H]; [reflexivity|]. rewrite (IH H). destruct a; reflexivity. Qed.
Lemma product_pos l : Forall (fun d => 0 < d) l -> 0 < product l.
Proof. induction 1; cbn; [lra|]. apply Rmult_lt_0_compat; assumption. Qed.

(* parameters *)
Definition untied (md : astromodel) : Prop := Forall (fun p => p_tied p = None) (m_params md).
Definition kinds (md : astromodel) : list (bool * R) := map (fun p => (p_fixed p, p_value p)) (m_params md).
Lemma untied_free ps : Forall (fun p => p_tied p = None) ps -> filter is_free ps = filter not_fixed ps.
Proof.
  induction 1 as [|p ps H _ IH]; [reflexivity|]. cbn. unfold is_free, is_tied, not_fixed in *. rewrite H, IH.
  destruct (p_fixed p); reflexivity.
Qed.
Lemma npar_untied md : untied md -> npar_free md = npar_not_fixed md.
Proof. intros H. unfold npar_free, npar_not_fixed. rewrite (untied_free _ H). reflexivity. Qed.
Lemma set_free_filled ps : Forall (fun p => p_tied p = None) ps -> forall pars theta,
  filled (map (fun p => (p_fixed p, p_value p)) ps) pars theta -> set_free ps pars = Ok theta.
Proof.
  induction 1 as [|p ps H _ IH]; intros pars theta F; cbn in F.
  - inversion F; subst; reflexivity.
  - cbn. unfold is_free, is_tied. rewrite H. destruct (p_fixed p) eqn:E; inversion F; subst; clear F; cbn.
    + match goal with Hf : filled _ _ _ |- _ => rewrite (IH _ _ Hf) end. reflexivity.
    + match goal with Hf : filled _ _ _ |- _ => rewrite (IH _ _ Hf) end. reflexivity.
Qed.
Lemma set_free_len ps : forall pars theta, set_free ps pars = Ok theta -> List.length theta = List.length ps.
Proof.
  induction ps as [|p ps IH]; intros pars theta; cbn; [intros [= <-]; reflexivity|].
  destruct (is_free p).
  - destruct pars as [|v pars]; [discriminate|]. destruct (set_free ps pars) eqn:E; cbn; [|discriminate]. intros [= <-]. cbn. rewrite (IH _ _ E); reflexivity.
  - destruct (set_free ps pars) eqn:E; cbn; [|discriminate]. intros [= <-]. cbn. rewrite (IH _ _ E); reflexivity.
Qed.
Lemma untied_id ps vals (vals0 : list R) : Forall (fun p => p_tied p = None) ps -> List.length vals = List.length ps ->
  map (fun pv => match p_tied (fst pv) with Some f => f vals0 | None => snd pv end) (combine ps vals) = vals.
Proof.
  intros H; revert vals; induction H as [|p ps H _ IH]; intros [|v vals] L; cbn in *; try discriminate; [reflexivity|].
  rewrite H, IH by lia. reflexivity.
Qed.
Lemma fitter_filled md pars theta : untied md -> filled (kinds md) pars theta -> fitter_to_model_params (m_params md) pars = Ok theta.
Proof.
  intros U F. unfold fitter_to_model_params. rewrite (set_free_filled _ U _ _ F). cbn.
  rewrite untied_id; [reflexivity|exact U|]. exact (set_free_len _ _ _ (set_free_filled _ U _ _ F)).
Qed.
Lemma filled_len k pars theta : filled k pars theta -> List.length pars = List.length (filter (fun q => negb (fst q)) k) /\ List.length theta = List.length k.
Proof. induction 1; cbn; lia. Qed.
Lemma kinds_count md : List.length (filter (fun q => negb (fst q)) (kinds md)) = npar_not_fixed md.
Proof.
  unfold kinds, npar_not_fixed, not_fixed. induction (m_params md) as [|p ps IH]; [reflexivity|]. cbn.
  destruct (p_fixed p); cbn; [exact IH|f_equal; exact IH].
Qed.
Lemma filled_npar md pars theta : filled (kinds md) pars theta -> List.length pars = npar_not_fixed md.
Proof. intros F. rewrite <- kinds_count. apply (filled_len _ _ _ F). Qed.
Lemma filled_exists k : forall pars, List.length pars = List.length (filter (fun q => negb (fst q)) k) -> exists theta, filled k pars theta.
Proof.
  induction k as [|[[|] v] k IH]; cbn; intros pars L.
  - destruct pars; [|discriminate]. exists []; constructor.
  - destruct (IH _ L) as [t T]. exists (v :: t). constructor; exact T.
  - destruct pars as [|p pars]; [discriminate|]. cbn in L. destruct (IH pars ltac:(lia)) as [t T]. exists (p :: t). constructor; exact T.
Qed.

(* the common part *)
Lemma evaluate_with_ok npar md x ll pars neg theta v :
  List.length pars = npar -> fitter_to_model_params (m_params md) pars = Ok theta ->
  ll (map (m_eval md theta) x) = Ok v ->
  evaluate_with npar md x ll pars neg = Ok (if neg then - assign_if_not_finite v logmin else assign_if_not_finite v logmin).
Proof. intros L F H. unfold evaluate_with. rewrite L, Nat.eqb_refl. cbn [negb]. rewrite F. cbn. rewrite H. reflexivity. Qed.
Lemma evaluate_with_wrong npar md x ll pars neg : List.length pars <> npar -> evaluate_with npar md x ll pars neg = Err IncorrectParameterError.
Proof. intros L. unfold evaluate_with. destruct (Nat.eqb_spec (List.length pars) npar); [contradiction|reflexivity]. Qed.
(* the model has the (finite) values mus at the points x *)
Definition has_values (md : astromodel) (theta x mus : list R) : Prop := Forall2 (fun xi mu => m_eval md theta xi = Some mu) x mus.
Lemma has_values_map md theta x mus : has_values md theta x mus -> map (m_eval md theta) x = map Some mus /\ List.length mus = List.length x.
Proof. induction 1 as [|a b l l' H _ [IH L]]; [split; reflexivity|]. cbn. rewrite H, IH, L. split; reflexivity. Qed.

(* Gaussian *)
Lemma ln_sqrt_2pi : ln (sqrt (2 * PI)) = 1 / 2 * ln (2 * PI).
Proof.
  assert (P : 0 < 2 * PI) by (pose proof PI_RGT_0; lra).
  assert (S : 0 < sqrt (2 * PI)) by (apply sqrt_lt_R0; exact P).
  rewrite <- (sqrt_sqrt (2 * PI)) at 2 by lra. rewrite ln_mult by assumption. lra.
Qed.
Lemma gaussian_term_ok y e mu : 0 < e -> exists v, gaussian_term y e (Some mu) = Some v /\ exp v = normal_density mu e y.
Proof.
  intros E. unfold gaussian_term, olog, odiv. cbn [option_map].
  destruct (Rlt_dec 0 e); [|contradiction].
  destruct (Req_EM_T (2 * e ^ 2) 0) as [Z|_]; [exfalso; assert (0 < e ^ 2) by (apply pow_lt; exact E); lra|].
  eexists; split; [reflexivity|]. unfold normal_density.
  assert (P : 0 < 2 * PI) by (pose proof PI_RGT_0; lra).
  assert (S : 0 < sqrt (2 * PI)) by (apply sqrt_lt_R0; exact P).
  rewrite <- (exp_ln (e * sqrt (2 * PI))) by (apply Rmult_lt_0_compat; assumption).
  unfold Rdiv. rewrite <- exp_Ropp, <- exp_plus. f_equal. rewrite (ln_mult e (sqrt (2 * PI))) by assumption. rewrite ln_sqrt_2pi. unfold Rdiv. ring.
Qed.
Lemma gaussian_sum y : forall yerr mus, List.length yerr = List.length y -> List.length mus = List.length y -> Forall (fun e => 0 < e) yerr ->
  exists v, gaussian_loglike y yerr (map Some mus) = Some v /\ exp v = product (map3 normal_density mus yerr y).
Proof.
  induction y as [|a y IH]; intros [|e yerr] [|mu mus] L1 L2 F; cbn in L1, L2; try discriminate.
  - exists 0. split; [reflexivity|]. exact exp_0.
  - inversion F as [|? ? E F']; subst. destruct (IH yerr mus ltac:(lia) ltac:(lia) F') as (v & V1 & V2).
    destruct (gaussian_term_ok a e mu E) as (t & T1 & T2). exists (t + v). unfold gaussian_loglike in *. cbn [map combine fst snd]. rewrite osum_cons, T1, V1. split; [reflexivity|].
    rewrite exp_plus, T2, V2. reflexivity.
Qed.
Lemma gaussian_density md x y yerr pars theta mus :
  untied md -> filled (kinds md) pars theta -> has_values md theta x mus ->
  List.length y = List.length x -> List.length yerr = List.length x -> Forall (fun e => 0 < e) yerr ->
  exists v, gaussian_evaluate md x y yerr pars false = Ok v /\ gaussian_evaluate md x y yerr pars true = Ok (- v) /\
    exp v = product (map3 normal_density mus yerr y).
Proof.
  intros U F V L1 L2 E. destruct (has_values_map _ _ _ _ V) as [M L3].
  destruct (gaussian_sum y yerr mus ltac:(lia) ltac:(lia) E) as (v & V1 & V2). exists v.
  unfold gaussian_evaluate. rewrite !(evaluate_with_ok _ _ _ _ _ _ theta (Some v)).
  - cbn. split; [reflexivity|split; [reflexivity|exact V2]].
  - exact (filled_npar _ _ _ F).
  - exact (fitter_filled _ _ _ U F).
  - rewrite M, V1. reflexivity.
  - exact (filled_npar _ _ _ F).
  - exact (fitter_filled _ _ _ U F).
  - rewrite M, V1. reflexivity.
Qed.
Lemma gaussian_sum_none y : forall yerr (mm : list (option R)), List.length yerr = List.length y -> List.length mm = List.length y ->
  (Exists (fun e => e <= 0) yerr \/ In None mm) -> gaussian_loglike y yerr mm = None.
Proof.
  induction y as [|a y IH]; intros [|e yerr] [|mu mm] L1 L2 B; cbn in L1, L2; try discriminate.
  - destruct B as [B|B]; inversion B.
  - unfold gaussian_loglike in *. cbn [combine map fst snd]. rewrite osum_cons.
    assert (D : gaussian_term a e mu = None \/ (Exists (fun e => e <= 0) yerr \/ In None mm)).
    { destruct B as [B|B].
      - inversion B; subst; [left|right; left; assumption]. unfold gaussian_term, olog. destruct (Rlt_dec 0 e); [lra|]. reflexivity.
      - destruct B as [->|B]; [left|right; right; exact B]. unfold gaussian_term, olog. cbn. destruct (Rlt_dec 0 e); reflexivity. }
    destruct D as [->|D]; [reflexivity|]. rewrite (IH yerr mm ltac:(lia) ltac:(lia) D). destruct (gaussian_term a e mu); reflexivity.
Qed.
Lemma gaussian_not_finite md x y yerr pars theta :
  untied md -> filled (kinds md) pars theta -> List.length y = List.length x -> List.length yerr = List.length x ->
  (Exists (fun e => e <= 0) yerr \/ Exists (fun xi => m_eval md theta xi = None) x) ->
  gaussian_evaluate md x y yerr pars false = Ok (- 10 ^ 16).
Proof.
  intros U F L1 L2 B. unfold gaussian_evaluate. rewrite (evaluate_with_ok _ _ _ _ _ _ theta None).
  - cbn. unfold logmin. f_equal. lra.
  - exact (filled_npar _ _ _ F).
  - exact (fitter_filled _ _ _ U F).
  - rewrite gaussian_sum_none; [reflexivity|lia|rewrite map_length; lia|].
    destruct B as [B|B]; [left; exact B|right]. apply Exists_exists in B as (xi & I & N). apply in_map_iff. exists xi. split; assumption.
Qed.

(* Poisson *)
Section Poisson.
Variable gammaln : R -> R.
Hypothesis gammaln_fact : forall k : nat, gammaln (INR k + 1) = ln (INR (fact k)).
Lemma fact_pos k : 0 < INR (fact k).
Proof. apply lt_0_INR, lt_O_fact. Qed.
Lemma exp_pow_ln mu k : 0 < mu -> exp (INR k * ln mu) = mu ^ k.
Proof. intros M. rewrite <- (Rpower_pow k mu M). reflexivity. Qed.
Lemma poisson_term_ok k mu : 0 < mu -> exists v, poisson_term gammaln (INR k) (Some mu) = Some v /\ exp v = poisson_probability mu k.
Proof.
  intros M. unfold poisson_term, olog. destruct (Rlt_dec 0 mu); [|contradiction]. cbn. eexists; split; [reflexivity|].
  rewrite gammaln_fact. unfold Rminus. rewrite !exp_plus, exp_Ropp, (exp_pow_ln _ _ M), exp_Ropp, exp_ln by apply fact_pos.
  unfold poisson_probability. rewrite exp_Ropp. reflexivity.
Qed.
Lemma poisson_sum ks : forall mus, List.length mus = List.length ks -> Forall (fun mu => 0 < mu) mus ->
  exists v, poisson_loglike gammaln (map INR ks) (map Some mus) = Some v /\ exp v = product (map2 poisson_probability mus ks).
Proof.
  induction ks as [|k ks IH]; intros [|mu mus] L F; cbn in L; try discriminate.
  - exists 0. split; [reflexivity|exact exp_0].
  - inversion F as [|? ? M F']; subst. destruct (IH mus ltac:(lia) F') as (v & V1 & V2). destruct (poisson_term_ok k mu M) as (t & T1 & T2).
    exists (t + v). unfold poisson_loglike in *. cbn [map combine fst snd]. rewrite osum_cons, T1, V1. split; [reflexivity|].
    rewrite exp_plus, T2, V2. reflexivity.
Qed.
Lemma poisson_density md x ks pars theta mus :
  untied md -> filled (kinds md) pars theta -> has_values md theta x mus -> List.length ks = List.length x -> Forall (fun mu => 0 < mu) mus ->
  exists v, poisson_evaluate gammaln md x (map INR ks) pars false = Ok v /\ poisson_evaluate gammaln md x (map INR ks) pars true = Ok (- v) /\
    exp v = product (map2 poisson_probability mus ks).
Proof.
  intros U F V L P. destruct (has_values_map _ _ _ _ V) as [M L3]. destruct (poisson_sum ks mus ltac:(lia) P) as (v & V1 & V2). exists v.
  pose proof (filled_npar _ _ _ F) as N. pose proof (fitter_filled _ _ _ U F) as W.
  unfold poisson_evaluate. split; [|split; [|exact V2]].
  - rewrite (evaluate_with_ok _ _ _ _ _ _ theta (Some v) N W); [reflexivity|]. rewrite M, V1; reflexivity.
  - rewrite (evaluate_with_ok _ _ _ _ _ _ theta (Some v) N W); [reflexivity|]. rewrite M, V1; reflexivity.
Qed.
Lemma poisson_not_finite md x y pars theta :
  untied md -> filled (kinds md) pars theta -> List.length y = List.length x ->
  Exists (fun xi => match m_eval md theta xi with Some mu => mu <= 0 | None => True end) x ->
  poisson_evaluate gammaln md x y pars false = Ok (- 10 ^ 16).
Proof.
  intros U F L B. unfold poisson_evaluate. rewrite (evaluate_with_ok _ _ _ _ _ _ theta None (filled_npar _ _ _ F) (fitter_filled _ _ _ U F)).
  - cbn. unfold logmin. f_equal. lra.
  - f_equal. unfold poisson_loglike. apply osum_none. revert y L. induction B as [xi x B|xi x B IH]; intros [|a y] L; cbn in *; try discriminate.
    + left. unfold poisson_term. destruct (m_eval md theta xi) as [mu|]; [|reflexivity]. cbn. destruct (Rlt_dec 0 mu); [lra|reflexivity].
    + right. apply IH. lia.
Qed.
End Poisson.

(* Laplace *)
Lemma laplace_term_ok y b mu : 0 < b -> exists v, laplace_term y b (Some mu) = Some v /\ exp v = laplace_density_of_scale mu b y.
Proof.
  intros B. unfold laplace_term, olog, odiv. cbn [option_map]. destruct (Rlt_dec 0 (2 * b)); [|lra]. destruct (Req_EM_T b 0); [lra|].
  eexists; split; [reflexivity|]. unfold laplace_density_of_scale. unfold Rminus. rewrite exp_plus, exp_Ropp, exp_ln by lra. unfold Rdiv. ring.
Qed.
Lemma laplace_sum y : forall yerr mus, List.length yerr = List.length y -> List.length mus = List.length y -> Forall (fun e => 0 < e) yerr ->
  exists v, laplace_loglike y yerr (map Some mus) = Some v /\ exp v = product (map3 laplace_density_of_scale mus yerr y).
Proof.
  induction y as [|a y IH]; intros [|e yerr] [|mu mus] L1 L2 F; cbn in L1, L2; try discriminate.
  - exists 0. split; [reflexivity|]. exact exp_0.
  - inversion F as [|? ? E F']; subst. destruct (IH yerr mus ltac:(lia) ltac:(lia) F') as (v & V1 & V2).
    destruct (laplace_term_ok a e mu E) as (t & T1 & T2). exists (t + v). unfold laplace_loglike in *. cbn [map combine fst snd]. rewrite osum_cons, T1, V1. split; [reflexivity|]. rewrite exp_plus, T2, V2. reflexivity.
Qed.
Lemma laplace_density_scale md x y yerr pars theta mus :
  untied md -> filled (kinds md) pars theta -> has_values md theta x mus ->
  List.length y = List.length x -> List.length yerr = List.length x -> Forall (fun e => 0 < e) yerr ->
  exists v, laplace_evaluate md x y yerr pars false = Ok v /\ laplace_evaluate md x y yerr pars true = Ok (- v) /\
    exp v = product (map3 laplace_density_of_scale mus yerr y).
Proof.
  intros U F V L1 L2 E. destruct (has_values_map _ _ _ _ V) as [M L3]. destruct (laplace_sum y yerr mus ltac:(lia) ltac:(lia) E) as (v & V1 & V2). exists v.
  pose proof (filled_npar _ _ _ F) as N. pose proof (fitter_filled _ _ _ U F) as W. rewrite <- (npar_untied _ U) in N.
  unfold laplace_evaluate. split; [|split; [|exact V2]].
  - rewrite (evaluate_with_ok _ _ _ _ _ _ theta (Some v) N W); [reflexivity|]. rewrite M, V1; reflexivity.
  - rewrite (evaluate_with_ok _ _ _ _ _ _ theta (Some v) N W); [reflexivity|]. rewrite M, V1; reflexivity.
Qed.
(* the documented meaning of yerr is the standard deviation *)
Lemma sqrt2_bounds : 1 < sqrt 2 < 2.
Proof. split; [rewrite <- sqrt_1|rewrite <- (sqrt_pow2 2) at 2 by lra]; apply sqrt_lt_1; lra. Qed.
Definition constant_model : astromodel := mkModel [mkParam "amplitude" 1 false None] (fun theta _ => Some (nth 0 theta 0)).
Lemma constant_filled a : filled (kinds constant_model) [a] [a].
Proof. unfold kinds; cbn. constructor. constructor. Qed.
Lemma constant_untied : untied constant_model.
Proof. repeat constructor. Qed.
Lemma constant_values a x : has_values constant_model [a] x (map (fun _ => a) x).
Proof. unfold has_values. induction x; cbn; constructor; [reflexivity|assumption]. Qed.
Lemma laplace_std_refuted : exists md x y yerr pars theta mus v,
  untied md /\ filled (kinds md) pars theta /\ has_values md theta x mus /\ List.length y = List.length x /\ List.length yerr = List.length x /\
  Forall (fun e => 0 < e) yerr /\ laplace_evaluate md x y yerr pars false = Ok v /\ exp v <> product (map3 laplace_density mus yerr y).
Proof.
  destruct (laplace_density_scale constant_model [0] [1] [1] [1] [1] [1] constant_untied (constant_filled 1) (constant_values 1 [0]) eq_refl eq_refl
    ltac:(constructor; [lra|constructor])) as (v & V1 & _ & V2).
  exists constant_model, [0], [1], [1], [1], [1], [1], v.
  split; [exact constant_untied|]. split; [exact (constant_filled 1)|]. split; [exact (constant_values 1 [0])|].
  split; [reflexivity|]. split; [reflexivity|]. split; [constructor; [lra|constructor]|]. split; [exact V1|].
  rewrite V2. unfold map3, map2, laplace_density_of_scale, laplace_density. cbn [combine map product fold_right fst snd].
  replace (1 - 1) with 0 by ring. rewrite Rabs_R0. replace (0 / 1) with 0 by field. replace (sqrt 2 * 0 / 1) with 0 by field. rewrite Ropp_0, exp_0.
  pose proof sqrt2_bounds as [A B]. intros E. assert (H : / (sqrt 2 * 1) > / (2 * 1)) by (apply Rinv_lt_contravar; lra). lra.
Qed.
