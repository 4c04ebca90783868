(* P_calib.v: proofs about calibrations. *)
From Coq Require Import String.
From Verif Require Import Np M_utils Cplx M_exvar M_parest S_parest P_parest M_calib S_calib.
From Coq Require Import Reals List Bool Arith Lia Lra.
Import ListNotations.
Open Scope R_scope.

Section C.
Context {D : Type}.
Variable minimize : string -> (list R -> R) -> list R -> result (list R * R).
Notation lrt := (@lrt D minimize).

(* maximum likelihood: twice the difference of the largest log-likelihoods *)
Lemma lrt_ratio method k1 k2 h1 h2 t1 t2 d v p : returns_minimum minimize -> lrt method k1 k2 h1 h2 t1 t2 true false d = Ok (v, p) ->
  exists l1 l2, largest (h_like h1 d) l1 /\ largest (h_like h2 d) l2 /\ h_like h1 d p = l1 /\ v = 2 * (l2 - l1).
Proof.
  intros M E. unfold M_calib.lrt, fit_to, bind in E.
  destruct (minimize method (target k1 false true h1 d) t1) as [[p1 v1]|] eqn:E1; [|discriminate].
  destruct (minimize method (target k2 false true h2 d) t2) as [[p2 v2]|] eqn:E2; [|discriminate].
  injection E as <- <-. apply M in E1. apply M in E2. destruct E1 as [-> B1], E2 as [-> B2].
  assert (T : forall k h q, target k false true h d q = - h_like h d q) by (intros [] h q; reflexivity).
  exists (h_like h1 d p1), (h_like h2 d p2). split; [split; [eauto|intro q; specialize (B1 q); rewrite !T in B1; lra]|].
  split; [split; [eauto|intro q; specialize (B2 q); rewrite !T in B2; lra]|]. split; [reflexivity|].
  unfold compute_lrt, deviance_of. cbn [fst snd]. rewrite !T. destruct k1, k2; ring.
Qed.
(* nested hypotheses *)
Lemma lrt_nested method k1 k2 h1 h2 t1 t2 d v p : returns_minimum minimize -> lrt method k1 k2 h1 h2 t1 t2 true false d = Ok (v, p) ->
  (forall q, exists q', h_like h1 d q = h_like h2 d q') -> 0 <= v.
Proof.
  intros M E N. destruct (lrt_ratio method k1 k2 h1 h2 t1 t2 d v p M E) as (l1 & l2 & [[q <-] _] & [_ B] & _ & ->).
  destruct (N q) as [q' ->]. specialize (B q'). lra.
Qed.
(* fits of the posterior: the prior moves the parameters *)
Lemma lrt_posterior method h1 h2 t1 t2 d v p : returns_minimum minimize -> lrt method IsPosterior IsPosterior h1 h2 t1 t2 true true d = Ok (v, p) ->
  exists q, largest (fun x => h_like h1 d x + h_prior h1 x) (h_like h1 d p + h_prior h1 p) /\ largest (fun x => h_like h2 d x + h_prior h2 x) (h_like h2 d q + h_prior h2 q) /\
    v = 2 * (h_like h2 d q - h_like h1 d p).
Proof.
  intros M E. unfold M_calib.lrt, fit_to, bind in E.
  destruct (minimize method (target IsPosterior true true h1 d) t1) as [[p1 v1]|] eqn:E1; [|discriminate].
  destruct (minimize method (target IsPosterior true true h2 d) t2) as [[p2 v2]|] eqn:E2; [|discriminate].
  injection E as <- <-. apply M in E1. apply M in E2. destruct E1 as [-> B1], E2 as [-> B2]. unfold target in B1, B2.
  exists p2. split; [split; [eauto|intro q; specialize (B1 q); cbn in B1; lra]|]. split; [split; [eauto|intro q; specialize (B2 q); cbn in B2; lra]|].
  unfold compute_lrt, deviance_of. cbn [fst snd]. ring.
Qed.

Variable choose : nat -> nat -> list nat.
Variable mvn : list R -> nat -> list (list R).
Variable mcmc : list R -> list (list R).
Variable generate : list R -> D.
Variable outlier : D -> list R -> R.
Notation calibrate_lrt := (calibrate_lrt minimize choose mvn mcmc generate).
Notation calibrate_highest_outlier := (calibrate_highest_outlier minimize choose mvn mcmc generate outlier).

Lemma simulated method k h1 h2 t1 t2 max_post s_all sims : (max_post = true <-> k = IsPosterior) ->
  Forall2 (fun s v => exists p, lrt method k k h1 h2 t1 t2 true max_post (generate s) = Ok (v, p)) s_all sims ->
  simulate_lrts minimize generate method k k h1 h2 t1 t2 s_all = Ok sims.
Proof.
  intros K F. unfold simulate_lrts. assert (kind_eqb k k = true) as -> by (destruct k; reflexivity). cbn [negb].
  apply simulate_ok. assert (E : match k with IsPosterior => true | IsLikelihood => false end = max_post).
  { destruct k, max_post; try reflexivity; [destruct K as [_ K]; rewrite (K eq_refl); reflexivity|destruct K as [K _]; discriminate (K eq_refl)]. }
  rewrite E. clear -F. induction F as [|s v s_all sims [p H] F IH]; constructor; [|exact IH]. unfold bind. rewrite H. reflexivity.
Qed.
(* the observed and the simulated ratios are found in the same way *)
Lemma calibrated method k h1 h2 t1 t2 d max_post nsim sample obs p s_all sims n : (max_post = true <-> k = IsPosterior) ->
  lrt method k k h1 h2 t1 t2 true max_post d = Ok (obs, p) ->
  match sample with Some s => pick choose s nsim = Ok s_all | None => if max_post then pick choose (mcmc p) nsim = Ok s_all else gaussian_draws mvn (h_npar h1) nsim p = Ok s_all end ->
  Forall2 (fun s v => exists p, lrt method k k h1 h2 t1 t2 true max_post (generate s) = Ok (v, p)) s_all sims -> sims <> [] -> above obs sims n ->
  calibrate_lrt method k k h1 h2 t1 t2 d sample true max_post nsim = Ok (INR n / INR (List.length sims)).
Proof.
  intros K O P F N A. unfold M_calib.calibrate_lrt, bind. rewrite O. cbn [fst snd].
  assert (Q : match sample with Some s => pick choose s nsim | None => if max_post then pick choose (mcmc p) nsim else gaussian_draws mvn (h_npar h1) nsim p end = Ok s_all) by (destruct sample; [exact P|destruct max_post; exact P]).
  rewrite Q. rewrite (simulated method k h1 h2 t1 t2 max_post s_all sims K F). apply pvalue_above; assumption.
Qed.
(* the sample decides how many simulations are possible *)
Lemma pick_short s nsim : (List.length s < nsim)%nat -> pick choose s nsim = Err ValueError.
Proof. intro H. unfold pick. apply Nat.ltb_lt in H. rewrite H. reflexivity. Qed.
Lemma pick_members s nsim : (nsim <= List.length s)%nat -> (forall i, In i (choose (List.length s) nsim) -> (i < List.length s)%nat) ->
  List.length (choose (List.length s) nsim) = nsim ->
  exists l, pick choose s nsim = Ok l /\ List.length l = nsim /\ forall x, In x l -> In x s.
Proof.
  intros H I L. unfold pick. replace (Nat.ltb (List.length s) nsim) with false by (symmetry; apply Nat.ltb_ge; exact H).
  eexists. split; [reflexivity|]. split; [rewrite map_length; exact L|]. intros x X. apply in_map_iff in X. destruct X as (i & <- & X). apply nth_In, I, X.
Qed.
Lemma calibrate_short method k h1 h2 t1 t2 d s neg max_post nsim r : lrt method k k h1 h2 t1 t2 neg max_post d = Ok r -> (List.length s < nsim)%nat ->
  calibrate_lrt method k k h1 h2 t1 t2 d (Some s) neg max_post nsim = Err ValueError.
Proof. intros O H. unfold M_calib.calibrate_lrt, bind. rewrite O, pick_short by exact H. reflexivity. Qed.
Lemma calibrate_one method k h1 h2 t1 t2 d neg r : lrt method k k h1 h2 t1 t2 neg false d = Ok r -> h_npar h1 <> 1%nat ->
  calibrate_lrt method k k h1 h2 t1 t2 d None neg false 1 = Err TypeError.
Proof.
  intros O H. unfold M_calib.calibrate_lrt, bind. rewrite O. unfold gaussian_draws. apply Nat.eqb_neq in H. rewrite H. reflexivity.
Qed.
Lemma calibrate_classes method k1 k2 h1 h2 t1 t2 d sample neg max_post nsim r s_all : k1 <> k2 -> lrt method k1 k2 h1 h2 t1 t2 neg max_post d = Ok r ->
  match sample with Some s => pick choose s nsim = Ok s_all | None => if max_post then pick choose (mcmc (snd r)) nsim = Ok s_all else gaussian_draws mvn (h_npar h1) nsim (snd r) = Ok s_all end ->
  calibrate_lrt method k1 k2 h1 h2 t1 t2 d sample neg max_post nsim = Err AssertionError.
Proof.
  intros K O P. unfold M_calib.calibrate_lrt, bind. rewrite O.
  assert (Q : match sample with Some s => pick choose s nsim | None => if max_post then pick choose (mcmc (snd r)) nsim else gaussian_draws mvn (h_npar h1) nsim (snd r) end = Ok s_all) by (destruct sample; [exact P|destruct max_post; exact P]).
  rewrite Q. unfold simulate_lrts. destruct k1, k2; try congruence; reflexivity.
Qed.

(* outliers *)
Lemma outlier_calibrated h t0 d k max_post nsim sample p v s_all sims n : (max_post = true <-> k = IsPosterior) ->
  fit_to minimize "BFGS" k max_post true h d t0 = Ok (p, v) ->
  (if max_post then pick choose (match sample with Some s => s | None => mcmc p end) nsim = Ok s_all else gaussian_draws mvn (h_npar h) nsim p = Ok s_all) ->
  Forall2 (fun s x => exists q w, fit_to minimize "BFGS" k max_post true h (generate s) t0 = Ok (q, w) /\ x = outlier (generate s) q) s_all sims -> sims <> [] -> above (outlier d p) sims n ->
  calibrate_highest_outlier "BFGS" max_post k h t0 d sample max_post nsim = Ok (INR n / INR (List.length sims)).
Proof.
  intros K O P F N A. unfold M_calib.calibrate_highest_outlier, bind. rewrite O. cbn [fst].
  assert (Q : (if max_post then pick choose (match sample with Some s => s | None => mcmc p end) nsim else gaussian_draws mvn (h_npar h) nsim p) = Ok s_all) by (destruct max_post; exact P).
  rewrite Q. assert (S0 : simulate_highest_outlier minimize generate outlier k h t0 max_post s_all = Ok sims).
  { apply simulate_ok. assert (E : (if max_post then IsPosterior else IsLikelihood) = k).
    { destruct k, max_post; try reflexivity; [destruct K as [_ K]; discriminate (K eq_refl)|destruct K as [K _]; discriminate (K eq_refl)]. }
    rewrite E. assert (C : (max_post && kind_eqb k IsLikelihood)%bool = false) by (destruct k, max_post; try reflexivity; discriminate E). rewrite C.
    clear -F. induction F as [|s x s_all sims (q & w & H & ->) F IH]; constructor; [|exact IH]. unfold bind. rewrite H. reflexivity. }
  rewrite S0. apply pvalue_above; assumption.
Qed.
(* a maximum likelihood calibration does not look at the sample *)
Lemma outlier_sample method smp k h t0 d s s' nsim : calibrate_highest_outlier method smp k h t0 d s false nsim = calibrate_highest_outlier method smp k h t0 d s' false nsim.
Proof. reflexivity. Qed.
Lemma outlier_likelihood method smp h t0 d sample nsim r s s_all : fit_to minimize method IsLikelihood smp true h d t0 = Ok r ->
  pick choose (match sample with Some x => x | None => mcmc (fst r) end) nsim = Ok (s :: s_all) ->
  calibrate_highest_outlier method smp IsLikelihood h t0 d sample true nsim = Err AttributeError.
Proof. intros O P. unfold M_calib.calibrate_highest_outlier, bind. rewrite O, P. reflexivity. Qed.
End C.

Lemma pow2_gt_0 x : x <> 0 -> 0 < x ^ 2.
Proof. intro H. pose proof (Rlt_0_sqr x H) as P. unfold Rsqr in P. simpl. lra. Qed.
(* witnesses: data and one parameter are numbers *)
Definition near (a : R) (p : list R) : R := match p with [x] => - (x - a) ^ 2 | _ => - 1000 end.
Definition w_pull : hypothesis R := mkHyp (fun d => near d) (near 4) 1.
Definition w_free : hypothesis R := mkHyp (fun d => near d) (fun _ => 0) 1.
Definition w_choose (n nsim : nat) : list nat := seq 0 nsim.
Lemma near_ml h k : (h = w_pull \/ h = w_free) -> forall q, q <> [2] -> target k false true h 2 [2] < target k false true h 2 q.
Proof.
  assert (G : forall q, q <> [2] -> - near 2 [2] < - near 2 q).
  { intros q N. unfold near. destruct q as [|x [|]]; try lra. assert (x <> 2) by congruence. assert (0 < (x - 2) ^ 2) by (apply pow2_gt_0; lra). lra. }
  intros [-> | ->] q N; destruct k; exact (G q N).
Qed.
Lemma near_map q : q <> [3] -> target IsPosterior true true w_pull 2 [3] < target IsPosterior true true w_pull 2 q.
Proof.
  intro N. unfold target, w_pull, h_like, h_prior, near. destruct q as [|x [|]]; try lra. assert (x <> 3) by congruence. assert (0 < (x - 3) ^ 2) by (apply pow2_gt_0; lra). nra.
Qed.
Lemma free_map q : q <> [2] -> target IsPosterior true true w_free 2 [2] < target IsPosterior true true w_free 2 q.
Proof.
  intro N. unfold target, w_free, h_like, h_prior, near. destruct q as [|x [|]]; try lra. assert (x <> 2) by congruence. assert (0 < (x - 2) ^ 2) by (apply pow2_gt_0; lra). lra.
Qed.
(* a minimizer that is right for these functions *)
Definition w_min (method : string) (f : list R -> R) (t : list R) : result (list R * R) := if Rlt_dec (f [3]) (f [2]) then Ok ([3], f [3]) else Ok ([2], f [2]).
Lemma w_min_right method f t p : p = [2] \/ p = [3] -> (forall q, q <> p -> f p < f q) -> w_min method f t = Ok (p, f p).
Proof.
  assert (N : [2] <> [3]) by (intro E; injection E; lra). intros [-> | ->] H; unfold w_min.
  - specialize (H [3] (fun e => N (eq_sym e))). destruct (Rlt_dec (f [3]) (f [2])); [lra|reflexivity].
  - specialize (H [2] N). destruct (Rlt_dec (f [3]) (f [2])); [reflexivity|lra].
Qed.
Lemma w_targets k mp h : h = w_pull \/ h = w_free -> exists p, (p = [2] \/ p = [3]) /\ forall q, q <> p -> target k mp true h 2 p < target k mp true h 2 q.
Proof.
  intro H. destruct mp.
  - destruct k.
    + destruct H as [-> | ->]; [exists [3]; split; [now right|exact near_map]|exists [2]; split; [now left|exact free_map]].
    + exists [2]. split; [now left|]. exact (near_ml h IsLikelihood H).
  - exists [2]. split; [now left|]. apply near_ml, H.
Qed.
Lemma w_fitted method k mp h t : h = w_pull \/ h = w_free -> fitted w_min method (target k mp true h 2) t.
Proof. intro H. destruct (w_targets k mp h H) as (p & P & Q). exists p. split; [apply w_min_right; assumption|exact Q]. Qed.
(* every simulated data set is the observed one, and all are called more extreme *)
Lemma lrt_mismatch : exists minimize (h1 h2 : hypothesis R) t d sample, (forall k mp, fitted minimize "Powell" (target k mp true h1 d) t /\ fitted minimize "Powell" (target k mp true h2 d) t) /\
  forall mvn mcmc,
  calibrate_lrt minimize w_choose mvn mcmc (fun _ => d) "Powell" IsPosterior IsPosterior h1 h2 t t d (Some sample) true false 1 = Ok 1 /\
  calibrate_lrt minimize w_choose mvn mcmc (fun _ => d) "Powell" IsPosterior IsPosterior h1 h2 t t d (Some sample) true true 1 = Ok 0.
Proof.
  exists w_min, w_pull, w_free, [1], 2, [[2]]. split; [intros k mp; split; apply w_fitted; [left|right]; reflexivity|]. intros mvn mcmc.
  assert (A : forall k, lrt w_min "Powell" k k w_pull w_free [1] [1] true false 2 = Ok (0, [2])).
  { intro k. unfold lrt, fit_to, bind. rewrite (w_min_right _ _ _ _ (or_introl eq_refl) (near_ml w_pull k (or_introl eq_refl))), (w_min_right _ _ _ _ (or_introl eq_refl) (near_ml w_free k (or_intror eq_refl))).
    unfold compute_lrt, deviance_of, target, w_pull, w_free, h_like, near. cbn [fst snd]. f_equal. f_equal. destruct k; ring. }
  assert (B : lrt w_min "Powell" IsPosterior IsPosterior w_pull w_free [1] [1] true true 2 = Ok (2, [3])).
  { unfold lrt, fit_to, bind. rewrite (w_min_right _ _ _ _ (or_intror eq_refl) near_map), (w_min_right _ _ _ _ (or_introl eq_refl) free_map).
    unfold compute_lrt, deviance_of, w_pull, w_free, h_like, near. cbn [fst snd]. f_equal. f_equal. ring. }
  unfold calibrate_lrt, bind. rewrite A, B. cbn [fst snd]. unfold pick, w_choose. cbn [List.length Nat.ltb Nat.leb seq map nth].
  unfold simulate_lrts, simulate. cbn [kind_eqb negb map_result]. unfold bind. rewrite B. cbn [fst].
  unfold compute_pvalue. cbn [filter]. destruct (Rlt_dec 0 2); [|lra]. destruct (Rlt_dec 2 2); [lra|]. cbn. split; f_equal; lra.
Qed.
Lemma outlier_mismatch : exists minimize (h : hypothesis R) t d draw, (forall k mp, fitted minimize "BFGS" (target k mp true h d) t) /\ forall mcmc,
  calibrate_highest_outlier minimize w_choose (fun _ _ => [draw; draw]) mcmc (fun _ => d) (fun d p => d / hd 0 p) "BFGS" true IsPosterior h t d None false 2 = Ok 1 /\
  calibrate_highest_outlier minimize w_choose (fun _ _ => [draw; draw]) mcmc (fun _ => d) (fun d p => d / hd 0 p) "BFGS" false IsPosterior h t d None false 2 = Ok 0.
Proof.
  exists w_min, w_pull, [1], 2, [2]. split; [intros k mp; apply w_fitted; left; reflexivity|]. intro mcmc.
  assert (A : forall k, fit_to w_min "BFGS" k false true w_pull 2 [1] = Ok ([2], target k false true w_pull 2 [2])) by (intro k; apply w_min_right; [now left|apply near_ml; left; reflexivity]).
  assert (B : fit_to w_min "BFGS" IsPosterior true true w_pull 2 [1] = Ok ([3], target IsPosterior true true w_pull 2 [3])) by (apply w_min_right; [now right|exact near_map]).
  unfold calibrate_highest_outlier, bind. rewrite (A IsPosterior), B. cbn [fst hd]. unfold gaussian_draws. cbn [w_pull h_npar Nat.eqb negb andb].
  unfold simulate_highest_outlier, simulate. cbn [andb map_result]. unfold bind. fold w_pull. rewrite (A IsLikelihood). cbn [fst hd].
  unfold compute_pvalue. cbn [filter]. destruct (Rlt_dec (2 / 3) (2 / 2)); [|lra]. destruct (Rlt_dec (2 / 2) (2 / 2)); [lra|]. cbn. split; f_equal; lra.
Qed.
(* a method of the object that is not used for the simulations *)
Lemma outlier_method : exists minimize (h : hypothesis R) t d draw method, forall mcmc,
  calibrate_highest_outlier minimize w_choose (fun _ _ => [draw; draw]) mcmc (fun _ => d) (fun d p => d / hd 0 p) method false IsLikelihood h t d None false 2 = Ok 1 /\
  exists p v q w, fit_to minimize method IsLikelihood false true h d t = Ok (p, v) /\ fit_to minimize "BFGS" IsLikelihood false true h d t = Ok (q, w) /\ p <> q.
Proof.
  exists (fun meth f t => if String.eqb meth "BFGS" then Ok ([2], f [2]) else Ok (t, f t)), w_free, [3], 2, [2], "Powell"%string. intro mcmc. split.
  - unfold calibrate_highest_outlier, fit_to, bind. cbn [String.eqb Ascii.eqb Bool.eqb fst hd]. unfold gaussian_draws. cbn [w_free h_npar Nat.eqb negb andb].
    unfold simulate_highest_outlier, simulate. cbn [andb map_result]. unfold bind, fit_to. cbn [String.eqb Ascii.eqb Bool.eqb fst hd].
    unfold compute_pvalue. cbn [filter]. destruct (Rlt_dec (2 / 3) (2 / 2)); [|lra]. cbn. f_equal. lra.
  - do 4 eexists. unfold fit_to. cbn [String.eqb Ascii.eqb Bool.eqb]. split; [reflexivity|]. split; [reflexivity|]. intro E. injection E. lra.
Qed.

(* the inverse of a negative definite matrix has a negative diagonal *)
Lemma inverse_diagonal n A B i : negative_definite n A -> (forall i j, (i < n)%nat -> (j < n)%nat -> rs n (fun k => A i k * B k j) = identity i j) ->
  (i < n)%nat -> B i i < 0.
Proof.
  intros N I Hi.
  assert (E : rs n (fun a => B a i * rs n (fun b => A a b * B b i)) = B i i).
  { rewrite (rs_ext n _ (fun a => B a i * identity a i)) by (intros a Ha; rewrite I by assumption; reflexivity).
    rewrite (rs_delta n i); [unfold identity; rewrite Nat.eqb_refl; ring|exact Hi|].
    intros a _ D. unfold identity. apply Nat.eqb_neq in D. rewrite D. ring. }
  rewrite <- E. apply (N (fun a => B a i)).
  destruct (Req_dec (rs n (fun a => B a i ^ 2)) 0) as [Z|Z].
  - exfalso. pose proof (I i i Hi Hi) as K. unfold identity in K. rewrite Nat.eqb_refl, rs_zero in K; [lra|]. intros k Hk.
    assert (P : forall m, (forall j, (j < m)%nat -> 0 <= B j i ^ 2) -> rs m (fun a => B a i ^ 2) = 0 -> forall j, (j < m)%nat -> B j i ^ 2 = 0).
    { induction m; intros P0 S0 j Hj; [lia|]. rewrite rs_S in S0.
      assert (0 <= rs m (fun a => B a i ^ 2)) by (apply rs_nonneg; intros; apply P0; lia). assert (0 <= B m i ^ 2) by (apply P0; lia).
      destruct (Nat.eq_dec j m) as [->|D]; [lra|]. apply IHm; [intros; apply P0; lia|lra|lia]. }
    pose proof (P n (fun j _ => pow2_ge_0 _) Z k Hk) as Q. destruct (Req_dec (B k i) 0) as [->|D]; [ring|]. apply pow2_gt_0 in D. lra.
  - assert (P : forall m, rs m (fun a => B a i ^ 2) <> 0 -> exists j, (j < m)%nat /\ B j i <> 0).
    { induction m; intro S0; [rewrite rs_0 in S0; congruence|]. destruct (Req_dec (B m i) 0) as [D|D]; [|exists m; split; [lia|exact D]].
      destruct IHm as (j & J & K); [rewrite rs_S, D in S0; intro X; apply S0; rewrite X; ring|]. exists j. split; [lia|exact K]. }
    exact (P n Z).
Qed.
Lemma covariance_sign n inv phess i : exact_inverse inv -> invertible n phess -> negative_definite n phess -> (i < n)%nat ->
  exists c errs, compute_covariance n inv true None phess = Some (c, errs) /\ c i i < 0 /\ nth_error errs i = Some (Some (sqrt (- c i i))).
Proof.
  intros X Y N Hi. do 2 eexists. split; [reflexivity|]. assert (C : inv n phess i i < 0) by (apply (inverse_diagonal n phess); [exact N|apply X, Y|exact Hi]).
  split; [exact C|]. rewrite nth_error_map. replace (nth_error (seq 0 n) i) with (Some i).
  - cbn [option_map]. f_equal. rewrite Rabs_left by exact C. unfold fsqrt. destruct (Rle_dec 0 (- inv n phess i i)); [reflexivity|lra].
  - symmetry. rewrite (nth_error_nth' _ 0%nat) by (rewrite seq_length; exact Hi). rewrite seq_nth by exact Hi. reflexivity.
Qed.
Lemma covariance_given n inv comp c phess : exists errs, compute_covariance n inv comp (Some c) phess = Some (c, errs) /\
  forall i, (i < n)%nat -> 0 <= c i i -> nth_error errs i = Some (Some (sqrt (c i i))).
Proof.
  eexists. split; [reflexivity|]. intros i Hi C. rewrite nth_error_map. replace (nth_error (seq 0 n) i) with (Some i).
  - cbn [option_map]. f_equal. unfold fsqrt. destruct (Rle_dec 0 (c i i)); [reflexivity|lra].
  - symmetry. rewrite (nth_error_nth' _ 0%nat) by (rewrite seq_length; exact Hi). rewrite seq_nth by exact Hi. reflexivity.
Qed.
Lemma covariance_absent n inv phess : compute_covariance n inv false None phess = None.
Proof. reflexivity. Qed.
(* one parameter, log-posterior - (x - 2)^2 / (2 9): variance 9 *)
Lemma covariance_refuted : exists f m s, 0 < s /\ (forall x, f x = - (x - m) ^ 2 / (2 * s ^ 2)) /\ exists phess, (forall x, derivable_pt_lim (fun y => - (y - m) / s ^ 2) x phess) /\
  (forall x, derivable_pt_lim f x (- (x - m) / s ^ 2)) /\
  forall inv, exact_inverse inv -> exists c errs, compute_covariance 1 inv true None (fun _ _ => phess) = Some (c, errs) /\ c 0%nat 0%nat = - s ^ 2.
Proof.
  exists (fun x => - (x - 2) ^ 2 / (2 * 3 ^ 2)), 2, 3. split; [lra|]. split; [reflexivity|]. exists (- 1 / 3 ^ 2). split; [|split].
  - intro x. assert (D : derivable_pt_lim (mult_real_fct (- 1 / 3 ^ 2) (fun y => y - 2)) x (- 1 / 3 ^ 2 * (1 - 0))).
    { apply derivable_pt_lim_scal. apply (derivable_pt_lim_minus id (fct_cte 2)); [apply derivable_pt_lim_id|apply derivable_pt_lim_const]. }
    rewrite Rminus_0_r, Rmult_1_r in D. eapply derivable_pt_lim_ext; [|exact D]. intro y. unfold mult_real_fct. field.
  - intro x. assert (A : derivable_pt_lim (fun y => y - 2) x (1 - 0)) by (apply (derivable_pt_lim_minus id (fct_cte 2)); [apply derivable_pt_lim_id|apply derivable_pt_lim_const]).
    pose proof (derivable_pt_lim_scal _ (- 1 / 18) _ _ (derivable_pt_lim_mult _ _ _ _ _ A A)) as D. eapply derivable_pt_lim_ext in D; [|intro y; unfold mult_real_fct, mult_fct; reflexivity].
    replace (- (x - 2) / 3 ^ 2) with (- 1 / 18 * ((1 - 0) * (x - 2) + (x - 2) * (1 - 0))) by field. eapply derivable_pt_lim_ext; [|exact D]. intro y. cbv beta. field.
  - intros inv X. do 2 eexists. split; [reflexivity|]. pose proof (X 1%nat (fun _ _ => - 1 / 3 ^ 2)) as I.
    assert (K : rs 1 (fun k => - 1 / 3 ^ 2 * inv 1%nat (fun _ _ => - 1 / 3 ^ 2) k 0%nat) = identity 0 0).
    { apply I; [|lia|lia]. exists (fun _ _ => - 3 ^ 2). intros i j Hi Hj. assert (i = 0%nat) as -> by lia. assert (j = 0%nat) as -> by lia. rewrite rs_S, rs_0. unfold identity. cbn [Nat.eqb]. field. }
    rewrite rs_S, rs_0 in K. unfold identity in K. cbn [Nat.eqb] in K. lra.
Qed.
Lemma draws_all (mvn : list R -> nat -> list (list R)) npar nsim p l : (forall p n, List.length (mvn p n) = n) -> gaussian_draws mvn npar nsim p = Ok l -> List.length l = nsim.
Proof. intros H. unfold gaussian_draws. destruct (_ && _)%bool; [discriminate|]. intros E. injection E as <-. apply H. Qed.
