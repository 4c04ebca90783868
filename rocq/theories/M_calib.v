(* M_calib.v: model of the calibration of likelihood ratios and outliers with simulations, stingray/modeling/parameterestimation.py. *)
From Coq Require Import String.
From Verif Require Import Np M_utils Cplx M_exvar M_parest.
From Coq Require Import Reals List Bool Arith.
Import ListNotations.
Open Scope R_scope.

(* Objects of the subclasses of Posterior and of LogLikelihood for data D: the log-likelihood, the log-prior (of a posterior) and the
   number of parameters.  Values are finite. *)
Inductive kind := IsPosterior | IsLikelihood.
Definition kind_eqb (a b : kind) : bool := match a, b with IsPosterior, IsPosterior | IsLikelihood, IsLikelihood => true | _, _ => false end.
Record hypothesis (D : Type) := mkHyp { h_like : D -> list R -> R; h_prior : list R -> R; h_npar : nat }.
Arguments h_like {D}. Arguments h_prior {D}. Arguments h_npar {D}. Arguments mkHyp {D}.

Section Calibrate.
Context {D : Type}.
(* scipy.optimize.minimize with the retries of fit (library, see M_parest): method, function and start to parameters and value *)
Variable minimize : string -> (list R -> R) -> list R -> result (list R * R).

(* parameterestimation.py:445-504: the function that is minimized; neg=False does not change the sign *)
Definition target (k : kind) (max_post neg : bool) (h : hypothesis D) (d : D) (p : list R) : R :=
  let v := match k with
           | IsPosterior => if max_post then h_like h d p + h_prior h p else h_like h d p
           | IsLikelihood => h_like h d p
           end in
  if neg then - v else v.
(* parameterestimation.py:364-526 fit, parameters and value of the function *)
Definition fit_to (method : string) (k : kind) (max_post neg : bool) (h : hypothesis D) (d : D) (t : list R) : result (list R * R) :=
  minimize method (target k max_post neg h d) t.
(* parameterestimation.py:230-233 the deviance *)
Definition deviance_of (k : kind) (h : hypothesis D) (d : D) (r : list R * R) : R :=
  match k with IsPosterior => - 2 * h_like h d (fst r) | IsLikelihood => 2 * snd r end.
(* parameterestimation.py:528-576 compute_lrt: the ratio and the parameters of the first fit *)
Definition lrt (method : string) (k1 k2 : kind) (h1 h2 : hypothesis D) (t1 t2 : list R) (neg max_post : bool) (d : D) : result (R * list R) :=
  let! r1 := fit_to method k1 max_post neg h1 d t1 in
  let! r2 := fit_to method k2 max_post neg h2 d t2 in
  Ok (compute_lrt (deviance_of k1 h1 d r1) (deviance_of k2 h2 d r2), fst r1).

(* rng.choice(n, nsim, replace=False) (library): [choose n nsim] are the indices *)
Variable choose : nat -> nat -> list nat.
Definition pick (sample : list (list R)) (nsim : nat) : result (list (list R)) :=
  if Nat.ltb (List.length sample) nsim then Err ValueError else Ok (map (fun i => nth i sample []) (choose (List.length sample) nsim)).
(* scipy's multivariate_normal.rvs (library): nsim vectors; a single one is not put in a list, so that the loop over the vectors takes
   its numbers one by one and len of a number is a TypeError, unless there is one parameter (lines 881-883) *)
Variable mvn : list R -> nat -> list (list R).
Definition gaussian_draws (npar nsim : nat) (p_opt : list R) : result (list (list R)) :=
  if (Nat.eqb nsim 1 && negb (Nat.eqb npar 1))%bool then Err TypeError else Ok (mvn p_opt nsim).
(* self.sample (library): the samples of the posterior *)
Variable mcmc : list R -> list (list R).
(* parameterestimation.py:1385-1422 _generate_data: a data set for each vector of parameters (see M_parest for the powers) *)
Variable generate : list R -> D.

(* parameterestimation.py:1424-1510 simulate_lrts of PSDParEst *)
Definition simulate_lrts (method : string) (k1 k2 : kind) (h1 h2 : hypothesis D) (t1 t2 : list R) (s_all : list (list R)) : result (list R) :=
  if negb (kind_eqb k1 k2) then Err AssertionError
  else
    let max_post := match k1 with IsLikelihood => false | IsPosterior => true end in
    simulate (fun s => let! r := lrt method k1 k2 h1 h2 t1 t2 true max_post (generate s) in Ok (fst r)) s_all.
(* parameterestimation.py:792-912 calibrate_lrt of PSDParEst; sample is an array of vectors of parameters *)
Definition calibrate_lrt (method : string) (k1 k2 : kind) (h1 h2 : hypothesis D) (t1 t2 : list R) (d : D) (sample : option (list (list R)))
  (neg max_post : bool) (nsim : nat) : result R :=
  let! obs := lrt method k1 k2 h1 h2 t1 t2 neg max_post d in
  let! s_all := match sample with
                | Some s => pick s nsim
                | None => if max_post then pick (mcmc (snd obs)) nsim else gaussian_draws (h_npar h1) nsim (snd obs)
                end in
  let! sim := simulate_lrts method k1 k2 h1 h2 t1 t2 s_all in
  compute_pvalue (fst obs) sim.

(* parameterestimation.py:1729-1781 _compute_highest_outlier (see M_parest): data and parameters to the highest ratio *)
Variable outlier : D -> list R -> R.
(* parameterestimation.py:1650-1727 simulate_highest_outlier: the method is the default of the class; the prior is taken from lpost *)
Definition simulate_highest_outlier (k : kind) (h : hypothesis D) (t0 : list R) (max_post : bool) (s_all : list (list R)) : result (list R) :=
  simulate (fun s =>
    let d := generate s in
    if (max_post && kind_eqb k IsLikelihood)%bool then Err AttributeError
    else
      let! r := fit_to "BFGS" (if max_post then IsPosterior else IsLikelihood) max_post true h d t0 in
      Ok (outlier d (fst r))) s_all.
(* parameterestimation.py:1512-1648 calibrate_highest_outlier; method and self_max_post are attributes of the object, the sample is
   used with max_post only *)
Definition calibrate_highest_outlier (method : string) (self_max_post : bool) (k : kind) (h : hypothesis D) (t0 : list R) (d : D)
  (sample : option (list (list R))) (max_post : bool) (nsim : nat) : result R :=
  let! r := fit_to method k self_max_post true h d t0 in
  let out_high := outlier d (fst r) in
  let! s_all := if max_post then pick (match sample with Some s => s | None => mcmc (fst r) end) nsim
                else gaussian_draws (h_npar h) nsim (fst r) in
  let! sim := simulate_highest_outlier k h t0 max_post s_all in
  compute_pvalue out_high sim.
End Calibrate.

(* parameterestimation.py:155-194 _compute_covariance, n parameters: covariance and errors.  hess_inv is the one of the optimizer, if it
   has one; phess is approx_hess(p_opt, lpost) of statsmodels (library), the second derivatives of lpost, that is of the log-posterior or
   log-likelihood itself (neg=False); inv is np.linalg.inv (library). *)
Definition matrix := nat -> nat -> R.
Definition compute_covariance (n : nat) (inv : nat -> matrix -> matrix) (comp_hessian : bool) (hess_inv : option matrix) (phess : matrix)
  : option (matrix * list (option R)) :=
  match hess_inv with
  | Some c => Some (c, map (fun i => fsqrt (c i i)) (seq 0 n))
  | None => if comp_hessian then let c := inv n phess in Some (c, map (fun i => fsqrt (Rabs (c i i))) (seq 0 n)) else None
  end.
