(* M_parest.v: model of stingray/modeling/parameterestimation.py around the optimizer and the sampler, which are parameters.
   Floats are exact reals, None stands for a value that is not finite. *)
From Coq Require Import String.
From Verif Require Import Np M_utils Cplx M_posterior.
From Coq Require Import Reals List Bool Arith.
Import ListNotations.
Open Scope R_scope.

(* parameterestimation.py:210-241 _compute_criteria: deviance, aic, bic.  loglikelihood is the one of a Posterior; nx = lpost.x.shape[0] *)
Inductive objective := OfPosterior (loglikelihood : list R -> bool -> result R) | OfLogLikelihood.
Definition compute_criteria (lpost : objective) (res : R) (p_opt : list R) (nx : nat) : result (R * R * option R) :=
  let! deviance := (match lpost with
                    | OfPosterior like => let! l := like p_opt false in Ok (- 2 * l)
                    | OfLogLikelihood => Ok (2 * res)
                    end) in
  let k := INR (List.length p_opt) in
  Ok (deviance, res + 2 * k, oadd (Some res) (omul (Some k) (olog (Some (INR nx))))).

(* parameterestimation.py:244-265 _compute_statistics: merit, dof, sexp, ssd, sobs; the number of x is the number of y *)
Record statistics := mkStat { s_merit : option R; s_dof : R; s_sexp : R; s_ssd : R; s_sobs : R }.
Definition compute_statistics (y mfit p_opt : list R) : statistics :=
  let sexp := 2 * INR (List.length y) * INR (List.length p_opt) in
  mkStat (osum (map (fun q => option_map (fun r => r ^ 2) (odiv (Some (fst q - snd q)) (Some (snd q)))) (combine y mfit)))
         (INR (List.length y) - INR (List.length p_opt)) sexp (sqrt (2 * sexp))
         (rlsum (map (fun q => fst q - snd q) (combine y mfit))).

(* parameterestimation.py:415-522, the loop of fit: outcome i is opt.fun of the i-th run of the optimizer.  The result is the number of
   the run that is kept. *)
Definition retry (funcval : option R) : bool :=
  match funcval with
  | None => true
  | Some v => if Req_EM_T v 100 then true else if Req_EM_T v 200 then true else if Req_EM_T v 0 then true else false
  end.
Definition funcval_of (opt_fun : option R) : option R :=
  match opt_fun with Some v => if (close_to v logmin || close_to v (2 * logmin))%bool then Some 100 else Some v | None => None end.
Fixpoint fit_loop (outcome : nat -> option R) (fuel i : nat) (funcval : option R) : result nat :=
  if retry funcval then
    if Nat.ltb 20 i then Err RuntimeError
    else match fuel with O => Err OutOfFuel | S fuel' => fit_loop outcome fuel' (S i) (funcval_of (outcome i)) end
  else Ok (i - 1)%nat.
(* parameterestimation.py:403-406: lpost.npar against the length of t0 *)
Definition fit (npar : nat) (t0 : list R) (outcome : nat -> option R) : result nat :=
  if negb (Nat.eqb (List.length t0) npar) then Err ValueError else fit_loop outcome 22 0 (Some 100).
(* parameterestimation.py:424-443: whether the bounds are passed to the optimizer *)
Definition bounded_methods : list string := ["L-BFGS-B"; "TNC"; "SLSQP"]%string.
Definition any_bound (bounds : list (option R * option R)) : bool :=
  existsb (fun b => match b with (None, None) => false | _ => true end) bounds.
Definition use_bounds (fitmethod : string) (bounds : list (option R * option R)) : bool :=
  if (any_bound bounds || negb (existsb (String.eqb fitmethod) bounded_methods))%bool then false else true.

(* parameterestimation.py:528-576 compute_lrt, from the two deviances *)
Definition compute_lrt (deviance1 deviance2 : R) : R := deviance1 - deviance2.
(* parameterestimation.py:749-778 _compute_pvalue *)
Definition compute_pvalue (obs_val : R) (sim : list R) : result R :=
  let ntail := List.length (filter (fun s => if Rlt_dec obs_val s then true else false) sim) in
  match sim with [] => Err ZeroDivisionError | _ => Ok (INR ntail / INR (List.length sim)) end.
(* parameterestimation.py:1470-1510, the loop of simulate_lrts (and 1698-1727 of simulate_highest_outlier): values start at 0 and a
   RuntimeError of a fit leaves them *)
Definition simulate {A} (statistic : A -> result R) (s_all : list A) : result (list R) :=
  map_result (fun s => match statistic s with Ok v => Ok v | Err RuntimeError => Ok 0 | Err e => Err e end) s_all.

(* np.sort *)
Fixpoint rinsert (a : R) (l : list R) : list R :=
  match l with [] => [a] | b :: l' => if Rle_dec a b then a :: l else b :: rinsert a l' end.
Definition rsort (l : list R) : list R := fold_right rinsert [] l.
(* l[-n:] *)
Definition last_n {A} (l : list A) (n : nat) : list A := if Nat.eqb n 0 then l else skipn (List.length l - n) l.
(* parameterestimation.py:1783-1808 _find_outlier *)
Fixpoint index_of (v : R) (l : list R) : option nat :=
  match l with [] => None | a :: l' => if Req_EM_T a v then Some 0%nat else option_map S (index_of v l') end.
Definition find_outlier (xdata ratio : list R) (max_y : R) : result (R * nat) :=
  match index_of max_y ratio with None => Err IndexError | Some i => let! x := get xdata i in Ok (x, i) end.
(* parameterestimation.py:1729-1781 _compute_highest_outlier; the model is not 0 *)
Definition compute_highest_outlier (x y mfit : list R) (nmax : nat) : result (list R * list (R * nat)) :=
  let residuals := map (fun q => 2 * fst q / snd q) (combine y mfit) in
  let max_y := last_n (rsort residuals) nmax in
  let! found := map_result (find_outlier x residuals) max_y in
  Ok (max_y, found).

(* parameterestimation.py:999-1001, 1041-1074 _compute_rhat, for one parameter: chain has self.nwalkers rows of self.niter values; all finite.
   (emcee returns the steps along the first axis and the walkers along the second: what is called nwalkers in 1000 is the number of
   steps.) *)
Definition rmean (l : list R) : R := rlsum l / INR (List.length l).
Definition rvar (l : list R) : R := rmean (map (fun v => (v - rmean l) ^ 2) l).
Definition compute_rhat (niter : nat) (chain : list (list R)) : R :=
  let nwalkers := INR (List.length chain) in
  let n := INR niter in
  let mean_samples_iter := map rmean chain in
  let mean_samples := rmean (concat chain) in
  let bb := n / (nwalkers - 1) * rlsum (map (fun m => (m - mean_samples) ^ 2) mean_samples_iter) in
  let ww := rmean (map rvar chain) in
  (n - 1) / n * ww + 1 / n * bb.
(* parameterestimation.py:1385-1422 _generate_data: chisq are draws of a chi-square variable with 2 m degrees of freedom *)
Definition generate_data (m : R) (model_spectrum chisq : list R) : list R :=
  map (fun q => fst q * snd q / (2 * m)) (combine model_spectrum chisq).
