(* M_gp.v: model of the Gaussian process modelling of light curves, stingray/modeling/gpmodeling.py. *)
From Verif Require Import Np Cplx.
From Coq Require Import Reals List Arith Bool String Lia Lra.
Import ListNotations.
Open Scope R_scope.
Local Open Scope string_scope.

(* Dictionaries of parameters are association lists; jax, tinygp and jaxns are taken to be installed.  A kernel parameter is one
   number, a mean parameter a list of numbers, one per flare (jnp.atleast_1d); lists of different lengths are not modelled. *)
Definition dict := list (string * list R).
Fixpoint lookup (k : string) (d : dict) : result (list R) :=
  match d with [] => Err KeyError | (n, v) :: d' => if String.eqb n k then Ok v else lookup k d' end.
Definition scalar (k : string) (d : dict) : result R :=
  let! v := lookup k d in match v with [x] => Ok x | _ => Err TypeError end.

(* gpmodeling.py:43-90 get_kernel: the kernel as a function of the lag.  tinygp (library): quasisep.Exp(scale, sigma) is
   sigma^2 exp(-|lag| / scale), quasisep.Celerite(a, b, c, d) is exp(-c |lag|) (a cos(d |lag|) + b sin(d |lag|)). *)
Definition quasisep_exp (scale sigma lag : R) : R := sigma ^ 2 * exp (- Rabs lag / scale).
Definition celerite (a b c d lag : R) : R := exp (- c * Rabs lag) * (a * cos (d * Rabs lag) + b * sin (d * Rabs lag)).
Definition get_kernel (kernel_type : string) (p : dict) : result (R -> R) :=
  let rn := let! crn := scalar "crn" p in let! arn := scalar "arn" p in Ok (quasisep_exp (1 / crn) (sqrt arn)) in
  let qpo := let! aqpo := scalar "aqpo" p in let! cqpo := scalar "cqpo" p in let! freq := scalar "freq" p in Ok (celerite aqpo 0 cqpo (2 * PI * freq)) in
  if String.eqb kernel_type "QPO_plus_RN" then let! k1 := rn in let! k2 := qpo in Ok (fun lag => k1 lag + k2 lag)
  else if String.eqb kernel_type "RN" then rn
  else if String.eqb kernel_type "QPO" then qpo
  else Err ValueError.

(* gpmodeling.py:145-345 the shapes of one flare; jnp.exp(-phi * x) where t + delta is zero is not modelled *)
Definition gaussian (A t0 sig t : R) : R := A * exp (- (t - t0) ^ 2 / (2 * sig ^ 2)).
Definition exponential (A t0 sig t : R) : R := A * exp (- Rabs (t - t0) / (2 * sig ^ 2)).
Definition skew_gaussian (A t0 sig1 sig2 t : R) : R :=
  A * (if Rlt_dec t0 t then exp (- (t - t0) ^ 2 / (2 * sig2 ^ 2)) else exp (- (t - t0) ^ 2 / (2 * sig1 ^ 2))).
Definition skew_exponential (A t0 sig1 sig2 t : R) : R :=
  A * (if Rlt_dec t0 t then exp (- (t - t0) / (2 * sig2 ^ 2)) else exp ((t - t0) / (2 * sig1 ^ 2))).
Definition fred (A t0 phi delta t : R) : R := A * exp (- phi * ((t + delta) / t0 + t0 / (t + delta))) * exp (2 * phi).
Definition flares3 (f : R -> R -> R -> R -> R) (a b c : list R) (t : R) : R :=
  rlsum (map (fun p => f (fst (fst p)) (snd (fst p)) (snd p) t) (combine (combine a b) c)).
Definition flares4 (f : R -> R -> R -> R -> R -> R) (a b c d : list R) (t : R) : R :=
  rlsum (map (fun p => f (fst (fst (fst p))) (snd (fst (fst p))) (snd (fst p)) (snd p) t) (combine (combine (combine a b) c) d)).
(* gpmodeling.py:93-142 get_mean, at one time.  The dictionary is read when the mean function is called. *)
Definition get_mean (mean_type : string) (p : dict) (t : R) : result R :=
  let three f := let! A := lookup "A" p in let! t0 := lookup "t0" p in let! sig := lookup "sig" p in Ok (flares3 f A t0 sig t) in
  let four f x y := let! A := lookup "A" p in let! t0 := lookup "t0" p in let! u := lookup x p in let! v := lookup y p in Ok (flares4 f A t0 u v t) in
  if String.eqb mean_type "gaussian" then three gaussian
  else if String.eqb mean_type "exponential" then three exponential
  else if String.eqb mean_type "constant" then (let! A := scalar "A" p in Ok (A * 1))
  else if String.eqb mean_type "skew_gaussian" then four skew_gaussian "sig1" "sig2"
  else if String.eqb mean_type "skew_exponential" then four skew_exponential "sig1" "sig2"
  else if String.eqb mean_type "fred" then four fred "phi" "delta"
  else Err ValueError.

(* gpmodeling.py:348-369 _get_kernel_params *)
Definition get_kernel_params (kernel_type : string) : result (list string) :=
  if String.eqb kernel_type "RN" then Ok ["log_arn"; "log_crn"]
  else if String.eqb kernel_type "QPO_plus_RN" then Ok ["log_arn"; "log_crn"; "log_aqpo"; "log_cqpo"; "log_freq"]
  else if String.eqb kernel_type "QPO" then Ok ["log_aqpo"; "log_cqpo"; "log_freq"]
  else Err ValueError.
(* gpmodeling.py:372-395 _get_mean_params *)
Definition get_mean_params (mean_type : string) : result (list string) :=
  if (String.eqb mean_type "gaussian" || String.eqb mean_type "exponential")%bool then Ok ["log_A"; "t0"; "log_sig"]
  else if String.eqb mean_type "constant" then Ok ["log_A"]
  else if (String.eqb mean_type "skew_gaussian" || String.eqb mean_type "skew_exponential")%bool then Ok ["log_A"; "t0"; "log_sig1"; "log_sig2"]
  else if String.eqb mean_type "fred" then Ok ["log_A"; "t0"; "delta"; "phi"]
  else Err ValueError.
(* gpmodeling.py:398-426 get_gp_params *)
Definition get_gp_params (kernel_type mean_type : string) : result (list string) :=
  let! k := get_kernel_params kernel_type in
  let! m := get_mean_params mean_type in
  Ok (k ++ m)%list.

(* gpmodeling.py:545-550 likelihood_model: the dictionary made of the arguments; later entries replace earlier ones, as does
   assignment to a dictionary.  Too few arguments are an IndexError, further ones are not read. *)
Definition entry (name : string) (v : list R) : string * list R :=
  if String.eqb (substring 0 4 name) "log_" then (substring 4 (String.length name - 4) name, map exp v) else (name, v).
Fixpoint param_dict_from (d : dict) (params : list string) (args : list (list R)) : result dict :=
  match params, args with
  | [], _ => Ok d
  | _ :: _, [] => Err IndexError
  | n :: params', v :: args' => param_dict_from (entry n v :: d) params' args'
  end.
Definition param_dict (params : list string) (args : list (list R)) : result dict := param_dict_from [] params args.
(* gpmodeling.py:544-555 likelihood_model: the kernel and the means given to tinygp.GaussianProcess, whose log_probability (library)
   is the parameter [logp] *)
Fixpoint means (mean_type : string) (p : dict) (times : list R) : result (list R) :=
  match times with [] => Ok [] | t :: ts => let! m := get_mean mean_type p t in let! r := means mean_type p ts in Ok (m :: r) end.
Definition likelihood (logp : (R -> R) -> list R -> list R -> list R -> R) (params : list string) (kernel_type mean_type : string)
    (times counts : list R) (args : list (list R)) : result R :=
  let! d := param_dict params args in
  let! kernel := get_kernel kernel_type d in
  let! mean := means mean_type d times in
  Ok (logp kernel times mean counts).
