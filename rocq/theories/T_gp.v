(* T_gp.v: theorems about Gaussian process modelling, gpmodeling.py. *)
From Verif Require Import Np Cplx M_gp S_gp P_gp.
From Coq Require Import Reals List Arith Bool String Permutation Lia Lra.
Import ListNotations.
Open Scope string_scope.
Open Scope R_scope.

(* ---------- C185: parameters ---------- *)
Theorem C185_distinct : forall kt mt ps,
  get_gp_params kt mt = Ok ps -> NoDup ps /\ forall i j x, (i < List.length ps)%nat -> (j < List.length ps)%nat -> plain (nth i ps "") x -> plain (nth j ps "") x -> i = j.
Proof. exact names_distinct. Qed.
Print Assumptions C185_distinct.
Theorem C185_logarithms : forall kt mt ps args x v,
  get_gp_params kt mt = Ok ps -> List.length args = List.length ps -> In ("log_" ++ x, v) (combine ps args) ->
  exists d, param_dict ps args = Ok d /\ lookup x d = Ok (map exp v).
Proof. exact gp_value_log. Qed.
Print Assumptions C185_logarithms.
Theorem C185_others : forall kt mt ps args x v,
  get_gp_params kt mt = Ok ps -> List.length args = List.length ps -> In (x, v) (combine ps args) -> (forall y, x <> "log_" ++ y) ->
  exists d, param_dict ps args = Ok d /\ lookup x d = Ok v.
Proof. exact gp_value_plain. Qed.
Print Assumptions C185_others.
Theorem C185_complete : forall logp kt mt ps ts cs args,
  get_gp_params kt mt = Ok ps -> List.length args = List.length ps -> (forall v, In v args -> List.length v = 1%nat) ->
  exists l, likelihood logp ps kt mt ts cs args = Ok l.
Proof. exact likelihood_ok. Qed.
Print Assumptions C185_complete.
Theorem C185_order : forall logp kt mt ps args ps' args' ts cs,
  get_gp_params kt mt = Ok ps -> List.length args = List.length ps -> List.length args' = List.length ps' -> Permutation (combine ps args) (combine ps' args') ->
  likelihood logp ps kt mt ts cs args = likelihood logp ps' kt mt ts cs args'.
Proof. exact gp_order. Qed.
Print Assumptions C185_order.
Theorem C185_value : forall logp kt mt ps ts cs args d k,
  param_dict ps args = Ok d -> get_kernel kt d = Ok k -> (forall t, exists m, get_mean mt d t = Ok m) ->
  exists ms, likelihood logp ps kt mt ts cs args = Ok (logp k ts ms cs) /\ List.length ms = List.length ts /\ forall i, (i < List.length ts)%nat -> get_mean mt d (nth i ts 0%R) = Ok (nth i ms 0%R).
Proof. exact likelihood_parts. Qed.
Print Assumptions C185_value.
Theorem C185_types : forall kt mt ps,
  get_gp_params kt mt = Ok ps -> In kt kernels /\ In mt mean_names.
Proof. exact gp_params_ok. Qed.
Print Assumptions C185_types.
Theorem C185_known : forall kt mt,
  In kt kernels -> In mt mean_names -> exists ps, get_gp_params kt mt = Ok ps.
Proof. exact gp_params_exist. Qed.
Print Assumptions C185_known.
Theorem C185_types_error : forall kt mt,
  ~ (In kt kernels /\ In mt mean_names) -> get_gp_params kt mt = Err ValueError.
Proof. exact gp_params_bad. Qed.
Print Assumptions C185_types_error.
Theorem C185_few_error : forall logp ps args kt mt ts cs,
  (List.length args < List.length ps)%nat -> likelihood logp ps kt mt ts cs args = Err IndexError.
Proof. exact likelihood_short. Qed.
Print Assumptions C185_few_error.
Example C185_nonvacuous : get_gp_params "QPO_plus_RN" "gaussian" = Ok ["log_arn"; "log_crn"; "log_aqpo"; "log_cqpo"; "log_freq"; "log_A"; "t0"; "log_sig"]
  /\ get_gp_params "RN" "fred" = Ok ["log_arn"; "log_crn"; "log_A"; "t0"; "delta"; "phi"] /\ get_gp_params "QPO" "skew_exponential" = Ok ["log_aqpo"; "log_cqpo"; "log_freq"; "log_A"; "t0"; "log_sig1"; "log_sig2"].
Proof. repeat split. Qed.

(* ---------- C186: covariances ---------- *)
Theorem C186_red_noise : forall p arn crn,
  scalar "arn" p = Ok arn -> scalar "crn" p = Ok crn -> 0 <= arn -> 0 < crn ->
  exists k, get_kernel "RN" p = Ok k /\ (forall l, k l = arn * exp (- crn * Rabs l)) /\ forall n t, ordered n t -> covariance k n t.
Proof. exact kernel_rn. Qed.
Print Assumptions C186_red_noise.
Theorem C186_qpo : forall p a c f,
  scalar "aqpo" p = Ok a -> scalar "cqpo" p = Ok c -> scalar "freq" p = Ok f -> 0 <= a -> 0 <= c ->
  exists k, get_kernel "QPO" p = Ok k /\ (forall l, k l = a * exp (- c * Rabs l) * cos (2 * PI * f * l)) /\ forall n t, ordered n t -> covariance k n t.
Proof. exact kernel_qpo. Qed.
Print Assumptions C186_qpo.
Theorem C186_sum : forall p arn crn a c f,
  scalar "arn" p = Ok arn -> scalar "crn" p = Ok crn -> scalar "aqpo" p = Ok a -> scalar "cqpo" p = Ok c -> scalar "freq" p = Ok f -> 0 <= arn -> 0 < crn -> 0 <= a -> 0 <= c ->
  exists k, get_kernel "QPO_plus_RN" p = Ok k /\ (forall l, k l = arn * exp (- crn * Rabs l) + a * exp (- c * Rabs l) * cos (2 * PI * f * l)) /\ forall n t, ordered n t -> covariance k n t.
Proof. exact kernel_both. Qed.
Print Assumptions C186_sum.
Theorem C186_other_error : forall k p,
  k <> "RN"%string -> k <> "QPO"%string -> k <> "QPO_plus_RN"%string -> get_kernel k p = Err ValueError.
Proof. exact kernel_other. Qed.
Print Assumptions C186_other_error.
Example C186_nonvacuous : scalar "arn" [("arn", [4]); ("crn", [2])] = Ok 4 /\ ordered 3 INR.
Proof. split; [reflexivity|]. intros i j H. apply le_INR. lia. Qed.

(* ---------- C187: flares ---------- *)
Theorem C187_gaussian : forall p a b c,
  lookup "A" p = Ok a -> lookup "t0" p = Ok b -> lookup "sig" p = Ok c -> List.length b = List.length a -> List.length c = List.length a ->
  forall t, get_mean "gaussian" p t = Ok (rs (List.length a) (fun i => nth i a 0 * exp (- (t - nth i b 0) ^ 2 / (2 * nth i c 0 ^ 2)))).
Proof. exact mean_gaussian. Qed.
Print Assumptions C187_gaussian.
Theorem C187_exponential : forall p a b c,
  lookup "A" p = Ok a -> lookup "t0" p = Ok b -> lookup "sig" p = Ok c -> List.length b = List.length a -> List.length c = List.length a ->
  forall t, get_mean "exponential" p t = Ok (rs (List.length a) (fun i => nth i a 0 * exp (- Rabs (t - nth i b 0) / (2 * nth i c 0 ^ 2)))).
Proof. exact mean_exponential. Qed.
Print Assumptions C187_exponential.
Theorem C187_constant : forall p a,
  lookup "A" p = Ok [a] -> forall t, get_mean "constant" p t = Ok a.
Proof. exact mean_constant. Qed.
Print Assumptions C187_constant.
Theorem C187_skew_gaussian : forall p a b c d,
  lookup "A" p = Ok a -> lookup "t0" p = Ok b -> lookup "sig1" p = Ok c -> lookup "sig2" p = Ok d -> List.length b = List.length a -> List.length c = List.length a -> List.length d = List.length a ->
  forall t, get_mean "skew_gaussian" p t = Ok (rs (List.length a) (fun i => nth i a 0 * (if Rlt_dec (nth i b 0) t then exp (- (t - nth i b 0) ^ 2 / (2 * nth i d 0 ^ 2)) else exp (- (t - nth i b 0) ^ 2 / (2 * nth i c 0 ^ 2))))).
Proof. exact mean_skew_gaussian. Qed.
Print Assumptions C187_skew_gaussian.
Theorem C187_skew_exponential : forall p a b c d,
  lookup "A" p = Ok a -> lookup "t0" p = Ok b -> lookup "sig1" p = Ok c -> lookup "sig2" p = Ok d -> List.length b = List.length a -> List.length c = List.length a -> List.length d = List.length a ->
  forall t, get_mean "skew_exponential" p t = Ok (rs (List.length a) (fun i => nth i a 0 * (if Rlt_dec (nth i b 0) t then exp (- (t - nth i b 0) / (2 * nth i d 0 ^ 2)) else exp ((t - nth i b 0) / (2 * nth i c 0 ^ 2))))).
Proof. exact mean_skew_exponential. Qed.
Print Assumptions C187_skew_exponential.
Theorem C187_fred : forall p a b c d,
  lookup "A" p = Ok a -> lookup "t0" p = Ok b -> lookup "phi" p = Ok c -> lookup "delta" p = Ok d -> List.length b = List.length a -> List.length c = List.length a -> List.length d = List.length a ->
  forall t, get_mean "fred" p t = Ok (rs (List.length a) (fun i => nth i a 0 * exp (- nth i c 0 * ((t + nth i d 0) / nth i b 0 + nth i b 0 / (t + nth i d 0))) * exp (2 * nth i c 0))).
Proof. exact mean_fred. Qed.
Print Assumptions C187_fred.
Theorem C187_other_error : forall mt p t,
  ~ In mt mean_names -> get_mean mt p t = Err ValueError.
Proof. exact mean_other. Qed.
Print Assumptions C187_other_error.
Theorem C187_gaussian_peak : forall A t0 sig,
  0 <= A -> peaks_at (gaussian A t0 sig) t0 A /\ forall t, 0 <= gaussian A t0 sig t.
Proof. exact gaussian_peak. Qed.
Print Assumptions C187_gaussian_peak.
Theorem C187_exponential_peak : forall A t0 sig,
  0 <= A -> peaks_at (exponential A t0 sig) t0 A /\ forall t, 0 <= exponential A t0 sig t.
Proof. exact exponential_peak. Qed.
Print Assumptions C187_exponential_peak.
Theorem C187_skew_gaussian_peak : forall A t0 s1 s2,
  0 <= A -> peaks_at (skew_gaussian A t0 s1 s2) t0 A /\ forall t, 0 <= skew_gaussian A t0 s1 s2 t.
Proof. exact skew_gaussian_peak. Qed.
Print Assumptions C187_skew_gaussian_peak.
Theorem C187_skew_exponential_peak : forall A t0 s1 s2,
  0 <= A -> peaks_at (skew_exponential A t0 s1 s2) t0 A /\ forall t, 0 <= skew_exponential A t0 s1 s2 t.
Proof. exact skew_exponential_peak. Qed.
Print Assumptions C187_skew_exponential_peak.
Theorem C187_skew_gaussian_same : forall A t0 s t,
  skew_gaussian A t0 s s t = gaussian A t0 s t.
Proof. exact skew_gaussian_same. Qed.
Print Assumptions C187_skew_gaussian_same.
Theorem C187_skew_exponential_same : forall A t0 s t,
  skew_exponential A t0 s s t = exponential A t0 s t.
Proof. exact skew_exponential_same. Qed.
Print Assumptions C187_skew_exponential_same.
Theorem C187_fred_peak : forall A t0 phi delta t,
  0 <= A -> 0 < t0 -> 0 <= phi -> 0 < t + delta -> 0 <= fred A t0 phi delta t <= A /\ fred A t0 phi delta (t0 - delta) = A.
Proof. exact fred_peak. Qed.
Print Assumptions C187_fred_peak.
Theorem C187_fred_only : forall A t0 phi delta t,
  0 < A -> 0 < t0 -> 0 < phi -> 0 < t + delta -> fred A t0 phi delta t = A -> t = t0 - delta.
Proof. exact fred_only. Qed.
Print Assumptions C187_fred_only.
Theorem C187_fred_before_error : forall A t0 phi delta t,
  0 < A -> 0 < t0 -> 0 <= phi -> t + delta < 0 -> A * exp (4 * phi) <= fred A t0 phi delta t.
Proof. exact fred_before. Qed.
Print Assumptions C187_fred_before_error.
(* the documentation calls t0 the location of the maximum; it is t0 - delta *)
Theorem C187_fred_maximum_refuted : 
  exists A t0 phi delta t, 0 < A /\ 0 < t0 /\ 0 < phi /\ 0 < delta /\ 0 < t /\ fred A t0 phi delta t0 < fred A t0 phi delta t.
Proof. exact fred_doc. Qed.
Print Assumptions C187_fred_maximum_refuted.
(* before the time -delta the flare is higher than its amplitude *)
Theorem C187_fred_amplitude_refuted : 
  exists A t0 phi delta t, 0 < A /\ 0 < t0 /\ 0 < phi /\ t < t0 - delta /\ A < fred A t0 phi delta t.
Proof. exact fred_grows. Qed.
Print Assumptions C187_fred_amplitude_refuted.
Example C187_nonvacuous : get_mean "constant" [("A", [3])] 7 = Ok 3 /\ lookup "t0" [("A", [3; 1]); ("t0", [5; 6])] = Ok [5; 6].
Proof. split; [apply mean_constant; reflexivity|reflexivity]. Qed.

