(* T_gp3.v: further theorems about Gaussian process modelling, gpmodeling.py. *)
From Verif Require Import Np Cplx M_gp S_gp P_gp P_gp3.
From Coq Require Import Reals List Arith Bool String Permutation Lia Lra.
Import ListNotations.
Open Scope string_scope.

(* ---------- C185: which parameters are logarithms ---------- *)
Theorem C185_which_logs : forall (kt mt : string) (ps : list string) (x : string), get_gp_params kt mt = Ok ps -> In x ps -> In x ["t0"; "delta"; "phi"] \/ (exists y :
  string, x = "log_" ++ y /\ In y ["arn"; "crn"; "aqpo"; "cqpo"; "freq"; "A"; "sig"; "sig1"; "sig2"]).
Proof. exact @which_logs. Qed.
Print Assumptions C185_which_logs.
Example C185_which_logs_nonvacuous : exists ps, get_gp_params "RN" "fred" = Ok ps /\ In "phi" ps /\ In "log_A" ps.
Proof. eexists. split; [reflexivity|]. cbn. tauto. Qed.
