(* P_gp3.v: further lemmas about the parameters of Gaussian processes. *)
From Verif Require Import Np Cplx M_gp S_gp P_gp.
From Coq Require Import Reals List Arith Bool String Permutation Lia Lra.
Import ListNotations.
Open Scope string_scope.

(* times and shapes are given as they are, amplitudes, rates and widths as logarithms *)
Lemma which_logs kt mt ps x : get_gp_params kt mt = Ok ps -> In x ps ->
  In x ["t0"; "delta"; "phi"] \/ exists y, x = "log_" ++ y /\ In y ["arn"; "crn"; "aqpo"; "cqpo"; "freq"; "A"; "sig"; "sig1"; "sig2"].
Proof.
  unfold get_gp_params. destruct (get_kernel_params kt) as [k|] eqn:K; [|discriminate]. cbn [bind]. destruct (get_mean_params mt) as [m|] eqn:M; [|discriminate].
  cbn [bind]. intros E. injection E as <-. intros I. apply in_app_iff in I.
  assert (D : forall l : list string, In x l -> forallb (fun z => (existsb (String.eqb z) ["t0"; "delta"; "phi"] ||
     existsb (fun y => String.eqb z ("log_" ++ y)) ["arn"; "crn"; "aqpo"; "cqpo"; "freq"; "A"; "sig"; "sig1"; "sig2"])%bool) l = true ->
     In x ["t0"; "delta"; "phi"] \/ exists y, x = "log_" ++ y /\ In y ["arn"; "crn"; "aqpo"; "cqpo"; "freq"; "A"; "sig"; "sig1"; "sig2"]).
  { intros l J F. rewrite forallb_forall in F. specialize (F x J). apply orb_prop in F. destruct F as [F|F]; apply existsb_exists in F; destruct F as (y & Y & F); apply String.eqb_eq in F.
    - left. now subst y.
    - right. exists y. now split. }
  destruct I as [I|I]; apply (D _ I).
  - unfold get_kernel_params in K. repeat match type of K with context[if ?b then _ else _] => destruct b end; try discriminate; injection K as <-; reflexivity.
  - unfold get_mean_params in M. repeat match type of M with context[if ?b then _ else _] => destruct b end; try discriminate; injection M as <-; reflexivity.
Qed.
