(* T_gpprior.v: property theorems about the prior of Gaussian process models (C226). *)
From Verif Require Import Np Lib M_gpprior S_gpprior P_gpprior.
From Coq Require Import List String.
Import ListNotations.
Local Open Scope nat_scope.
Local Open Scope string_scope.

Theorem C226_prior_partial : forall D V (draw : string -> D -> V) priors params,
  (forall k, In k params -> usable priors k) -> (forall k, In k params -> well_named priors k) ->
  exists vs, prior_model draw params priors = Ok vs /\
    Forall2 (fun k v => exists g d, entry_of k priors g /\ distribution g d /\ v = draw k d) params vs.
Proof. exact @drawn. Qed.
Print Assumptions C226_prior_partial.
Theorem C226_names_partial : forall D (priors : list (string * given D)) params,
  (forall k, In k params -> usable priors k) -> (forall k, In k params -> well_named priors k) ->
  exists l, yielded params priors = (l, Ok tt) /\ map fst l = params /\
    Forall (fun p => exists g, entry_of (fst p) priors g /\ distribution g (snd p)) l.
Proof. exact @yield_names. Qed.
Print Assumptions C226_names_partial.
(* without the condition on names: the distributions are right, the names are those of the jaxns priors *)
Theorem C226_order : forall D (priors : list (string * given D)) params,
  (forall k, In k params -> usable priors k) ->
  exists l, yielded params priors = (l, Ok tt) /\ Forall2 (named_right priors) params l.
Proof. exact @yield_all. Qed.
Print Assumptions C226_order.
Theorem C226_missing_error : forall D V (draw : string -> D -> V) priors before k after,
  (forall b, In b before -> usable priors b) -> ~ In k (map fst priors) -> prior_model draw (before ++ k :: after) priors = Err KeyError.
Proof. exact @first_missing. Qed.
Print Assumptions C226_missing_error.
Theorem C226_other_error : forall D V (draw : string -> D -> V) priors before k after,
  (forall b, In b before -> usable priors b) -> entry_of k priors Other -> prior_model draw (before ++ k :: after) priors = Err ValueError.
Proof. exact @first_other. Qed.
Print Assumptions C226_other_error.
(* a jaxns prior with the name of another parameter is accepted: two parameters are yielded under one name *)
Theorem C226_name_refuted : exists (priors : list (string * given nat)) l, yielded ["t0"; "delta"] priors = (l, Ok tt) /\
  (forall k, In k ["t0"; "delta"] -> usable priors k) /\ map fst l = ["t0"; "t0"].
Proof.
  exists [("t0", Dist 1); ("delta", Named "t0" 2)]. eexists. split; [reflexivity|]. split; [|reflexivity].
  intros k [<-|[<-|[]]].
  - exists (Dist 1), 1. split; [constructor|now left].
  - exists (Named "t0" 2), 2. split; [repeat (constructor; try discriminate)|right; now exists "t0"].
Qed.
Print Assumptions C226_name_refuted.
Example C226_example : let priors := [("t0", Dist 1); ("log_A", Named "log_A" 2); ("x", Other)] in
  (forall k, In k ["log_A"; "t0"] -> usable priors k) /\ (forall k, In k ["log_A"; "t0"] -> well_named priors k) /\ entry_of "x" priors Other /\
  prior_model (fun n d => (n, d)) ["log_A"; "t0"] priors = Ok [("log_A", 2); ("t0", 1)].
Proof.
  cbv zeta. split; [|split; [|split; [|reflexivity]]].
  - intros k [<-|[<-|[]]].
    + exists (Named "log_A" 2), 2. split; [repeat (constructor; try discriminate)|right; now exists "log_A"].
    + exists (Dist 1), 1. split; [constructor|now left].
  - intros k [<-|[<-|[]]] n d H; apply find_iff in H; cbn in H; congruence.
  - repeat (constructor; try discriminate).
Qed.
