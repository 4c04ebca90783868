(* T_calib.v: theorems about calibrations with simulations, parameterestimation.py. *)
From Coq Require Import String.
From Verif Require Import Np M_utils Cplx M_exvar M_parest S_parest P_parest M_calib S_calib P_calib.
From Coq Require Import Reals List Bool Arith Lia Lra.
Import ListNotations.
Open Scope R_scope.

(* ---------- C194: likelihood ratios ---------- *)
Theorem C194_ratio : forall (D : Type) (minimize : string -> (list R -> R) -> list R -> result (list R * R)) (method : string) (k1 k2 : kind) (h1 h2 : hypothesis D) (t1
  t2 : list R) (d : D) (v : R) (p : list R), returns_minimum minimize -> lrt minimize method k1 k2 h1 h2 t1 t2 true false d = Ok (v, p) -> exists l1 l2 : R, largest (h_like
  h1 d) l1 /\ largest (h_like h2 d) l2 /\ h_like h1 d p = l1 /\ v = 2 * (l2 - l1).
Proof. exact @lrt_ratio. Qed.
Print Assumptions C194_ratio.
Theorem C194_nested : forall (D : Type) (minimize : string -> (list R -> R) -> list R -> result (list R * R)) (method : string) (k1 k2 : kind) (h1 h2 : hypothesis D) (t1
  t2 : list R) (d : D) (v : R) (p : list R), returns_minimum minimize -> lrt minimize method k1 k2 h1 h2 t1 t2 true false d = Ok (v, p) -> (forall q : list R, exists q' :
  list R, h_like h1 d q = h_like h2 d q') -> 0 <= v.
Proof. exact @lrt_nested. Qed.
Print Assumptions C194_nested.
Theorem C194_posterior : forall (D : Type) (minimize : string -> (list R -> R) -> list R -> result (list R * R)) (method : string) (h1 h2 : hypothesis D) (t1 t2 : list R)
  (d : D) (v : R) (p : list R), returns_minimum minimize -> lrt minimize method IsPosterior IsPosterior h1 h2 t1 t2 true true d = Ok (v, p) -> exists q : list R, largest
  (fun x : list R => h_like h1 d x + h_prior h1 x) (h_like h1 d p + h_prior h1 p) /\ largest (fun x : list R => h_like h2 d x + h_prior h2 x) (h_like h2 d q + h_prior h2 q)
  /\ v = 2 * (h_like h2 d q - h_like h1 d p).
Proof. exact @lrt_posterior. Qed.
Print Assumptions C194_posterior.
Theorem C194_calibrated : forall (D : Type) (minimize : string -> (list R -> R) -> list R -> result (list R * R)) (choose : nat -> nat -> list nat) (mvn : list R -> nat
  -> list (list R)) (mcmc : list R -> list (list R)) (generate : list R -> D) (method : string) (k : kind) (h1 h2 : hypothesis D) (t1 t2 : list R) (d : D) (max_post : bool)
  (nsim : nat) (sample : option (list (list R))) (obs : R) (p : list R) (s_all : list (list R)) (sims : list R) (n : nat), max_post = true <-> k = IsPosterior -> lrt
  minimize method k k h1 h2 t1 t2 true max_post d = Ok (obs, p) -> match sample with | Some s => pick choose s nsim = Ok s_all | None => if max_post then pick choose (mcmc
  p) nsim = Ok s_all else gaussian_draws mvn (h_npar h1) nsim p = Ok s_all end -> Forall2 (fun (s : list R) (v : R) => exists p0 : list R, lrt minimize method k k h1 h2 t1
  t2 true max_post (generate s) = Ok (v, p0)) s_all sims -> sims <> [] -> above obs sims n -> calibrate_lrt minimize choose mvn mcmc generate method k k h1 h2 t1 t2 d
  sample true max_post nsim = Ok (INR n / INR (List.length sims)).
Proof. exact @calibrated. Qed.
Print Assumptions C194_calibrated.
Theorem C194_members : forall (choose : nat -> nat -> list nat) (s : list (list R)) (nsim : nat), (nsim <= List.length s)%nat -> (forall i : nat, In i (choose
  (List.length s) nsim) -> (i < List.length s)%nat) -> List.length (choose (List.length s) nsim) = nsim -> exists l : list (list R), pick choose s nsim = Ok l /\
  List.length l = nsim /\ (forall x : list R, In x l -> In x s).
Proof. exact @pick_members. Qed.
Print Assumptions C194_members.
Theorem C194_short_error : forall (D : Type) (minimize : string -> (list R -> R) -> list R -> result (list R * R)) (choose : nat -> nat -> list nat) (mvn : list R -> nat
  -> list (list R)) (mcmc : list R -> list (list R)) (generate : list R -> D) (method : string) (k : kind) (h1 h2 : hypothesis D) (t1 t2 : list R) (d : D) (s : list (list
  R)) (neg max_post : bool) (nsim : nat) (r : R * list R), lrt minimize method k k h1 h2 t1 t2 neg max_post d = Ok r -> (List.length s < nsim)%nat -> calibrate_lrt minimize
  choose mvn mcmc generate method k k h1 h2 t1 t2 d (Some s) neg max_post nsim = Err ValueError.
Proof. exact @calibrate_short. Qed.
Print Assumptions C194_short_error.
Theorem C194_one_error : forall (D : Type) (minimize : string -> (list R -> R) -> list R -> result (list R * R)) (choose : nat -> nat -> list nat) (mvn : list R -> nat ->
  list (list R)) (mcmc : list R -> list (list R)) (generate : list R -> D) (method : string) (k : kind) (h1 h2 : hypothesis D) (t1 t2 : list R) (d : D) (neg : bool) (r : R
  * list R), lrt minimize method k k h1 h2 t1 t2 neg false d = Ok r -> h_npar h1 <> 1%nat -> calibrate_lrt minimize choose mvn mcmc generate method k k h1 h2 t1 t2 d None
  neg false 1 = Err TypeError.
Proof. exact @calibrate_one. Qed.
Print Assumptions C194_one_error.
Theorem C194_classes_error : forall (D : Type) (minimize : string -> (list R -> R) -> list R -> result (list R * R)) (choose : nat -> nat -> list nat) (mvn : list R ->
  nat -> list (list R)) (mcmc : list R -> list (list R)) (generate : list R -> D) (method : string) (k1 k2 : kind) (h1 h2 : hypothesis D) (t1 t2 : list R) (d : D) (sample :
  option (list (list R))) (neg max_post : bool) (nsim : nat) (r : R * list R) (s_all : list (list R)), k1 <> k2 -> lrt minimize method k1 k2 h1 h2 t1 t2 neg max_post d = Ok
  r -> match sample with | Some s => pick choose s nsim = Ok s_all | None => if max_post then pick choose (mcmc (snd r)) nsim = Ok s_all else gaussian_draws mvn (h_npar h1)
  nsim (snd r) = Ok s_all end -> calibrate_lrt minimize choose mvn mcmc generate method k1 k2 h1 h2 t1 t2 d sample neg max_post nsim = Err AssertionError.
Proof. exact @calibrate_classes. Qed.
Print Assumptions C194_classes_error.
Theorem C194_mismatch_refuted : exists (minimize : string -> (list R -> R) -> list R -> result (list R * R)) (h1 h2 : hypothesis R) (t : list R) (d : R) (sample : list
  (list R)), (forall (k : kind) (mp : bool), fitted minimize "Powell" (target k mp true h1 d) t /\ fitted minimize "Powell" (target k mp true h2 d) t) /\ (forall (mvn :
  list R -> nat -> list (list R)) (mcmc : list R -> list (list R)), calibrate_lrt minimize w_choose mvn mcmc (fun _ : list R => d) "Powell" IsPosterior IsPosterior h1 h2 t
  t d (Some sample) true false 1 = Ok 1 /\ calibrate_lrt minimize w_choose mvn mcmc (fun _ : list R => d) "Powell" IsPosterior IsPosterior h1 h2 t t d (Some sample) true
  true 1 = Ok 0).
Proof. exact @lrt_mismatch. Qed.
Print Assumptions C194_mismatch_refuted.
(* one simulation: the fit of a model with two parameters succeeds, the calibration does not *)
Theorem C194_one_refuted : exists (h : hypothesis R) minimize t d r, lrt minimize "BFGS" IsLikelihood IsLikelihood h h t t true false d = Ok r /\
  forall choose mvn mcmc generate, calibrate_lrt minimize choose mvn mcmc generate "BFGS" IsLikelihood IsLikelihood h h t t d None true false 1 = Err TypeError.
Proof.
  exists (mkHyp (fun _ _ => 0) (fun _ => 0) 2), (fun _ f t => Ok (t, f t)), [1; 1], 0. eexists. split; [reflexivity|]. intros choose mvn mcmc generate.
  eapply calibrate_one; [reflexivity|discriminate].
Qed.
Print Assumptions C194_one_refuted.
Example C194_nonvacuous : exists v p, lrt w_min "Powell" IsLikelihood IsLikelihood w_pull w_free [1] [1] true false 2 = Ok (v, p) /\ above v [1; 0; 3] 2.
Proof.
  do 2 eexists. split; [unfold lrt, fit_to, bind; rewrite (w_min_right _ _ _ _ (or_introl eq_refl) (near_ml w_pull IsLikelihood (or_introl eq_refl))), (w_min_right _ _ _ _ (or_introl eq_refl) (near_ml w_free IsLikelihood (or_intror eq_refl))); reflexivity|].
  unfold compute_lrt, deviance_of, target, w_pull, w_free, h_like, near. cbn [fst snd].
  replace (2 * - - (2 - 2) ^ 2 - 2 * - - (2 - 2) ^ 2) with 0 by ring. apply above_yes; [lra|]. apply above_no; [lra|]. apply above_yes; [lra|]. constructor.
Qed.

(* ---------- C195: outliers ---------- *)
Theorem C195_calibrated : forall (D : Type) (minimize : string -> (list R -> R) -> list R -> result (list R * R)) (choose : nat -> nat -> list nat) (mvn : list R -> nat
  -> list (list R)) (mcmc : list R -> list (list R)) (generate : list R -> D) (outlier : D -> list R -> R) (h : hypothesis D) (t0 : list R) (d : D) (k : kind) (max_post :
  bool) (nsim : nat) (sample : option (list (list R))) (p : list R) (v : R) (s_all : list (list R)) (sims : list R) (n : nat), max_post = true <-> k = IsPosterior -> fit_to
  minimize "BFGS" k max_post true h d t0 = Ok (p, v) -> (if max_post then pick choose match sample with | Some s => s | None => mcmc p end nsim = Ok s_all else
  gaussian_draws mvn (h_npar h) nsim p = Ok s_all) -> Forall2 (fun (s : list R) (x : R) => exists (q : list R) (w : R), fit_to minimize "BFGS" k max_post true h (generate
  s) t0 = Ok (q, w) /\ x = outlier (generate s) q) s_all sims -> sims <> [] -> above (outlier d p) sims n -> calibrate_highest_outlier minimize choose mvn mcmc generate
  outlier "BFGS" max_post k h t0 d sample max_post nsim = Ok (INR n / INR (List.length sims)).
Proof. exact @outlier_calibrated. Qed.
Print Assumptions C195_calibrated.
Theorem C195_sample_ignored : forall (D : Type) (minimize : string -> (list R -> R) -> list R -> result (list R * R)) (choose : nat -> nat -> list nat) (mvn : list R ->
  nat -> list (list R)) (mcmc : list R -> list (list R)) (generate : list R -> D) (outlier : D -> list R -> R) (method : string) (smp : bool) (k : kind) (h : hypothesis D)
  (t0 : list R) (d : D) (s s' : option (list (list R))) (nsim : nat), calibrate_highest_outlier minimize choose mvn mcmc generate outlier method smp k h t0 d s false nsim =
  calibrate_highest_outlier minimize choose mvn mcmc generate outlier method smp k h t0 d s' false nsim.
Proof. exact @outlier_sample. Qed.
Print Assumptions C195_sample_ignored.
Theorem C195_likelihood_error : forall (D : Type) (minimize : string -> (list R -> R) -> list R -> result (list R * R)) (choose : nat -> nat -> list nat) (mvn : list R ->
  nat -> list (list R)) (mcmc : list R -> list (list R)) (generate : list R -> D) (outlier : D -> list R -> R) (method : string) (smp : bool) (h : hypothesis D) (t0 : list
  R) (d : D) (sample : option (list (list R))) (nsim : nat) (r : list R * R) (s : list R) (s_all : list (list R)), fit_to minimize method IsLikelihood smp true h d t0 = Ok
  r -> pick choose match sample with | Some x => x | None => mcmc (fst r) end nsim = Ok (s :: s_all) -> calibrate_highest_outlier minimize choose mvn mcmc generate outlier
  method smp IsLikelihood h t0 d sample true nsim = Err AttributeError.
Proof. exact @outlier_likelihood. Qed.
Print Assumptions C195_likelihood_error.
Theorem C195_mismatch_refuted : exists (minimize : string -> (list R -> R) -> list R -> result (list R * R)) (h : hypothesis R) (t : list R) (d : R) (draw : list R),
  (forall (k : kind) (mp : bool), fitted minimize "BFGS" (target k mp true h d) t) /\ (forall mcmc : list R -> list (list R), calibrate_highest_outlier minimize w_choose
  (fun (_ : list R) (_ : nat) => [draw; draw]) mcmc (fun _ : list R => d) (fun (d0 : R) (p : list R) => d0 / hd 0 p) "BFGS" true IsPosterior h t d None false 2 = Ok 1 /\
  calibrate_highest_outlier minimize w_choose (fun (_ : list R) (_ : nat) => [draw; draw]) mcmc (fun _ : list R => d) (fun (d0 : R) (p : list R) => d0 / hd 0 p) "BFGS"
  false IsPosterior h t d None false 2 = Ok 0).
Proof. exact @outlier_mismatch. Qed.
Print Assumptions C195_mismatch_refuted.
Theorem C195_method_refuted : exists (minimize : string -> (list R -> R) -> list R -> result (list R * R)) (h : hypothesis R) (t : list R) (d : R) (draw : list R) (method
  : string), forall mcmc : list R -> list (list R), calibrate_highest_outlier minimize w_choose (fun (_ : list R) (_ : nat) => [draw; draw]) mcmc (fun _ : list R => d) (fun
  (d0 : R) (p : list R) => d0 / hd 0 p) method false IsLikelihood h t d None false 2 = Ok 1 /\ (exists (p : list R) (v : R) (q : list R) (w : R), fit_to minimize method
  IsLikelihood false true h d t = Ok (p, v) /\ fit_to minimize "BFGS" IsLikelihood false true h d t = Ok (q, w) /\ p <> q).
Proof. exact @outlier_method. Qed.
Print Assumptions C195_method_refuted.
Example C195_nonvacuous mcmc : calibrate_highest_outlier w_min w_choose (fun _ _ => [[2]; [4]]) mcmc (fun s => hd 0 s) (fun d p => d / hd 0 p) "BFGS" false IsLikelihood w_pull [1] 2 None false 2 = Ok (1 / 2).
Proof.
  assert (A : forall d, d < 5 / 2 -> exists v, fit_to w_min "BFGS" IsLikelihood false true w_pull d [1] = Ok ([2], v)).
  { intros d Hd. unfold fit_to, w_min, target, w_pull, h_like, near. eexists. destruct (Rlt_dec _ _) as [N|N]; [exfalso; nra|reflexivity]. }
  assert (B : forall d, 5 / 2 < d -> exists v, fit_to w_min "BFGS" IsLikelihood false true w_pull d [1] = Ok ([3], v)).
  { intros d Hd. unfold fit_to, w_min, target, w_pull, h_like, near. eexists. destruct (Rlt_dec _ _) as [N|N]; [reflexivity|exfalso; nra]. }
  destruct (A 2 ltac:(lra)) as (v & Ev). destruct (B 4 ltac:(lra)) as (w & Ew).
  replace (1 / 2) with (INR 1 / INR (List.length [2 / 2; 4 / 3])) by (cbn; lra).
  eapply (outlier_calibrated w_min w_choose (fun _ _ => [[2]; [4]]) mcmc (fun s => hd 0 s) (fun d p => d / hd 0 p)) with (p := [2]) (s_all := [[2]; [4]]);
    [split; discriminate|exact Ev|reflexivity| |discriminate|].
  - constructor; [exists [2], v; split; [exact Ev|reflexivity]|]. constructor; [exists [3], w; split; [exact Ew|reflexivity]|constructor].
  - cbn [hd]. apply above_no; [lra|]. apply above_yes; [lra|]. constructor.
Qed.

(* ---------- C196: covariances ---------- *)
Theorem C196_given : forall (n : nat) (inv : nat -> matrix -> matrix) (comp : bool) (c phess : matrix), exists errs : list (option R), compute_covariance n inv comp (Some
  c) phess = Some (c, errs) /\ (forall i : nat, (i < n)%nat -> 0 <= c i i -> nth_error errs i = Some (Some (sqrt (c i i)))).
Proof. exact @covariance_given. Qed.
Print Assumptions C196_given.
Theorem C196_absent : forall (n : nat) (inv : nat -> matrix -> matrix) (phess : matrix), compute_covariance n inv false None phess = None.
Proof. exact @covariance_absent. Qed.
Print Assumptions C196_absent.
Theorem C196_diagonal : forall (n : nat) (A B : nat -> nat -> R) (i : nat), negative_definite n A -> (forall i0 j : nat, (i0 < n)%nat -> (j < n)%nat -> rs n (fun k : nat
  => A i0 k * B k j) = identity i0 j) -> (i < n)%nat -> B i i < 0.
Proof. exact @inverse_diagonal. Qed.
Print Assumptions C196_diagonal.
Theorem C196_sign : forall (n : nat) (inv : nat -> (nat -> nat -> R) -> nat -> nat -> R) (phess : nat -> nat -> R) (i : nat), exact_inverse inv -> invertible n phess ->
  negative_definite n phess -> (i < n)%nat -> exists (c : matrix) (errs : list (option R)), compute_covariance n inv true None phess = Some (c, errs) /\ c i i < 0 /\
  nth_error errs i = Some (Some (sqrt (- c i i))).
Proof. exact @covariance_sign. Qed.
Print Assumptions C196_sign.
Theorem C196_covariance_refuted : exists (f : R -> R) (m s : R), 0 < s /\ (forall x : R, f x = - (x - m) ^ 2 / (2 * s ^ 2)) /\ (exists phess : R, (forall x : R,
  derivable_pt_lim (fun y : R => - (y - m) / s ^ 2) x phess) /\ (forall x : R, derivable_pt_lim f x (- (x - m) / s ^ 2)) /\ (forall inv : nat -> (nat -> nat -> R) -> nat ->
  nat -> R, exact_inverse inv -> exists (c : matrix) (errs : list (option R)), compute_covariance 1 inv true None (fun _ _ : nat => phess) = Some (c, errs) /\ c 0%nat 0%nat
  = - s ^ 2)).
Proof. exact @covariance_refuted. Qed.
Print Assumptions C196_covariance_refuted.
Example C196_nonvacuous : negative_definite 2 (fun i j => if Nat.eqb i j then - 2 else 1) /\ invertible 2 (fun i j => if Nat.eqb i j then - 2 else 1).
Proof.
  split.
  - intros x (i & Hi & Nz). unfold rs. cbn. assert (x 0%nat <> 0 \/ x 1%nat <> 0) as [H|H] by (destruct i as [|[|i]]; [left; exact Nz|right; exact Nz|lia]);
      pose proof (pow2_gt_0 _ H); pose proof (pow2_ge_0 (x 0%nat - x 1%nat)); pose proof (pow2_ge_0 (x 0%nat)); pose proof (pow2_ge_0 (x 1%nat)); nra.
  - exists (fun i j => if Nat.eqb i j then - 2 / 3 else - 1 / 3). intros i j Hi Hj. unfold rs, identity. destruct i as [|[|i]]; [| |lia]; destruct j as [|[|j]]; try lia; cbn; field.
Qed.
Theorem C194_draws : forall (mvn : list R -> nat -> list (list R)) (npar nsim : nat) (p : list R) (l : list (list R)), (forall (p0 : list R) (n : nat), List.length (mvn
  p0 n) = n) -> gaussian_draws mvn npar nsim p = Ok l -> List.length l = nsim.
Proof. exact @draws_all. Qed.
Print Assumptions C194_draws.
