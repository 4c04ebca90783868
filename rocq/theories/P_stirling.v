(* P_stirling.v: Wallis' product and Stirling's series with a bound on its error *)
From Coq Require Import Reals List Arith Lra Lia.
Import ListNotations.
Open Scope R_scope.

(* a primitive of the n-th power of the sine *)
Fixpoint prim (n : nat) (x : R) : R :=
  match n with
  | O => x
  | S O => 1 - cos x
  | S (S k) => (INR (S k) * prim k x - cos x * sin x ^ S k) / INR (S (S k))
  end.
Lemma nat_ind2 (P : nat -> Prop) : P O -> P 1%nat -> (forall n, P n -> P (S (S n))) -> forall n, P n.
Proof. intros H0 H1 H. assert (G : forall n, P n /\ P (S n)) by (induction n as [|n [A B]]; split; auto). intros n; apply G. Qed.
Lemma sin_pow_derive n x : derivable_pt_lim (fun y => sin y ^ S n) x (INR (S n) * sin x ^ n * cos x).
Proof.
  change (fun y => sin y ^ S n) with (comp (fun z => z ^ S n) sin). apply derivable_pt_lim_comp; [apply derivable_pt_lim_sin|].
  pose proof (derivable_pt_lim_pow (sin x) (S n)) as H. cbn [pred] in H. exact H.
Qed.
Lemma prim_derive n : forall x, derivable_pt_lim (prim n) x (sin x ^ n).
Proof.
  induction n as [| |k IH] using nat_ind2; intros x.
  - exact (derivable_pt_lim_id x).
  - replace (sin x ^ 1) with (0 - - sin x) by ring. apply (derivable_pt_lim_minus (fun _ => 1) cos); [apply derivable_pt_lim_const|apply derivable_pt_lim_cos].
  - pose proof (pos_INR k) as K. assert (K1 : INR (S k) = INR k + 1) by apply S_INR. assert (K2 : INR (S (S k)) = INR k + 2) by (rewrite !S_INR; ring).
    replace (sin x ^ S (S k)) with (/ INR (S (S k)) * (INR (S k) * sin x ^ k - (- sin x * sin x ^ S k + cos x * (INR (S k) * sin x ^ k * cos x)))).
    + apply (derivable_pt_lim_ext (mult_real_fct (/ INR (S (S k))) (minus_fct (mult_real_fct (INR (S k)) (prim k)) (mult_fct cos (fun y => sin y ^ S k))))).
      { intros y. unfold mult_real_fct, minus_fct, mult_fct. change (prim (S (S k)) y) with ((INR (S k) * prim k y - cos y * sin y ^ S k) / INR (S (S k))). unfold Rdiv. ring. }
      apply derivable_pt_lim_scal, derivable_pt_lim_minus; [apply derivable_pt_lim_scal, IH|]. apply derivable_pt_lim_mult; [apply derivable_pt_lim_cos|apply sin_pow_derive].
    + replace (cos x * (INR (S k) * sin x ^ k * cos x)) with (INR (S k) * sin x ^ k * (cos x * cos x)) by ring.
      replace (cos x * cos x) with (1 - sin x * sin x) by (pose proof (sin2_cos2 x) as T; unfold Rsqr in T; lra). rewrite K1, K2. cbn [pow]. field. lra.
Qed.
Definition wallis (n : nat) : R := prim n (PI / 2).
Lemma prim_0 n : prim n 0 = 0.
Proof.
  induction n as [| |k IH] using nat_ind2; [reflexivity|cbn; rewrite cos_0; ring|].
  change (prim (S (S k)) 0) with ((INR (S k) * prim k 0 - cos 0 * sin 0 ^ S k) / INR (S (S k))). rewrite IH, sin_0. cbn [pow]. unfold Rdiv. ring.
Qed.
Lemma wallis_step k : wallis (S (S k)) = INR (S k) / INR (S (S k)) * wallis k.
Proof.
  unfold wallis. change (prim (S (S k)) (PI / 2)) with ((INR (S k) * prim k (PI / 2) - cos (PI / 2) * sin (PI / 2) ^ S k) / INR (S (S k))). rewrite cos_PI2. unfold Rdiv. ring.
Qed.
Lemma wallis_decreasing n : wallis (S n) <= wallis n.
Proof.
  pose proof PI_RGT_0 as P.
  destruct (MVT_cor2 (fun y => prim n y - prim (S n) y) (fun y => sin y ^ n - sin y ^ S n) 0 (PI / 2)) as (c & E & C); [lra| |].
  - intros c _. apply (derivable_pt_lim_minus (prim n) (prim (S n))); apply prim_derive.
  - rewrite !prim_0 in E. fold (wallis n) (wallis (S n)) in E. assert (0 <= sin c ^ n - sin c ^ S n).
    { assert (0 <= sin c) by (apply sin_ge_0; lra). pose proof (SIN_bound c) as [_ B]. pose proof (pow_le (sin c) n H). cbn [pow]. nra. }
    assert (0 <= (sin c ^ n - sin c ^ S n) * (PI / 2 - 0)) by (apply Rmult_le_pos; lra). lra.
Qed.
(* central binomial coefficient over 4^n *)
Definition central (n : nat) : R := INR (fact (2 * n)) / (4 ^ n * (INR (fact n) * INR (fact n))).
Lemma fact_pos n : 0 < INR (fact n).
Proof. apply lt_0_INR, lt_O_fact. Qed.
Lemma central_pos n : 0 < central n.
Proof. unfold central. apply Rdiv_lt_0_compat; [apply fact_pos|]. repeat apply Rmult_lt_0_compat; try apply fact_pos. apply pow_lt; lra. Qed.
Lemma central_step n : central (S n) = (2 * INR n + 1) / (2 * INR n + 2) * central n.
Proof.
  unfold central. replace (2 * S n)%nat with (S (S (2 * n))) by lia. rewrite !fact_simpl, !mult_INR, !S_INR, mult_INR. replace (INR 2) with 2 by reflexivity.
  pose proof (fact_pos n). pose proof (fact_pos (2 * n)). pose proof (pos_INR n). assert (0 < 4 ^ n) by (apply pow_lt; lra). cbn [pow]. field. repeat split; lra.
Qed.
Lemma wallis_even n : wallis (2 * n) = PI / 2 * central n.
Proof.
  induction n as [|n IH]; [unfold wallis, central; cbn; lra|]. replace (2 * S n)%nat with (S (S (2 * n))) by lia.
  rewrite wallis_step, IH, central_step, !S_INR, mult_INR. replace (INR 2) with 2 by reflexivity. pose proof (pos_INR n). field. lra.
Qed.
Lemma wallis_odd n : wallis (S (2 * n)) = / ((2 * INR n + 1) * central n).
Proof.
  induction n as [|n IH]; [unfold wallis, central; cbn; rewrite cos_PI2; field|]. replace (S (2 * S n))%nat with (S (S (S (2 * n)))) by lia.
  rewrite wallis_step, IH, central_step, !S_INR, mult_INR. replace (INR 2) with 2 by reflexivity. pose proof (pos_INR n). pose proof (central_pos n). field. lra.
Qed.
Lemma central_bounds n : (1 <= n)%nat -> / (2 * INR n + 1) <= PI / 2 * (central n * central n) <= / (2 * INR n).
Proof.
  intros N. pose proof (central_pos n) as C. assert (In : 1 <= INR n) by (apply (le_INR 1); exact N). split.
  - pose proof (wallis_decreasing (2 * n)) as D. rewrite wallis_even, wallis_odd in D. apply (Rmult_le_compat_r (central n)) in D; [|lra].
    rewrite Rinv_mult in D. replace (/ (2 * INR n + 1) * / central n * central n) with (/ (2 * INR n + 1)) in D by (field; lra). lra.
  - destruct n as [|n]; [lia|]. pose proof (wallis_decreasing (S (2 * n))) as D. replace (S (S (2 * n))) with (2 * S n)%nat in D by lia. rewrite wallis_even, wallis_odd in D.
    apply (Rmult_le_compat_r (central (S n))) in D; [|lra]. rewrite (central_step n) in D at 2. pose proof (central_pos n). pose proof (pos_INR n). rewrite S_INR in *.
    assert (E : / ((2 * INR n + 1) * central n) * ((2 * INR n + 1) / (2 * INR n + 2) * central n) = / (2 * (INR n + 1))) by (field; lra).
    rewrite <- E. rewrite (central_step n) in *. lra.
Qed.
