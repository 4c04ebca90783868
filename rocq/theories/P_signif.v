(* P_signif.v: the distribution of averaged cospectra. *)
From Verif Require Import Np Cplx S_stats S_signif M_fourier M_stats M_zn M_signif P_pval.
From Coq Require Import Reals Lra Lia.
Open Scope R_scope.

(* weights of the terms *)
Definition wgt (n j : nat) : R := Binomial.C (n - 1 + j) j / 2 ^ (n + j).
Fixpoint wsum (w : nat -> R) (f : nat -> R) (m : nat) : R := match m with O => 0 | S k => wsum w f k + w k * f k end.
Lemma fact_pos n : 0 < INR (fact n). Proof. apply INR_fact_lt_0. Qed.
Lemma C_nonneg n k : 0 < Binomial.C n k.
Proof. unfold Binomial.C. apply Rdiv_lt_0_compat; [apply fact_pos|]. apply Rmult_lt_0_compat; apply fact_pos. Qed.
Lemma wgt_pos n j : 0 < wgt n j.
Proof. unfold wgt. apply Rdiv_lt_0_compat; [apply C_nonneg|apply pow_lt; lra]. Qed.

(* sum_{k <= N} C(N+k, k) / 2^k = 2^N *)
Fixpoint csum (N m : nat) : R := match m with O => 0 | S k => csum N k + Binomial.C (N + k) k / 2 ^ k end.
Lemma C_0 n : Binomial.C n 0 = 1.
Proof. unfold Binomial.C. rewrite Nat.sub_0_r. cbn. pose proof (fact_pos n). field. lra. Qed.
Lemma csum_pascal N m : csum (S N) (S m) = csum N (S m) + csum (S N) m / 2.
Proof.
  induction m as [|m IH].
  - cbn [csum]. rewrite !Nat.add_0_r, !C_0. cbn. lra.
  - assert (P : Binomial.C (S N + S m) (S m) = Binomial.C (N + S m) m + Binomial.C (N + S m) (S m)).
    { rewrite pascal by lia. reflexivity. }
    assert (E1 : csum (S N) (S (S m)) = csum (S N) (S m) + Binomial.C (S N + S m) (S m) / 2 ^ S m) by reflexivity.
    assert (E2 : csum N (S (S m)) = csum N (S m) + Binomial.C (N + S m) (S m) / 2 ^ S m) by reflexivity.
    assert (E3 : csum (S N) (S m) = csum (S N) m + Binomial.C (N + S m) m / 2 ^ m).
    { replace (N + S m)%nat with (S N + m)%nat by lia. reflexivity. }
    assert (E4 : forall x, x / 2 ^ S m = x / 2 ^ m / 2).
    { intros x. cbn [pow]. assert (0 < 2 ^ m) by (apply pow_lt; lra). field. lra. }
    rewrite E1, E2, P, !E4. rewrite !E4 in *. set (c1 := Binomial.C (N + S m) m) in *. set (c2 := Binomial.C (N + S m) (S m)) in *.
    replace ((c1 + c2) / 2 ^ m) with (c1 / 2 ^ m + c2 / 2 ^ m) by (unfold Rdiv; ring). lra.
Qed.
Lemma C_mid N : Binomial.C (S N + S N) (S N) = 2 * Binomial.C (N + S N) (S N).
Proof.
  assert (P : Binomial.C (S N + S N) (S N) = Binomial.C (N + S N) N + Binomial.C (N + S N) (S N)) by (rewrite pascal by lia; reflexivity).
  assert (Q : Binomial.C (N + S N) N = Binomial.C (N + S N) (S N)).
  { unfold Binomial.C. replace (N + S N - N)%nat with (S N) by lia. replace (N + S N - S N)%nat with N by lia. f_equal. ring. }
  lra.
Qed.
Lemma csum_full N : csum N (S N) = 2 ^ N.
Proof.
  induction N as [|N IH]; [cbn; rewrite C_0; lra|].
  pose proof (csum_pascal N (S N)) as P.
  assert (E1 : csum (S N) (S (S N)) = csum (S N) (S N) + Binomial.C (S N + S N) (S N) / 2 ^ S N) by reflexivity.
  assert (E2 : csum N (S (S N)) = csum N (S N) + Binomial.C (N + S N) (S N) / 2 ^ S N) by reflexivity.
  rewrite C_mid in E1. set (c := Binomial.C (N + S N) (S N)) in *.
  assert (E3 : 2 * c / 2 ^ S N = 2 * (c / 2 ^ S N)) by (unfold Rdiv; ring). cbn [pow] in *. lra.
Qed.
Lemma wsum_csum n m : (0 < n)%nat -> wsum (wgt n) (fun _ => 1) m = csum (n - 1) m / 2 ^ n.
Proof.
  intros Hn. induction m as [|m IH]; cbn [wsum csum]; [unfold Rdiv; ring|]. rewrite IH. unfold wgt. rewrite pow_add.
  assert (0 < 2 ^ n) by (apply pow_lt; lra). assert (0 < 2 ^ m) by (apply pow_lt; lra). field. lra.
Qed.
Lemma wsum_one n : (0 < n)%nat -> wsum (wgt n) (fun _ => 1) n = 1 / 2.
Proof.
  intros Hn. rewrite wsum_csum by assumption. destruct n as [|n]; [lia|]. replace (S n - 1)%nat with n by lia. rewrite csum_full. cbn [pow].
  assert (0 < 2 ^ n) by (apply pow_lt; lra). field. lra.
Qed.
Lemma wsum_ext w f g m : (forall j, (j < m)%nat -> f j = g j) -> wsum w f m = wsum w g m.
Proof. induction m as [|m IH]; intros H; cbn; [reflexivity|]. rewrite IH, (H m) by (intros; try apply H; lia). reflexivity. Qed.
Lemma wsum_lin w f g a b m : wsum w (fun j => a * f j + b * g j) m = a * wsum w f m + b * wsum w g m.
Proof. induction m as [|m IH]; cbn; [ring|]. rewrite IH. ring. Qed.
Lemma wsum_le w f g m : (forall j, (j < m)%nat -> 0 < w j /\ f j <= g j) -> wsum w f m <= wsum w g m.
Proof.
  induction m as [|m IH]; intros H; cbn; [lra|]. destruct (H m ltac:(lia)) as (W & L). apply Rplus_le_compat; [apply IH; intros; apply H; lia|].
  apply Rmult_le_compat_l; lra.
Qed.
Lemma wsum_lt w f g m : (0 < m)%nat -> (forall j, (j < m)%nat -> 0 < w j /\ f j < g j) -> wsum w f m < wsum w g m.
Proof.
  destruct m as [|m]; [lia|]. intros _ H. cbn. destruct (H m ltac:(lia)) as (W & L). apply Rplus_le_lt_compat.
  - apply wsum_le. intros j Hj. destruct (H j ltac:(lia)). lra.
  - apply Rmult_lt_compat_l; lra.
Qed.

(* the upper incomplete gamma function *)
Lemma ug_0 x : upper_gamma 0 x = 0. Proof. unfold upper_gamma. cbn. ring. Qed.
Lemma ug_S a x : upper_gamma (S a) x = upper_gamma a x + exp (- x) * (x ^ a / INR (fact a)).
Proof. unfold upper_gamma. cbn [poisson_sum]. ring. Qed.
Lemma ps_0 a : (0 < a)%nat -> poisson_sum a 0 = 1.
Proof.
  induction a as [|a IH]; [lia|]. intros _. cbn [poisson_sum]. destruct a as [|a]; [cbn; lra|]. rewrite IH by lia. rewrite pow_i by lia. unfold Rdiv. ring.
Qed.
Lemma ug_at0 a : (0 < a)%nat -> upper_gamma a 0 = 1.
Proof. intros H. unfold upper_gamma. rewrite ps_0 by assumption. rewrite Ropp_0, exp_0. ring. Qed.
Definition eterm (a : nat) (x : R) : R := match a with O => 0 | S k => exp (- x) * (x ^ k / INR (fact k)) end.
Lemma exp_neg_deriv x : derivable_pt_lim (fun s => exp (- s)) x (- exp (- x)).
Proof.
  replace (- exp (- x)) with (exp (- x) * (- 1)) by ring. apply (derivable_pt_lim_comp (fun s => - s) exp).
  - replace (-1) with (- (1)) by ring. apply (derivable_pt_lim_opp id). apply derivable_pt_lim_id.
  - apply derivable_pt_lim_exp.
Qed.
Lemma eterm_deriv a x : derivable_pt_lim (eterm (S a)) x (eterm a x - eterm (S a) x).
Proof.
  assert (P : derivable_pt_lim (fun s => s ^ a / INR (fact a)) x (match a with O => 0 | S k => x ^ k / INR (fact k) end)).
  { assert (E : match a with O => 0 | S k => x ^ k / INR (fact k) end = / INR (fact a) * (INR a * x ^ pred a)).
    { destruct a as [|k]; [cbn; ring|]. cbn [pred]. rewrite fact_simpl, mult_INR. pose proof (fact_pos k). assert (INR (S k) <> 0) by (apply not_0_INR; lia). field. split; [lra|assumption]. }
    rewrite E. apply (derivable_pt_lim_ext (mult_real_fct (/ INR (fact a)) (fun s => s ^ a))); [intros z; unfold mult_real_fct; field; apply Rgt_not_eq, fact_pos|].
    apply derivable_pt_lim_scal. apply derivable_pt_lim_pow. }
  pose proof (derivable_pt_lim_mult (fun s => exp (- s)) (fun s => s ^ a / INR (fact a)) x _ _ (exp_neg_deriv x) P) as D.
  unfold mult_fct in D. cbv beta in D. replace (eterm a x - eterm (S a) x) with
    (- exp (- x) * (x ^ a / INR (fact a)) + exp (- x) * (match a with O => 0 | S k => x ^ k / INR (fact k) end)); [exact D|].
  unfold eterm. destruct a as [|k]; ring.
Qed.
Lemma ug_eterm a x : upper_gamma (S a) x = upper_gamma a x + eterm (S a) x.
Proof. apply ug_S. Qed.
Lemma ug_deriv a x : derivable_pt_lim (upper_gamma a) x (- eterm a x).
Proof.
  induction a as [|a IH].
  - apply (derivable_pt_lim_ext (fun _ => 0)); [intros z; now rewrite ug_0|]. cbn. rewrite Ropp_0. apply derivable_pt_lim_const.
  - apply (derivable_pt_lim_ext (plus_fct (upper_gamma a) (eterm (S a)))); [intros z; unfold plus_fct; now rewrite ug_eterm|].
    replace (- eterm (S a) x) with (- eterm a x + (eterm a x - eterm (S a) x)) by ring.
    apply derivable_pt_lim_plus; [exact IH|apply eterm_deriv].
Qed.
Lemma eterm_pos a x : (0 < a)%nat -> 0 < x -> 0 < eterm a x.
Proof. destruct a as [|a]; [lia|]. intros _ Hx. cbn. apply Rmult_lt_0_compat; [apply exp_pos|]. apply Rdiv_lt_0_compat; [now apply pow_lt|apply fact_pos]. Qed.
Lemma ug_decr a x y : (0 < a)%nat -> 0 <= x -> x < y -> upper_gamma a y < upper_gamma a x.
Proof.
  intros Ha Hx Hxy. destruct (MVT_cor2 (upper_gamma a) (fun s => - eterm a s) x y Hxy) as (c & E & Hc); [intros; apply ug_deriv|].
  assert (0 < eterm a c) by (apply eterm_pos; [assumption|lra]). assert (0 < eterm a c * (y - x)) by (apply Rmult_lt_0_compat; lra). lra.
Qed.
Lemma ug_pos a x : (0 < a)%nat -> 0 <= x -> 0 < upper_gamma a x.
Proof. intros Ha Hx. unfold upper_gamma. apply Rmult_lt_0_compat; [apply exp_pos|]. pose proof (poisson_mono x 1 (a - 1) Hx) as P. replace (1 + (a - 1))%nat with a in P by lia. cbn [poisson_sum pow fact INR] in P. lra. Qed.
Lemma ug_le1 a x : (0 < a)%nat -> 0 <= x -> upper_gamma a x <= 1.
Proof. intros Ha [H|<-]; [|rewrite ug_at0 by assumption; lra]. rewrite <- (ug_at0 a Ha). left. apply ug_decr; [assumption|lra|assumption]. Qed.

(* survival function of the sum of n Laplace variables, on the right half line *)
Definition tail (n : nat) (s : R) : R := wsum (wgt n) (fun j => upper_gamma (n - j) s) n.
Lemma tail_0 n : (0 < n)%nat -> tail n 0 = 1 / 2.
Proof. intros H. unfold tail. rewrite <- (wsum_one n H). apply wsum_ext. intros j Hj. apply ug_at0. lia. Qed.
Lemma tail_decr n x y : (0 < n)%nat -> 0 <= x -> x < y -> tail n y < tail n x.
Proof. intros H Hx Hy. apply wsum_lt; [assumption|]. intros j Hj. split; [apply wgt_pos|]. apply ug_decr; [lia|assumption|assumption]. Qed.
Lemma tail_pos n x : (0 < n)%nat -> 0 <= x -> 0 < tail n x.
Proof.
  intros H Hx. unfold tail. replace 0 with (wsum (wgt n) (fun _ => 0) n); [|generalize n at 2; intros m; induction m as [|m IH]; cbn; [reflexivity|rewrite IH; ring]].
  apply wsum_lt; [assumption|]. intros j Hj. split; [apply wgt_pos|]. apply ug_pos; [lia|assumption].
Qed.
Lemma tail_half n x : (0 < n)%nat -> 0 <= x -> tail n x <= 1 / 2.
Proof. intros H [L|<-]; [|rewrite tail_0 by assumption; lra]. rewrite <- (tail_0 n H). left. apply tail_decr; [assumption|lra|assumption]. Qed.

(* (1 - d^2/ds^2) on the tails *)
Definition tail' (n : nat) (s : R) : R := wsum (wgt n) (fun j => - eterm (n - j) s) n.
Lemma wsum_deriv w (f g : nat -> R -> R) x m : (forall j, (j < m)%nat -> derivable_pt_lim (f j) x (g j x)) ->
  derivable_pt_lim (fun s => wsum w (fun j => f j s) m) x (wsum w (fun j => g j x) m).
Proof.
  induction m as [|m IH]; intros H; cbn [wsum]; [apply derivable_pt_lim_const|].
  apply (derivable_pt_lim_plus (fun s => wsum w (fun j => f j s) m) (fun s => w m * f m s)); [apply IH; intros; apply H; lia|].
  apply (derivable_pt_lim_scal (f m)). apply H. lia.
Qed.
Lemma tail_deriv n s : derivable_pt_lim (tail n) s (tail' n s).
Proof. apply (wsum_deriv (wgt n) (fun j x => upper_gamma (n - j) x) (fun j x => - eterm (n - j) x)). intros j _. apply ug_deriv. Qed.
Definition tail'' (n : nat) (s : R) : R := wsum (wgt n) (fun j => - (eterm (n - j - 1) s - eterm (n - j) s)) n.
Lemma tail_deriv2 n s : derivable_pt_lim (tail' n) s (tail'' n s).
Proof.
  apply (wsum_deriv (wgt n) (fun j x => - eterm (n - j) x) (fun j x => - (eterm (n - j - 1) x - eterm (n - j) x))). intros j Hj.
  apply (derivable_pt_lim_opp (eterm (n - j))). replace (n - j)%nat with (S (n - j - 1)) at 1 3 by lia. apply eterm_deriv.
Qed.
Lemma ug_green a s : upper_gamma (S a) s + (eterm a s - eterm (S a) s) = 2 * upper_gamma a s - upper_gamma (a - 1) s.
Proof.
  destruct a as [|a]; [rewrite ug_eterm; cbn [Nat.sub]; rewrite ug_0; cbn; ring|]. replace (S a - 1)%nat with a by lia. rewrite (ug_eterm (S a)), (ug_eterm a). ring.
Qed.
Lemma wgt_step n j : (0 < n)%nat -> 2 * wgt (S n) (S j) - wgt (S n) j = wgt n (S j).
Proof.
  intros Hn. unfold wgt. replace (S n - 1 + S j)%nat with (S (n + j)) by lia. replace (S n - 1 + j)%nat with (n + j)%nat by lia.
  replace (n - 1 + S j)%nat with (n + j)%nat by lia. rewrite <- (pascal (n + j) j) by lia.
  replace (S n + S j)%nat with (S (S (n + j))) by lia. replace (S n + j)%nat with (S (n + j)) by lia. replace (n + S j)%nat with (S (n + j)) by lia.
  cbn [pow]. assert (0 < 2 ^ (n + j)) by (apply pow_lt; lra). field. lra.
Qed.
Lemma wgt_first n : (0 < n)%nat -> 2 * wgt (S n) 0 = wgt n 0.
Proof. intros Hn. unfold wgt. rewrite !C_0. rewrite !Nat.add_0_r. cbn [pow]. assert (0 < 2 ^ n) by (apply pow_lt; lra). field. lra. Qed.
(* partial sums: shift the second part by one *)
Lemma wsum_shift n (f : nat -> R) : (0 < n)%nat -> forall m,
  wsum (wgt (S n)) (fun j => 2 * f j - f (S j)) (S m) = wsum (wgt n) f (S m) - wgt (S n) m * f (S m).
Proof.
  intros Hn. induction m as [|m IH].
  - cbn [wsum]. rewrite <- (wgt_first n Hn). ring.
  - change (wsum (wgt (S n)) (fun j => 2 * f j - f (S j)) (S (S m))) with (wsum (wgt (S n)) (fun j => 2 * f j - f (S j)) (S m) + wgt (S n) (S m) * (2 * f (S m) - f (S (S m)))).
    change (wsum (wgt n) f (S (S m))) with (wsum (wgt n) f (S m) + wgt n (S m) * f (S m)).
    rewrite IH, <- (wgt_step n m Hn). ring.
Qed.
Lemma tail_green n s : (0 < n)%nat -> tail (S n) s - tail'' (S n) s = tail n s.
Proof.
  intros Hn. unfold tail, tail''.
  assert (E : wsum (wgt (S n)) (fun j => upper_gamma (S n - j) s) (S n) - wsum (wgt (S n)) (fun j => - (eterm (S n - j - 1) s - eterm (S n - j) s)) (S n)
     = wsum (wgt (S n)) (fun j => 1 * upper_gamma (S n - j) s + (-1) * (- (eterm (S n - j - 1) s - eterm (S n - j) s))) (S n)).
  { rewrite wsum_lin. ring. }
  rewrite E. rewrite (wsum_ext _ _ (fun j => 2 * upper_gamma (n - j) s - upper_gamma (n - S j) s)).
  - rewrite (wsum_shift n (fun j => upper_gamma (n - j) s) Hn). cbn [wsum]. replace (n - n)%nat with 0%nat by lia. replace (n - S n)%nat with 0%nat by lia. rewrite ug_0. ring.
  - intros j Hj. replace (S n - j)%nat with (S (n - j)) by lia. replace (S (n - j) - 1)%nat with (n - j)%nat by lia. replace (n - S j)%nat with (n - j - 1)%nat by lia.
    rewrite <- ug_green. ring.
Qed.
Lemma tail_law n : (0 < n)%nat -> add_laplace (tail n) (tail (S n)).
Proof.
  intros Hn. split; [|split; [apply tail_0; lia|split]].
  - exists (tail' (S n)). intros s _. split; [apply tail_deriv|]. replace (tail (S n) s - tail n s) with (tail'' (S n) s) by (rewrite <- (tail_green n s Hn); ring). apply tail_deriv2.
  - apply derivable_continuous_pt. exists (tail' (S n) 0). apply tail_deriv.
  - intros s Hs. pose proof (tail_pos (S n) s ltac:(lia) Hs). pose proof (tail_half (S n) s ltac:(lia) Hs). lra.
Qed.
Lemma tail_1 s : 0 <= s -> tail 1 s = laplace_tail s.
Proof.
  intros H. unfold tail, laplace_tail. cbn [wsum]. change (1 - 0)%nat with 1%nat. rewrite ug_S, ug_0. unfold wgt. rewrite C_0. cbn. destruct (Rle_dec 0 s); [field|lra].
Qed.

(* the bounded solution is unique *)
Lemma const_right (u : R -> R) : (forall s, 0 < s -> derivable_pt_lim u s 0) -> forall a b, 0 < a -> a < b -> u a = u b.
Proof. intros H a b Ha Hb. destruct (MVT_cor2 u (fun _ => 0) a b Hb) as (c & E & _); [intros c Hc; apply H; lra|]. lra. Qed.
Lemma exp_deriv_mult (u u' : R -> R) k s : derivable_pt_lim u s (u' s) -> derivable_pt_lim (fun x => u x * exp (k * x)) s ((u' s + k * u s) * exp (k * s)).
Proof.
  intros H. replace ((u' s + k * u s) * exp (k * s)) with (u' s * exp (k * s) + u s * (exp (k * s) * (k * 1))) by ring.
  apply (derivable_pt_lim_mult u (fun x => exp (k * x))); [exact H|].
  apply (derivable_pt_lim_comp (fun x => k * x) exp); [|apply derivable_pt_lim_exp]. apply (derivable_pt_lim_scal id). apply derivable_pt_lim_id.
Qed.
Lemma law_unique F G H : add_laplace F G -> add_laplace F H -> forall s, 0 <= s -> G s = H s.
Proof.
  intros ((G' & DG) & G0 & CG & BG) ((H' & DH) & H0 & CH & BH).
  set (h := fun s => G s - H s). set (h' := fun s => G' s - H' s).
  assert (D1 : forall s, 0 < s -> derivable_pt_lim h s (h' s)).
  { intros s Hs. apply (derivable_pt_lim_minus G H); [apply DG|apply DH]; assumption. }
  assert (D2 : forall s, 0 < s -> derivable_pt_lim h' s (h s)).
  { intros s Hs. replace (h s) with ((G s - F s) - (H s - F s)) by (unfold h; ring). apply (derivable_pt_lim_minus G' H'); [apply DG|apply DH]; assumption. }
  set (p := fun s => h s + h' s). set (q := fun s => h s - h' s).
  assert (DP : forall s, 0 < s -> derivable_pt_lim p s (p s)).
  { intros s Hs. replace (p s) with (h' s + h s) by (unfold p; ring). apply (derivable_pt_lim_plus h h'); [apply D1|apply D2]; assumption. }
  assert (DQ : forall s, 0 < s -> derivable_pt_lim q s (- q s)).
  { intros s Hs. replace (- q s) with (h' s - h s) by (unfold q; ring). apply (derivable_pt_lim_minus h h'); [apply D1|apply D2]; assumption. }
  assert (EP : forall s, 0 < s -> p s = p 1 * exp (-1 * 1) * exp s).
  { intros s Hs. assert (K : forall a b, 0 < a -> a < b -> p a * exp (-1 * a) = p b * exp (-1 * b)).
    { apply (const_right (fun x => p x * exp (-1 * x))). intros x Hx. replace 0 with ((p x + -1 * p x) * exp (-1 * x)) by ring. apply (exp_deriv_mult p p). now apply DP. }
    assert (M : p s * exp (-1 * s) = p 1 * exp (-1 * 1)).
    { destruct (Rtotal_order s 1) as [L|[->|L]]; [apply K; lra|reflexivity|symmetry; apply K; lra]. }
    rewrite <- M. rewrite Rmult_assoc, <- exp_plus. replace (-1 * s + s) with 0 by ring. rewrite exp_0. ring. }
  assert (EQ : forall s, 0 < s -> q s = q 1 * exp (1 * 1) * exp (- s)).
  { intros s Hs. assert (K : forall a b, 0 < a -> a < b -> q a * exp (1 * a) = q b * exp (1 * b)).
    { apply (const_right (fun x => q x * exp (1 * x))). intros x Hx. replace 0 with ((- q x + 1 * q x) * exp (1 * x)) by ring. apply (exp_deriv_mult q (fun x => - q x)). now apply DQ. }
    assert (M : q s * exp (1 * s) = q 1 * exp (1 * 1)).
    { destruct (Rtotal_order s 1) as [L|[->|L]]; [apply K; lra|reflexivity|symmetry; apply K; lra]. }
    rewrite <- M. rewrite Rmult_assoc, <- exp_plus. replace (1 * s + - s) with 0 by ring. rewrite exp_0. ring. }
  set (c := p 1 * exp (-1 * 1)) in *. set (d := q 1 * exp (1 * 1)) in *.
  assert (EH : forall s, 0 < s -> h s = (c * exp s + d * exp (- s)) / 2).
  { intros s Hs. rewrite <- (EP s Hs), <- (EQ s Hs). unfold p, q. field. }
  assert (BD : forall s, 0 <= s -> -1 <= h s <= 1) by (intros s Hs; unfold h; specialize (BG s Hs); specialize (BH s Hs); lra).
  assert (C0 : c = 0).
  { destruct (Req_dec c 0) as [|N]; [assumption|exfalso].
    (* at s large, |c| exp s exceeds 2 + |d| *)
    set (s := (3 + Rabs d) / Rabs c + 1). assert (Ac : 0 < Rabs c) by now apply Rabs_pos_lt. pose proof (Rabs_pos d) as Ad.
    assert (Hs : 0 < s). { unfold s. assert (0 < (3 + Rabs d) / Rabs c) by (apply Rdiv_lt_0_compat; lra). lra. }
    pose proof (exp_ineq1 s ltac:(lra)) as X. specialize (EH s Hs). specialize (BD s ltac:(lra)).
    assert (Y : exp (- s) < 1) by (rewrite <- exp_0; apply exp_increasing; lra). pose proof (exp_pos (- s)).
    assert (Z : Rabs c * exp s <= 2 + Rabs d).
    { rewrite <- (Rabs_pos_eq (exp s)) by (left; apply exp_pos). rewrite <- Rabs_mult. replace (c * exp s) with (2 * h s + - (d * exp (- s))) by lra.
      eapply Rle_trans; [apply Rabs_triang|]. apply Rplus_le_compat; [apply Rabs_le; lra|]. rewrite Rabs_Ropp, Rabs_mult, (Rabs_pos_eq (exp (- s))) by lra.
      rewrite <- (Rmult_1_r (Rabs d)) at 2. apply Rmult_le_compat_l; lra. }
    assert (W : Rabs c * s < Rabs c * exp s) by (apply Rmult_lt_compat_l; lra).
    assert (V : Rabs c * s = 3 + Rabs d + Rabs c) by (unfold s; field; lra). lra. }
  assert (D0 : d = 0).
  { destruct (Req_dec d 0) as [|N]; [assumption|exfalso]. assert (Ad : 0 < Rabs d) by now apply Rabs_pos_lt.
    assert (CH' : continuity_pt h 0) by (apply continuity_pt_minus; assumption).
    set (e1 := exp (-1)). assert (E1 : 0 < e1) by apply exp_pos.
    destruct (CH' (Rabs d * e1 / 2)) as (al & Pal & Hal); [apply Rlt_gt; apply Rdiv_lt_0_compat; [apply Rmult_lt_0_compat; assumption|lra]|].
    set (s := Rmin (al / 2) 1). assert (Hs : 0 < s <= 1) by (unfold s; split; [apply Rmin_glb_lt; lra|apply Rmin_r]).
    assert (Ls : s < al) by (apply Rle_lt_trans with (al / 2); [apply Rmin_l|lra]).
    specialize (Hal s). cbn in Hal. unfold R_dist in Hal. assert (Z : h 0 = 0) by (unfold h; lra). rewrite Z in Hal.
    assert (Q : Rabs (h s - 0) < Rabs d * e1 / 2). { apply Hal. split; [split; [exact Logic.I|lra]|]. rewrite Rminus_0_r, Rabs_pos_eq; lra. }
    rewrite Rminus_0_r, (EH s ltac:(lra)), C0 in Q. replace ((0 * exp s + d * exp (- s)) / 2) with (d * (exp (- s) / 2)) in Q by field.
    rewrite Rabs_mult, (Rabs_pos_eq (exp (- s) / 2)) in Q by (pose proof (exp_pos (- s)); lra).
    assert (e1 <= exp (- s)). { unfold e1. destruct (Req_dec s 1) as [->|]; [right; f_equal; ring|left; apply exp_increasing; lra]. }
    assert (Rabs d * (e1 / 2) <= Rabs d * (exp (- s) / 2)) by (apply Rmult_le_compat_l; lra). lra. }
  intros s [Hs|<-].
  - specialize (EH s Hs). rewrite C0, D0 in EH. unfold h in EH. lra.
  - now rewrite G0, H0.
Qed.
