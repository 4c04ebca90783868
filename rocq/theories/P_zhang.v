(* P_zhang.v: rates, terms of the dead time model *)
From Verif Require Import Np Lib M_utils Cplx M_espec S_zhang M_zhang.
From Coq Require Import Lra Lia.
Open Scope R_scope.

(* ---- rates ---- *)
Lemma py_div_ok a b : b <> 0 -> py_div a b = Ok (a / b).
Proof. intros H. unfold py_div. destruct (Req_EM_T b 0); [contradiction|reflexivity]. Qed.
Lemma py_div_0 a : py_div a 0 = Err ZeroDivisionError.
Proof. unfold py_div. destruct (Req_EM_T 0 0); [reflexivity|congruence]. Qed.
Lemma inv_pos r : 0 < r -> 0 < 1 / r.
Proof. intros H. unfold Rdiv. rewrite Rmult_1_l. now apply Rinv_0_lt_compat. Qed.
Lemma r_det_value td r : 0 <= td -> 0 < r -> r_det td r = Ok (r / (1 + r * td)).
Proof.
  intros Ht Hr. unfold r_det. rewrite py_div_ok by lra. cbn [bind]. pose proof (inv_pos r Hr). rewrite py_div_ok by lra. f_equal. field.
  split; [nra|lra].
Qed.
Lemma r_in_value td r : 0 < r -> r * td <> 1 -> r_in td r = Ok (r / (1 - r * td)).
Proof.
  intros Hr Ht. unfold r_in. rewrite py_div_ok by lra. cbn [bind].
  replace (1 / r - td) with ((1 - r * td) / r) by (field; lra). assert (N : 1 - r * td <> 0) by lra.
  rewrite py_div_ok; [f_equal; field; split; [exact N|lra]|]. unfold Rdiv. apply Rmult_integral_contrapositive_currified; [exact N|].
  apply Rinv_neq_0_compat. lra.
Qed.
Lemma rates_inverse td r : 0 <= td -> 0 < r -> exists r0, r_det td r = Ok r0 /\ r_in td r0 = Ok r /\ 0 < r0 <= r /\ r0 * td < 1.
Proof.
  intros Ht Hr. exists (r / (1 + r * td)). assert (D : 1 <= 1 + r * td) by nra. pose proof (Rinv_0_lt_compat (1 + r * td) ltac:(lra)) as I.
  assert (P : 0 < r / (1 + r * td)) by (unfold Rdiv; nra).
  assert (E : r / (1 + r * td) * td = 1 - / (1 + r * td)) by (field; lra).
  split; [now apply r_det_value|]. split.
  - rewrite r_in_value; [|exact P|lra]. f_equal. rewrite E. field. lra.
  - split; [|lra]. split; [exact P|]. apply (Rmult_le_reg_r (1 + r * td)); [lra|]. unfold Rdiv. rewrite Rmult_assoc, Rinv_l by lra. nra.
Qed.
Lemma rates_inverse2 td r0 : 0 <= td -> 0 < r0 -> r0 * td < 1 -> exists r, r_in td r0 = Ok r /\ r_det td r = Ok r0 /\ r0 <= r.
Proof.
  intros Ht Hr H. exists (r0 / (1 - r0 * td)). assert (P : 0 < r0 / (1 - r0 * td)) by (unfold Rdiv; pose proof (Rinv_0_lt_compat (1 - r0 * td) ltac:(lra)); nra).
  split; [apply r_in_value; lra|]. split.
  - rewrite r_det_value by assumption. f_equal. field. split; [lra|]. lra.
  - apply (Rmult_le_reg_r (1 - r0 * td)); [lra|]. unfold Rdiv. rewrite Rmult_assoc, Rinv_l by lra. nra.
Qed.
Lemma rate_saturated td : td <> 0 -> r_in td (1 / td) = Err ZeroDivisionError.
Proof.
  intros H. unfold r_in. rewrite py_div_ok by (apply Rmult_integral_contrapositive_currified; [lra|now apply Rinv_neq_0_compat]).
  cbn [bind]. replace (1 / (1 / td) - td) with 0 by (field; exact H). apply py_div_0.
Qed.
Lemma limit_value td tb r : 0 <= td -> 0 < r -> exists r0, r_det td r = Ok r0 /\ limit_a r td tb = Ok ((r0 * tb) ^ 2).
Proof.
  intros Ht Hr. destruct (rates_inverse td r Ht Hr) as (r0 & E & _). exists r0. split; [exact E|]. unfold limit_a. rewrite E. cbn [bind]. f_equal. ring.
Qed.

(* ---- Poisson probabilities ---- *)
Lemma fact_pos m : 0 < INR (fact m).
Proof. apply lt_0_INR, lt_O_fact. Qed.
Lemma poisson_nonneg x m : 0 <= x -> 0 <= poisson x m.
Proof.
  intros H. unfold poisson, Rdiv. pose proof (exp_pos (- x)). pose proof (pow_le x m H). pose proof (Rinv_0_lt_compat _ (fact_pos m)).
  apply Rmult_le_pos; [apply Rmult_le_pos|]; lra.
Qed.
Lemma poisson_pos x m : 0 < x -> 0 < poisson x m.
Proof.
  intros H. unfold poisson, Rdiv. pose proof (exp_pos (- x)). pose proof (pow_lt x m H). pose proof (Rinv_0_lt_compat _ (fact_pos m)).
  apply Rmult_lt_0_compat; [apply Rmult_lt_0_compat|]; lra.
Qed.
Lemma poisson_next x m : poisson x (S m) = poisson x m * (x / INR (S m)).
Proof.
  unfold poisson. rewrite fact_simpl, mult_INR. cbn [pow]. field. pose proof (fact_pos m). assert (INR (S m) <> 0) by (apply not_0_INR; lia). repeat split; lra || assumption.
Qed.
Lemma emx_poisson x m : (m < 50)%nat -> e_m_x_x_over_factorial x m = poisson x m.
Proof.
  intros H. unfold e_m_x_x_over_factorial. destruct (Nat.ltb_spec m 50); [|lia]. cbn [orb].
  destruct (Req_EM_T x 0) as [->|N]; [|reflexivity]. destruct (Nat.eqb_spec m 0) as [->|]; [|reflexivity].
  unfold poisson. cbn [pow fact INR]. rewrite Ropp_0, exp_0. field.
Qed.

(* ---- the truncated sum ---- *)
Section Gn.
Variables (x : R) (n : nat).
Hypothesis Hx : 0 <= x.
Hypothesis Hn : (n <= 50)%nat.
Definition term (m : nat) : R := poisson x m * INR (n - m).
Lemma term_nonneg m : 0 <= term m.
Proof. unfold term. pose proof (poisson_nonneg x m Hx). pose proof (pos_INR (n - m)). nra. Qed.
Lemma term_half m : 2 * x < INR m -> 2 * term (S m) <= term m.
Proof.
  intros H. unfold term. rewrite poisson_next. pose proof (poisson_nonneg x m Hx) as P.
  assert (Q : x / INR (S m) <= 1 / 2).
  { rewrite S_INR. apply (Rmult_le_reg_r (INR m + 1)); [lra|]. unfold Rdiv. rewrite Rmult_assoc, Rinv_l by lra. lra. }
  assert (Q0 : 0 <= x / INR (S m)) by (unfold Rdiv; apply Rmult_le_pos; [exact Hx|left; apply Rinv_0_lt_compat, lt_0_INR; lia]).
  assert (I : INR (n - S m) <= INR (n - m)) by (apply le_INR; lia). pose proof (pos_INR (n - S m)).
  assert (x / INR (S m) * INR (n - S m) <= 1 / 2 * INR (n - m)) by (apply Rmult_le_compat; assumption). nra.
Qed.
Lemma tail_small steps : forall m, 2 * x < INR m -> rs steps (fun i => term (S m + i)) <= term m.
Proof.
  induction steps as [|k IH]; intros m H; [rewrite rs_0; apply term_nonneg|].
  rewrite rs_first, Nat.add_0_r. assert (H' : 2 * x < INR (S m)) by (rewrite S_INR; lra). pose proof (IH (S m) H') as T. pose proof (term_half m H).
  rewrite (rs_ext k _ (fun i => term (S (S m) + i))) by (intros; f_equal; lia). lra.
Qed.
Lemma stop_small m s : (m < n)%nat -> gn_stop x m (term m) s = true -> 0 < s /\ 2 * x < INR m /\ term m <= / 10 ^ 15 * s.
Proof.
  intros Hm. unfold gn_stop. destruct (Req_EM_T x 0) as [|Nx]; [discriminate|]. destruct (Rlt_dec 0 s) as [Hs|]; [|discriminate].
  destruct (Rlt_dec (2 * x) (INR m)) as [H2|]; [|discriminate]. destruct (Rlt_dec precision_digits _) as [H|]; [|discriminate]. intros _.
  split; [exact Hs|]. split; [exact H2|].
  assert (T : 0 < term m). { unfold term. apply Rmult_lt_0_compat; [apply poisson_pos; lra|apply lt_0_INR; lia]. }
  assert (Q : 0 < term m / s) by (unfold Rdiv; apply Rmult_lt_0_compat; [exact T|now apply Rinv_0_lt_compat]).
  rewrite Rabs_pos_eq in H by lra. unfold log10, precision_digits in H. assert (L10 : 0 < ln 10) by (rewrite <- ln_1; apply ln_increasing; lra).
  assert (LN : ln (term m / s) < - (15 * ln 10)).
  { apply (Rmult_lt_reg_r (/ ln 10)); [now apply Rinv_0_lt_compat|]. unfold Rdiv in H at 1. replace (- (15 * ln 10) * / ln 10) with (-15) by (field; lra). lra. }
  assert (E : ln (/ 10 ^ 15) = - (15 * ln 10)). { rewrite ln_Rinv by (apply pow_lt; lra). f_equal. rewrite ln_pow by lra. cbn. lra. }
  rewrite <- E in LN. apply ln_lt_inv in LN; [|exact Q|apply Rinv_0_lt_compat, pow_lt; lra].
  apply (Rmult_le_reg_r (/ s)); [now apply Rinv_0_lt_compat|]. rewrite Rmult_assoc, Rinv_r by lra. unfold Rdiv in LN. lra.
Qed.
Lemma loop_close steps : forall m s, (m + steps = n)%nat -> 0 <= s ->
  let r := gn_loop x n steps m s in let total := s + rs steps (fun i => term (m + i)) in 0 <= r <= total /\ total - r <= / 10 ^ 15 * r.
Proof.
  assert (E15 : 0 < / 10 ^ 15) by (apply Rinv_0_lt_compat, pow_lt; lra).
  induction steps as [|k IH]; intros m s Hm Hs; cbn [gn_loop]; cbv zeta.
  - rewrite rs_0. split; [lra|]. nra.
  - rewrite emx_poisson by lia. fold (term m). pose proof (term_nonneg m) as T. rewrite rs_first, Nat.add_0_r.
    rewrite (rs_ext k _ (fun i => term (S m + i))) by (intros; f_equal; lia).
    destruct (gn_stop x m (term m) (s + term m)) eqn:E.
    + apply stop_small in E; [|lia]. destruct E as (E1 & E2 & E3). pose proof (tail_small k m E2) as T2.
      assert (0 <= rs k (fun i => term (S m + i))) by (apply rs_nonneg; intros; apply term_nonneg). lra.
    + destruct (IH (S m) (s + term m)) as [I1 I2]; [lia|lra|]. cbv zeta in I1, I2. lra.
Qed.
Lemma gn_close : let g := gn x n in g <= poisson_deficit x n /\ poisson_deficit x n - g <= / 10 ^ 15 * g /\ 0 <= g.
Proof.
  cbv zeta. assert (E : poisson_deficit x n = 0 + rs n (fun i => term (0 + i))).
  { rewrite Rplus_0_l. unfold poisson_deficit. apply rs_ext. intros m Hm. cbn [Nat.add]. unfold term. now rewrite minus_INR by lia. }
  rewrite E. destruct (loop_close n 0 0) as [A B]; [lia|lra|]. cbv zeta in A, B. unfold gn. lra.
Qed.
End Gn.

(* ---- the deficit is at least n - x ---- *)
Definition cdf (n : nat) (x : R) : R := rs n (poisson x).
Lemma deficit_next x n : poisson_deficit x (S n) = poisson_deficit x n + cdf (S n) x.
Proof.
  unfold poisson_deficit, cdf. rewrite !rs_S, S_INR.
  rewrite (rs_ext n (fun m => poisson x m * (INR n + 1 - INR m)) (fun m => poisson x m * (INR n - INR m) + poisson x m)) by (intros; ring).
  rewrite rs_plus. ring.
Qed.
Lemma poisson_derive m x : derivable_pt_lim (fun y => poisson y m) x ((match m with O => 0 | S k => poisson x k end) - poisson x m).
Proof.
  unfold poisson.
  assert (D1 : derivable_pt_lim (fun y => exp (- y)) x (- exp (- x))).
  { replace (- exp (- x)) with (exp (- x) * -1) by ring. apply (derivable_pt_lim_comp (fun y => - y) exp); [|apply derivable_pt_lim_exp].
    apply derivable_pt_lim_opp, derivable_pt_lim_id. }
  assert (D2 : derivable_pt_lim (fun y => y ^ m) x (INR m * x ^ pred m)) by apply derivable_pt_lim_pow.
  pose proof (derivable_pt_lim_mult _ _ _ _ _ D1 D2) as D3. pose proof (derivable_pt_lim_scal _ (/ INR (fact m)) _ _ D3) as D4.
  unfold mult_real_fct, mult_fct in D4.
  replace (_ - _) with (/ INR (fact m) * (- exp (- x) * x ^ m + exp (- x) * (INR m * x ^ pred m))).
  - intros eps He. destruct (D4 eps He) as [d Hd]. exists d. intros h Hh Hd'. specialize (Hd h Hh Hd').
    replace (exp (- (x + h)) * (x + h) ^ m / INR (fact m) - exp (- x) * x ^ m / INR (fact m)) with
            (/ INR (fact m) * (exp (- (x + h)) * (x + h) ^ m) - / INR (fact m) * (exp (- x) * x ^ m)) by (unfold Rdiv; ring). exact Hd.
  - destruct m as [|k]; [cbn; lra|]. rewrite fact_simpl, mult_INR. cbn [pow pred]. field. pose proof (fact_pos k). assert (INR (S k) <> 0) by (apply not_0_INR; lia). repeat split; lra || assumption.
Qed.
Lemma derive_ext f g x l : (forall y, f y = g y) -> derivable_pt_lim f x l -> derivable_pt_lim g x l.
Proof. intros E H eps He. destruct (H eps He) as [d Hd]. exists d. intros h H1 H2. rewrite <- !E. now apply Hd. Qed.
Lemma cdf_derive n x : derivable_pt_lim (cdf (S n)) x (- poisson x n).
Proof.
  induction n as [|n IH].
  - apply (derive_ext (fun y => poisson y 0)).
    + intros y. unfold cdf. rewrite rs_S, rs_0. ring.
    + replace (- poisson x 0) with (0 - poisson x 0) by ring. apply (poisson_derive 0).
  - apply (derive_ext (fun y => cdf (S n) y + poisson y (S n))).
    + intros y. unfold cdf. now rewrite (rs_S (S n)).
    + replace (- poisson x (S n)) with (- poisson x n + (poisson x n - poisson x (S n))) by ring.
      apply (derivable_pt_lim_plus (cdf (S n)) (fun y => poisson y (S n))); [exact IH|apply (poisson_derive (S n))].
Qed.
Lemma deficit_derive n x : derivable_pt_lim (fun y => poisson_deficit y n) x (- cdf n x).
Proof.
  induction n as [|n IH].
  - apply (derive_ext (fun _ => 0)); [intros y; unfold poisson_deficit; now rewrite rs_0|].
    unfold cdf. rewrite rs_0, Ropp_0. apply derivable_pt_lim_const.
  - apply (derive_ext (fun y => poisson_deficit y n + cdf (S n) y)); [intros; now rewrite deficit_next|].
    replace (- cdf (S n) x) with (- cdf n x + - poisson x n) by (unfold cdf; rewrite rs_S; ring).
    apply (derivable_pt_lim_plus (fun y => poisson_deficit y n) (cdf (S n))); [exact IH|apply cdf_derive].
Qed.
Lemma rs_sum n f : rs (S n) f = sum_f_R0 f n.
Proof. induction n as [|n IH]; [rewrite rs_S, rs_0; cbn; ring|]. rewrite rs_S, IH. reflexivity. Qed.
Lemma cdf_le_1 n x : 0 <= x -> cdf n x <= 1.
Proof.
  intros H. destruct n as [|n]; [unfold cdf; rewrite rs_0; lra|].
  assert (E : cdf (S n) x = exp (- x) * sum_f_R0 (fun m => / INR (fact m) * x ^ m) n).
  { unfold cdf. rewrite <- rs_sum, <- rs_scal_l. apply rs_ext. intros m _. unfold poisson, Rdiv. ring. }
  assert (S : sum_f_R0 (fun m => / INR (fact m) * x ^ m) n <= exp x).
  { apply sum_incr.
    - unfold exp. destruct (exist_exp x) as [l Hl]. exact Hl.
    - intros m. pose proof (Rinv_0_lt_compat _ (fact_pos m)). pose proof (pow_le x m H). nra. }
  rewrite E, exp_Ropp. pose proof (exp_pos x). apply (Rmult_le_reg_l (exp x)); [exact H0|]. rewrite <- Rmult_assoc, Rinv_r by lra. lra.
Qed.
Lemma deficit_zero n : poisson_deficit 0 n = INR n.
Proof.
  induction n as [|n IH]; [unfold poisson_deficit; rewrite rs_0; reflexivity|]. rewrite deficit_next, IH, S_INR. f_equal.
  unfold cdf. rewrite rs_first, rs_zero.
  - unfold poisson. cbn [pow fact INR]. rewrite Ropp_0, exp_0. field.
  - intros i _. unfold poisson. cbn [pow]. unfold Rdiv. ring.
Qed.
Definition excess (n : nat) (x : R) : R := x - INR n + poisson_deficit x n.
Lemma excess_increasing n a b : 0 <= a <= b -> excess n a <= excess n b.
Proof.
  intros [Ha [Hab| ->]]; [|lra].
  assert (D : forall c, a <= c <= b -> derivable_pt_lim (excess n) c (1 - cdf n c)).
  { intros c _. unfold excess. replace (1 - cdf n c) with (1 - 0 + - cdf n c) by ring.
    apply (derivable_pt_lim_plus (fun y => y - INR n) (fun y => poisson_deficit y n)); [|apply deficit_derive].
    apply (derivable_pt_lim_minus (fun y => y) (fun _ => INR n)); [apply derivable_pt_lim_id|apply derivable_pt_lim_const]. }
  destruct (MVT_cor2 _ _ a b Hab D) as (c & E & Hc). pose proof (cdf_le_1 n c ltac:(lra)). nra.
Qed.
Lemma excess_nonneg n x : 0 <= x -> 0 <= excess n x.
Proof.
  intros H. replace 0 with (excess n 0); [apply excess_increasing; lra|]. unfold excess. rewrite deficit_zero. ring.
Qed.
