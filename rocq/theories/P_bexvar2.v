(* P_bexvar2.v: quantile functions of the gamma distribution exist. *)
From Verif Require Import Np M_utils Cplx S_chi2 S_bexvar P_chi2 P_chi22 P_bexvar.
From Coq Require Import Reals List Arith ZArith Bool Lia Lra.
Import ListNotations.
Open Scope R_scope.
Lemma erlang_zero n : erlang (S n) 0 = 1.
Proof.
  induction n as [|n IH]; [unfold erlang; rewrite rs_S, rs_0, Ropp_0, exp_0; cbn [fact INR pow]; field|].
  rewrite erlang_S, IH. cbn [pow]. unfold Rdiv. ring.
Qed.
Lemma erlang_small n z : 0 < z -> erlang (S n) z <= 2 ^ n / (1 + z / 2).
Proof.
  intros Z. pose proof (erlang_down n 0 (z / 2) (Rle_refl 0) ltac:(lra)) as D. rewrite erlang_zero in D.
  assert (A : erlang (S n) z <= 2 ^ n * exp (- (z / 2)) * erlang (S n) (z / 2)).
  { unfold erlang. rewrite <- !Rmult_assoc. replace (2 ^ n * exp (- (z / 2)) * exp (- (z / 2))) with (exp (- z) * 2 ^ n) by (replace (- z) with (- (z / 2) + - (z / 2)) by field; rewrite exp_plus; ring).
    rewrite Rmult_assoc. apply Rmult_le_compat_l; [left; apply exp_pos|]. rewrite <- rs_scal_l. apply rs_le. intros k Hk.
    replace (z ^ k) with (2 ^ k * (z / 2) ^ k) by (rewrite <- Rpow_mult_distr; f_equal; field). unfold Rdiv at 1. rewrite Rmult_assoc. apply Rmult_le_compat_r; [|apply Rle_pow; [lra|lia]].
    apply Rmult_le_pos; [apply pow_le; lra|]. left. apply Rinv_0_lt_compat, lt_0_INR, lt_O_fact. }
  assert (P : 0 <= 2 ^ n) by (apply pow_le; lra). assert (E : exp (- (z / 2)) <= / (1 + z / 2)) by (rewrite exp_Ropp; apply Rinv_le_contravar; [lra|apply exp_ineq1_le]).
  pose proof (exp_pos (- (z / 2))). apply (Rle_trans _ _ _ A). apply (Rle_trans _ (2 ^ n * exp (- (z / 2)) * 1)); [apply Rmult_le_compat_l; [nra|exact D]|]. rewrite Rmult_1_r. now apply Rmult_le_compat_l.
Qed.
Lemma erlang_continuous n : continuity (erlang (S n)).
Proof. intros z. apply derivable_continuous_pt. exists (- (exp (- z) * (z ^ n / INR (fact n)))). apply erlang_deriv. Qed.
Lemma quantile_exists n p : 0 < p < 1 -> { z | 0 < z /\ erlang (S n) z = 1 - p }.
Proof.
  intros P. set (b := 2 * 2 ^ n / (1 - p)). assert (Q : 0 < 2 ^ n) by (apply pow_lt; lra). assert (B : 0 < b) by (apply Rdiv_lt_0_compat; lra).
  destruct (IVT (fun z => 1 - p - erlang (S n) z) 0 b) as (z & [Z1 Z2] & E).
  - apply continuity_minus; [apply continuity_const; intros x y; reflexivity|apply erlang_continuous].
  - exact B.
  - rewrite erlang_zero. lra.
  - pose proof (erlang_small n b B) as S0. assert (T : 2 ^ n / (1 + b / 2) < 1 - p); [|lra].
    apply (Rmult_lt_reg_r (1 + b / 2)); [lra|]. unfold Rdiv at 1. rewrite Rmult_assoc, Rinv_l by lra. replace ((1 - p) * (1 + b / 2)) with (1 - p + 2 ^ n) by (unfold b; field; lra). lra.
  - exists z. split; [|lra]. destruct Z1 as [Z1|Z1]; [exact Z1|]. subst z. rewrite erlang_zero in E. lra.
Qed.
Definition quantile (a p : R) : R :=
  match Rlt_dec 0 p, Rlt_dec p 1 with
  | left A, left B => proj1_sig (quantile_exists (Z.to_nat (up (a - 3 / 2))) p (conj A B))
  | _, _ => 0
  end.
Lemma quantile_ok : quantile_function quantile.
Proof.
  intros n p [P1 P2]. unfold quantile. destruct (Rlt_dec 0 p) as [A|]; [|lra]. destruct (Rlt_dec p 1) as [B|]; [|lra].
  replace (up (INR n + 1 - 3 / 2)) with (Z.of_nat n) by (apply tech_up; rewrite <- INR_IZR_INZ; lra). rewrite Nat2Z.id.
  destruct (quantile_exists n p (conj A B)) as (z & Z1 & Z2). cbn [proj1_sig]. now split.
Qed.
