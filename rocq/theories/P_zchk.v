(* P_zchk.v: lemmas about the checks of the dead time model *)
From Verif Require Import Np Lib M_utils Cplx M_espec M_zhang M_zchk S_zchk P_zhang.
From Coq Require Import Reals List Lra Lia.
Import ListNotations.
Open Scope R_scope.

Lemma agree_small td ri r0 : 0 <= td -> rates_agree td ri r0 -> r0 * td < 1 /\ r0 = ri / (1 + ri * td) /\ ri = r0 / (1 - r0 * td).
Proof.
  intros T (A & B & C). assert (0 < 1 - r0 * td) by nra. assert (0 <= ri * td) by nra.
  split; [lra|]. split.
  - apply Rmult_eq_reg_r with (1 + ri * td); [|lra]. unfold Rdiv. rewrite Rmult_assoc, Rinv_l by lra. lra.
  - apply Rmult_eq_reg_r with (1 - r0 * td); [|lra]. unfold Rdiv. rewrite (Rmult_assoc r0), Rinv_l by lra. lra.
Qed.
Lemma agree_det td ri r0 : 0 <= td -> rates_agree td ri r0 -> r_det td ri = Ok r0.
Proof. intros T A. destruct (agree_small _ _ _ T A) as (_ & E & _). rewrite r_det_value by (try assumption; apply A). rewrite <- E. reflexivity. Qed.
Lemma agree_in td ri r0 : 0 <= td -> rates_agree td ri r0 -> r_in td r0 = Ok ri.
Proof. intros T A. destruct (agree_small _ _ _ T A) as (S & _ & E). rewrite r_in_value by (try apply A; lra). rewrite <- E. reflexivity. Qed.
Lemma agree_exists td ri : 0 <= td -> 0 < ri -> exists r0, rates_agree td ri r0.
Proof.
  intros T A. assert (0 <= ri * td) by nra. exists (ri / (1 + ri * td)). split; [assumption|]. split.
  - apply Rdiv_lt_0_compat; lra.
  - field. lra.
Qed.
Lemma rates_both td ri r0 : 0 <= td -> rates_agree td ri r0 -> check_rates ri td true = Ok (1 / ri, r0) /\ check_rates r0 td false = Ok (1 / ri, r0).
Proof.
  intros T A. pose proof (proj1 A) as P. unfold check_rates. rewrite (agree_det _ _ _ T A), (agree_in _ _ _ T A).
  simpl. rewrite !py_div_ok by lra. split; reflexivity.
Qed.
Lemma limit_det td r r0 tb : r_det td r = Ok r0 -> limit_a r td tb = Ok ((r0 * tb) ^ 2).
Proof. intros E. unfold limit_a. rewrite E. simpl. f_equal. ring. Qed.

Lemma nth_map_seq (f : nat -> R) a n k d : (k < n)%nat -> nth k (map f (seq a n)) d = f (a + k)%nat.
Proof. intros H. rewrite (nth_indep _ d (f 0%nat)) by (rewrite map_length, seq_length; lia). rewrite map_nth. rewrite seq_nth by lia. reflexivity. Qed.

Lemma check_a_incident td ri r0 tb max_k : 0 <= td -> rates_agree td ri r0 -> exists o, check_a ri td tb max_k true = Ok o /\
  ca_k o = seq 0 (S max_k) /\ ca_values o = map (fun k => a_single_k k r0 td tb (1 / ri)) (seq 0 (S max_k)) /\
  curve_right (fun k => a_single_k k r0 td tb (1 / ri)) r0 tb max_k (ca_drawn o).
Proof.
  intros T A. unfold check_a. rewrite (proj1 (rates_both _ _ _ T A)). cbn [bind]. rewrite (limit_det _ _ _ tb (agree_det _ _ _ T A)). cbn [bind].
  eexists. split; [reflexivity|]. rewrite Nat.add_1_r. cbn [ca_k ca_values ca_drawn]. split; [reflexivity|]. split; [reflexivity|].
  unfold a_terms. split; [rewrite !map_length, seq_length; reflexivity|]. intros k K. rewrite map_map, nth_map_seq by lia. reflexivity.
Qed.
(* with the detected rate: the same terms, but the limit of a smaller rate *)
Lemma check_a_detected td ri r0 tb max_k : 0 <= td -> rates_agree td ri r0 -> exists o o', check_a r0 td tb max_k false = Ok o /\
  check_a ri td tb max_k true = Ok o' /\ ca_k o = ca_k o' /\ ca_values o = ca_values o' /\ length (ca_drawn o) = S max_k /\
  forall k, (k <= max_k)%nat -> nth k (ca_drawn o) 0 = nth k (ca_drawn o') 0 + (r0 * tb) ^ 2 - (r0 / (1 + r0 * td) * tb) ^ 2.
Proof.
  intros T A. unfold check_a. rewrite (proj1 (rates_both _ _ _ T A)), (proj2 (rates_both _ _ _ T A)). cbn [bind].
  rewrite (limit_det _ _ _ tb (agree_det _ _ _ T A)). rewrite (limit_det td r0 _ tb (r_det_value td r0 T (proj1 (proj2 A)))). cbn [bind].
  do 2 eexists. split; [reflexivity|]. split; [reflexivity|]. rewrite Nat.add_1_r. cbn [ca_k ca_values ca_drawn]. split; [reflexivity|]. split; [reflexivity|].
  unfold a_terms. split; [rewrite !map_length, seq_length; reflexivity|]. intros k K. rewrite !map_map, !nth_map_seq by lia. lra.
Qed.
Lemma limit_low td r0 tb : 0 < td -> 0 < r0 -> 0 < tb -> (r0 / (1 + r0 * td) * tb) ^ 2 < (r0 * tb) ^ 2.
Proof.
  intros T A B. assert (0 < r0 * td) by nra. assert (0 < r0 * tb) by nra.
  assert (0 < r0 / (1 + r0 * td)) by (apply Rdiv_lt_0_compat; lra).
  assert (r0 / (1 + r0 * td) < r0). { apply Rmult_lt_reg_r with (1 + r0 * td); [lra|]. unfold Rdiv. rewrite Rmult_assoc, Rinv_l by lra. nra. }
  assert (r0 / (1 + r0 * td) * tb < r0 * tb) by (apply Rmult_lt_compat_r; assumption). assert (0 < r0 / (1 + r0 * td) * tb) by (apply Rmult_lt_0_compat; assumption).
  simpl. rewrite !Rmult_1_r. apply Rmult_le_0_lt_compat; lra.
Qed.
Lemma check_a_high td ri r0 tb max_k : 0 < td -> 0 < tb -> rates_agree td ri r0 -> exists o, check_a r0 td tb max_k false = Ok o /\
  forall k, (k <= max_k)%nat -> nth k (ca_drawn o) 0 > a_single_k k r0 td tb (1 / ri) - (r0 * tb) ^ 2.
Proof.
  intros T B A. destruct (check_a_detected td ri r0 tb max_k (Rlt_le _ _ T) A) as (o & o' & E & E' & _ & _ & _ & N).
  exists o. split; [exact E|]. intros k K. rewrite (N k K). destruct (check_a_incident td ri r0 tb max_k (Rlt_le _ _ T) A) as (q & Q & _ & _ & _ & V).
  rewrite E' in Q. injection Q as <-. rewrite (V k K). pose proof (limit_low td r0 tb T (proj1 (proj2 A)) B). lra.
Qed.
Lemma example_rates : rates_agree (1 / 2) 2 1.
Proof. unfold rates_agree. lra. Qed.
Lemma check_a_refuted : exists td ri r0 tb max_k o, 0 < td /\ 0 < tb /\ rates_agree td ri r0 /\ check_a r0 td tb max_k false = Ok o /\
  ~ curve_right (fun k => a_single_k k r0 td tb (1 / ri)) r0 tb max_k (ca_drawn o).
Proof.
  destruct (check_a_high (1 / 2) 2 1 1 0%nat) as (o & E & H); [lra|lra|exact example_rates|].
  exists (1 / 2), 2, 1, 1, 0%nat, o. split; [lra|]. split; [lra|]. split; [exact example_rates|]. split; [exact E|].
  intros (_ & C). specialize (C 0%nat (le_n _)). specialize (H 0%nat (le_n _)). lra.
Qed.
Lemma check_a_zero_rate td tb max_k b : check_a 0 td tb max_k b = Err ZeroDivisionError.
Proof. unfold check_a, check_rates, r_in. destruct b; rewrite py_div_0; reflexivity. Qed.
Lemma check_saturated td tb max_k : td <> 0 -> check_a (1 / td) td tb max_k false = Err ZeroDivisionError /\ check_b (1 / td) td tb max_k false = Err ZeroDivisionError.
Proof. intros T. unfold check_a, check_b, check_rates. rewrite rate_saturated by assumption. split; reflexivity. Qed.

Lemma log10_pow k : 0 < k -> Rpower 10 (3 * log10 k - 15) = k ^ 3 / 10 ^ 15.
Proof.
  intros K. unfold Rminus. rewrite Rpower_plus. unfold Rdiv. f_equal.
  - unfold Rpower. replace (3 * log10 k * ln 10) with (INR 3 * ln k).
    + change (exp (INR 3 * ln k)) with (Rpower k (INR 3)). apply Rpower_pow. assumption.
    + unfold log10. simpl. field. apply Rgt_not_eq. rewrite <- ln_1. apply ln_increasing; lra.
  - rewrite Rpower_Ropp. f_equal. replace 15 with (INR 15) by (simpl; lra). rewrite Rpower_pow by lra. reflexivity.
Qed.
Lemma check_b_both td ri r0 tb max_k : 0 < td -> rates_agree td ri r0 -> exists o, check_b ri td tb max_k true = Ok o /\ check_b r0 td tb max_k false = Ok o /\
  cb_k o = seq 1 max_k /\ b_right (fun k => a_single_k k r0 td tb (1 / ri)) r0 tb max_k (cb_values o) /\
  length (cb_threshold o) = max_k /\ forall k, (1 <= k <= max_k)%nat -> nth (k - 1) (cb_threshold o) 0 = Rmax (tb / td) 1 * INR k ^ 3 / 10 ^ 15.
Proof.
  intros T A. unfold check_b. rewrite (proj1 (rates_both _ _ _ (Rlt_le _ _ T) A)), (proj2 (rates_both _ _ _ (Rlt_le _ _ T) A)). cbn [bind].
  rewrite py_div_ok by lra. cbn [bind]. eexists. split; [reflexivity|]. split; [reflexivity|]. cbn [cb_k cb_values cb_threshold]. split; [reflexivity|]. split.
  - split; [unfold b_terms; rewrite map_length, seq_length; reflexivity|]. intros k K. unfold b_terms. rewrite nth_map_seq by lia.
    replace (1 + (k - 1))%nat with k by lia. unfold safe_b. replace (Nat.ltb max_k k) with false by (symmetry; apply Nat.ltb_ge; lia).
    destruct k as [|k]; [lia|]. unfold b_raw. f_equal. f_equal. ring.
  - split; [rewrite map_length, seq_length; reflexivity|]. intros k K. rewrite nth_map_seq by lia. replace (1 + (k - 1))%nat with k by lia.
    unfold precision_digits. rewrite log10_pow by (apply lt_0_INR; lia). unfold Rdiv. ring.
Qed.
(* the two checks agree for incident rates *)
Lemma checks_agree td ri r0 tb max_k k : 0 < td -> rates_agree td ri r0 -> (1 <= k <= max_k)%nat -> exists a b, check_a ri td tb max_k true = Ok a /\
  check_b ri td tb max_k true = Ok b /\ nth (k - 1) (cb_values b) 0 = 4 * nth k (ca_drawn a) 0 / (r0 * tb).
Proof.
  intros T A K. destruct (check_a_incident td ri r0 tb max_k (Rlt_le _ _ T) A) as (a & E & _ & _ & _ & V). destruct (check_b_both td ri r0 tb max_k T A) as (b & F & _ & _ & (_ & W) & _).
  exists a, b. split; [exact E|]. split; [exact F|]. rewrite V by lia. apply W. exact K.
Qed.
