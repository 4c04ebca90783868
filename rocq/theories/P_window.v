(* P_window.v: proofs about M_window.v. *)
From Coq Require Import Reals Lra Lia.
From Verif Require Import Np Lib M_window S_window.
From Coq Require Import Lra Lia.
Open Scope R_scope.

Lemma div0_some a b : b <> 0 -> div0 a b = Some (a / b).
Proof. intros H. unfold div0. destruct (Req_EM_T b 0); [contradiction|reflexivity]. Qed.
Lemma div0_none a : div0 a 0 = None.
Proof. unfold div0. destruct (Req_EM_T 0 0); [reflexivity|contradiction]. Qed.
Lemma inr_pred N : (2 <= N)%nat -> 0 < INR (N - 1).
Proof. intros H. apply lt_0_INR. lia. Qed.

Lemma parzen_length N : (1 <= N)%nat -> length (parzen_window N) = N.
Proof.
  intros H. unfold parzen_window. rewrite firstn_length, app_length, !map_length, rev_length, !seq_length.
  assert (E := Nat.div_mod (N + 2) 2 ltac:(lia)). assert (B := Nat.mod_upper_bound (N + 2) 2 ltac:(lia)). lia.
Qed.
Lemma window_length N w l : create_window N w = Ok l -> length l = Z.to_nat (Z.abs N).
Proof.
  unfold create_window. destruct (Z.eqb_spec N 0) as [->|Hn].
  - destruct w; intros E; try discriminate; injection E as <-; reflexivity.
  - assert (1 <= Z.to_nat (Z.abs N))%nat by lia.
    destruct w; intros E; try discriminate; injection E as <-; try (rewrite map_length, seq_length; reflexivity). apply parzen_length. assumption.
Qed.
Lemma window_total N w : w <> WOther -> exists l, create_window N w = Ok l.
Proof. intros H. unfold create_window. destruct w; try contradiction; destruct (N =? 0)%Z; eexists; reflexivity. Qed.
Lemma window_unknown N : create_window N WOther = Err ValueError.
Proof. reflexivity. Qed.
Lemma window_negative N w : create_window (- N) w = create_window N w.
Proof. unfold create_window. rewrite Z.abs_opp. destruct (Z.eqb_spec N 0) as [->|H]; [reflexivity|]. destruct (Z.eqb_spec (- N) 0); [lia|]. reflexivity. Qed.

Lemma values_of N w v : (1 <= N)%nat -> w <> WParzen -> w <> WOther -> (forall n, (n < N)%nat -> window_value w N n = Some (v n)) ->
  exists l, create_window (Z.of_nat N) w = Ok l /\ window_is l N v.
Proof.
  intros HN H1 H2 HV. unfold create_window. destruct (Z.eqb_spec (Z.of_nat N) 0) as [Z0|Z0]; [lia|].
  replace (Z.to_nat (Z.abs (Z.of_nat N))) with N by lia.
  exists (map (window_value w N) (seq 0 N)). split; [destruct w; try reflexivity; contradiction|].
  split; [rewrite map_length, seq_length; reflexivity|]. intros n Hn. rewrite nth_error_map.
  rewrite (nth_error_nth' _ 0%nat) by (rewrite seq_length; assumption). rewrite seq_nth by assumption. simpl (0 + n)%nat.
  cbn [option_map]. rewrite HV by assumption. reflexivity.
Qed.

Lemma cosine_windows N w a : (2 <= N)%nat -> cosine_coefficients w = Some a ->
  exists l, create_window (Z.of_nat N) w = Ok l /\ window_is l N (cosine_sum a N).
Proof.
  intros HN Ha. assert (HP := inr_pred N HN). apply values_of; try (destruct w; discriminate); [lia|].
  intros n Hn. destruct w; try discriminate; injection Ha as <-; unfold window_value; cbv zeta; rewrite !div0_some by lra; cbn [omap]; f_equal;
    unfold cosine_sum; cbn [cosine_sum_from].
  all: set (x := 2 * PI * INR n / INR (N - 1)).
  all: replace (INR 0 * x) with 0 by (simpl; ring); rewrite cos_0; replace (INR 1 * x) with x by (simpl; ring).
  all: try (replace (INR 2 * x) with (4 * PI * INR n / INR (N - 1)) by (unfold x; simpl; field; lra)).
  all: try (replace (INR 3 * x) with (6 * PI * INR n / INR (N - 1)) by (unfold x; simpl; field; lra)).
  all: try (replace (INR 4 * x) with (8 * PI * INR n / INR (N - 1)) by (unfold x; simpl; field; lra)).
  all: lra.
Qed.
Lemma welch_window N : (2 <= N)%nat -> exists l, create_window (Z.of_nat N) WWelch = Ok l /\
  window_is l N (fun n => 1 - (2 * INR n / INR (N - 1) - 1) ^ 2).
Proof.
  intros HN. assert (HP := inr_pred N HN). apply values_of; try discriminate; [lia|].
  intros n Hn. unfold window_value. cbv zeta. rewrite div0_some by lra. cbn [omap]. f_equal. field. lra.
Qed.
Lemma triangular_window N : (1 <= N)%nat -> exists l, create_window (Z.of_nat N) WTriangular = Ok l /\
  window_is l N (fun n => 1 - Rabs (INR n - INR ((N - 1) / 2)) / INR N).
Proof.
  intros HN. assert (HP : 0 < INR N) by (apply lt_0_INR; lia). apply values_of; try discriminate; [lia|].
  intros n Hn. unfold window_value. f_equal. unfold Rdiv at 1. rewrite Rabs_mult, (Rabs_right (/ INR N)); [reflexivity|].
  apply Rle_ge, Rlt_le, Rinv_0_lt_compat. assumption.
Qed.
Lemma uniform_window N : (1 <= N)%nat -> exists l, create_window (Z.of_nat N) WUniform = Ok l /\ window_is l N (fun _ => 1).
Proof. intros HN. apply values_of; try discriminate; [lia|]. reflexivity. Qed.

(* ---------- symmetry ---------- *)
Lemma cos_mirror j x : cos (INR j * (2 * PI - x)) = cos (INR j * x).
Proof.
  replace (INR j * (2 * PI - x)) with (- (INR j * x) + 2 * INR j * PI) by ring. rewrite cos_period. apply cos_neg.
Qed.
Lemma sum_mirror a : forall j s x, cosine_sum_from j s a (2 * PI - x) = cosine_sum_from j s a x.
Proof. induction a as [|c a IH]; intros j s x; cbn [cosine_sum_from]; [reflexivity|]. rewrite cos_mirror, IH. reflexivity. Qed.
Lemma cosine_symmetric a N : (2 <= N)%nat -> symmetric N (cosine_sum a N).
Proof.
  intros HN n Hn. assert (HP := inr_pred N HN). unfold cosine_sum. rewrite <- sum_mirror. f_equal.
  rewrite (minus_INR (N - 1) n) by lia. field. lra.
Qed.
Lemma welch_symmetric N : (2 <= N)%nat -> symmetric N (fun n => 1 - (2 * INR n / INR (N - 1) - 1) ^ 2).
Proof. intros HN n Hn. assert (HP := inr_pred N HN). rewrite (minus_INR (N - 1)) by lia. field. lra. Qed.
Lemma triangular_symmetric h : symmetric (2 * h + 1) (fun n => 1 - Rabs (INR n - INR ((2 * h + 1 - 1) / 2)) / INR (2 * h + 1)).
Proof.
  intros n Hn. replace (2 * h + 1 - 1)%nat with (h * 2)%nat by lia. rewrite Nat.div_mul by lia. do 2 f_equal.
  rewrite minus_INR by lia. rewrite mult_INR. simpl (INR 2). rewrite <- Rabs_Ropp. f_equal. ring.
Qed.

(* ---------- Parzen ---------- *)
Lemma parzen_nth N n : (2 <= N)%nat -> (n < N)%nat -> let np := ((N + 2) / 2)%nat in
  nth_error (parzen_window N) n = Some (parzen_half np (if Nat.ltb n (np - 1) then (np - 1 - n) else (n - (np - 1)))%nat).
Proof.
  intros HN Hn. intros np. unfold parzen_window. fold np.
  assert (E := Nat.div_mod (N + 2) 2 ltac:(lia)). assert (B := Nat.mod_upper_bound (N + 2) 2 ltac:(lia)). fold np in E.
  assert (F : forall (l : list (option R)) p q, (p < q)%nat -> nth_error (firstn q l) p = nth_error l p).
  { clear. induction l as [|x l IH]; intros [|p] [|q] H; simpl; try lia; try reflexivity. apply IH. lia. }
  rewrite F by assumption.
  assert (SN : forall s l p, (p < l)%nat -> nth_error (seq s l) p = Some (s + p)%nat).
  { intros s l p Hp. rewrite (nth_error_nth' _ 0%nat) by (rewrite seq_length; assumption). rewrite seq_nth by assumption. reflexivity. }
  destruct (Nat.ltb_spec n (np - 1)) as [L|L].
  - rewrite nth_error_app1 by (rewrite map_length, rev_length, seq_length; lia).
    rewrite nth_error_map, (nth_error_nth' _ 0%nat) by (rewrite rev_length, seq_length; lia).
    rewrite rev_nth by (rewrite seq_length; lia). rewrite seq_length, seq_nth by lia. cbn [option_map]. f_equal.
    rewrite (nth_indep _ None (parzen_half np 0)) by (rewrite map_length, seq_length; lia).
    rewrite (map_nth (parzen_half np)), seq_nth by lia. f_equal. lia.
  - rewrite nth_error_app2 by (rewrite map_length, rev_length, seq_length; lia). rewrite map_length, rev_length, seq_length.
    rewrite nth_error_map, SN by lia. reflexivity.
Qed.
(* value of the half window *)
Definition half_value (np i : nat) : R :=
  let u := INR i / INR (np - 1) in
  if Nat.leb i (np / 2) then 1 - 6 * u ^ 2 * (1 - u) else 2 * (1 - u) ^ 3.
Lemma half_some np i : (2 <= np)%nat -> parzen_half np i = Some (half_value np i).
Proof.
  intros H. assert (HP := inr_pred np H). unfold parzen_half, half_value. rewrite div0_some by lra. 
  change (Nat.ltb i (S (np / 2))) with (Nat.leb i (np / 2)). destruct (Nat.leb i (np / 2)); cbn [omap]; f_equal; ring.
Qed.
Definition distance (c n : nat) : nat := if Nat.ltb n c then (c - n)%nat else (n - c)%nat.
Lemma parzen_values N : (2 <= N)%nat -> exists l, create_window (Z.of_nat N) WParzen = Ok l /\
  window_is l N (fun n => half_value ((N + 2) / 2) (distance ((N + 2) / 2 - 1) n)).
Proof.
  intros HN. exists (parzen_window N). unfold create_window. destruct (Z.eqb_spec (Z.of_nat N) 0) as [Z0|Z0]; [lia|].
  replace (Z.to_nat (Z.abs (Z.of_nat N))) with N by lia. split; [reflexivity|]. split; [apply parzen_length; lia|].
  intros n Hn. rewrite parzen_nth by assumption. rewrite half_some; [reflexivity|].
  assert (E := Nat.div_mod (N + 2) 2 ltac:(lia)). assert (B := Nat.mod_upper_bound (N + 2) 2 ltac:(lia)). lia.
Qed.
Lemma distance_abs c n : INR (distance c n) = Rabs (INR n - INR c).
Proof.
  unfold distance. destruct (Nat.ltb_spec n c).
  - rewrite minus_INR by lia. rewrite Rabs_left; [ring|]. apply lt_INR in H. lra.
  - rewrite minus_INR by lia. rewrite Rabs_right; [reflexivity|]. apply le_INR in H. lra.
Qed.
(* The Parzen window of half-width M when the number of points of the half is odd *)
Lemma parzen_exact N p : (2 <= N)%nat -> ((N + 2) / 2 = 2 * p + 1)%nat -> exists l, create_window (Z.of_nat N) WParzen = Ok l /\
  window_is l N (fun n => parzen (INR (2 * p)) (INR n - INR (2 * p))).
Proof.
  intros HN Hp. destruct (parzen_values N HN) as (l & E & L & V). exists l. split; [assumption|]. split; [assumption|].
  intros n Hn. rewrite V by assumption. do 2 f_equal. rewrite Hp. replace (2 * p + 1 - 1)%nat with (2 * p)%nat by lia.
  assert (p0 : (1 <= p)%nat). { assert (D := Nat.div_mod (N + 2) 2 ltac:(lia)). assert (B := Nat.mod_upper_bound (N + 2) 2 ltac:(lia)). lia. }
  assert (HP : 0 < INR (2 * p)) by (apply lt_0_INR; lia).
  unfold half_value, parzen. replace (2 * p + 1 - 1)%nat with (2 * p)%nat by lia.
  replace ((2 * p + 1) / 2)%nat with p by (rewrite Nat.add_comm, Nat.mul_comm, Nat.div_add by lia; reflexivity).
  rewrite distance_abs. set (k := INR n - INR (2 * p)).
  assert (HD : Nat.leb (distance (2 * p) n) p = true <-> Rabs k <= INR (2 * p) / 2).
  { unfold k. rewrite <- distance_abs. rewrite Nat.leb_le, mult_INR. simpl (INR 2). split; intros H.
    - apply le_INR in H. lra.
    - apply INR_le. lra. }
  destruct (Rle_dec (Rabs k) (INR (2 * p) / 2)) as [R1|R1].
  - rewrite (proj2 HD R1). f_equal. f_equal. f_equal.
    unfold Rdiv. rewrite !Rpow_mult_distr, pow2_abs. reflexivity.
  - destruct (Nat.leb _ _); [exfalso; apply R1, HD; reflexivity|]. reflexivity.
Qed.
Lemma parzen_symmetric h : (1 <= h)%nat -> symmetric (2 * h + 1) (fun n => half_value ((2 * h + 1 + 2) / 2) (distance ((2 * h + 1 + 2) / 2 - 1) n)).
Proof.
  intros H n Hn. replace ((2 * h + 1 + 2) / 2)%nat with (h + 1)%nat.
  - f_equal. unfold distance. destruct (Nat.ltb_spec n (h + 1 - 1)), (Nat.ltb_spec (2 * h + 1 - 1 - n) (h + 1 - 1)); lia.
  - replace (2 * h + 1 + 2)%nat with (1 + (h + 1) * 2)%nat by lia. rewrite Nat.div_add by lia. reflexivity.
Qed.

(* ---------- range ---------- *)
Lemma half_range np i : (2 <= np)%nat -> (i <= np - 1)%nat -> 0 <= half_value np i <= 1.
Proof.
  intros H Hi. assert (HP := inr_pred np H). unfold half_value. set (u := INR i / INR (np - 1)).
  assert (U : 0 <= u <= 1).
  { unfold u. apply le_INR in Hi. assert (H0 := pos_INR i). split.
    - apply Rmult_le_pos; [assumption|]. apply Rlt_le, Rinv_0_lt_compat. assumption.
    - apply (Rmult_le_reg_r (INR (np - 1))); [assumption|]. unfold Rdiv. rewrite Rmult_assoc, Rinv_l by lra. lra. }
  destruct (Nat.leb_spec i (np / 2)) as [L|L].
  - split; [|nra]. assert (0 <= (3 * u - 2) ^ 2 * (3 * u + 1)) by (apply Rmult_le_pos; [apply pow2_ge_0|lra]). nra.
  - (* here u >= 1/2 *)
    assert (1 <= 2 * u).
    { unfold u. apply (Rmult_le_reg_r (INR (np - 1))); [assumption|]. replace (2 * (INR i / INR (np - 1)) * INR (np - 1)) with (2 * INR i) by (field; lra).
      assert (D := Nat.div_mod np 2 ltac:(lia)). assert (B := Nat.mod_upper_bound np 2 ltac:(lia)).
      assert (np - 1 <= 2 * i)%nat by lia. apply le_INR in H0. rewrite mult_INR in H0. simpl (INR 2) in H0. lra. }
    split; [apply Rmult_le_pos; [lra|apply pow_le; lra]|]. assert (0 <= 1 - u <= 1 / 2) by lra. assert ((1 - u) ^ 2 <= 1 / 4) by nra.
    replace (2 * (1 - u) ^ 3) with (2 * (1 - u) * (1 - u) ^ 2) by ring. nra.
Qed.
Definition bounded (N : nat) (v : nat -> R) : Prop := forall n, (n < N)%nat -> 0 <= v n <= 1.
Lemma window_range N w l : (2 <= N)%nat -> w <> WFlatTop -> w <> WOther -> create_window (Z.of_nat N) w = Ok l ->
  exists v, window_is l N v /\ forall n, (n < N)%nat -> 0 <= v n <= 1.
Proof.
  intros HN H1 H2 E. assert (HP := inr_pred N HN). destruct w; try contradiction.
  - destruct (uniform_window N) as (l' & E' & W); [lia|]. assert (l' = l) by congruence. subst l'. eexists. split; [eassumption|]. intros. simpl. lra.
  - destruct (parzen_values N HN) as (l' & E' & W). assert (l' = l) by congruence. subst l'. eexists. split; [eassumption|].
    intros n Hn. assert (D := Nat.div_mod (N + 2) 2 ltac:(lia)). assert (B := Nat.mod_upper_bound (N + 2) 2 ltac:(lia)).
    apply half_range; [lia|]. unfold distance. destruct (Nat.ltb_spec n ((N + 2) / 2 - 1)); lia.
  - destruct (cosine_windows N WHamming _ HN eq_refl) as (l' & E' & W). assert (l' = l) by congruence. subst l'. eexists. split; [eassumption|].
    intros n Hn. unfold cosine_sum. cbn [cosine_sum_from]. set (x := 2 * PI * INR n / INR (N - 1)). replace (INR 0 * x) with 0 by (simpl; ring).
    rewrite cos_0. destruct (COS_bound (INR 1 * x)). lra.
  - destruct (cosine_windows N WHanning _ HN eq_refl) as (l' & E' & W). assert (l' = l) by congruence. subst l'. eexists. split; [eassumption|].
    intros n Hn. unfold cosine_sum. cbn [cosine_sum_from]. set (x := 2 * PI * INR n / INR (N - 1)). replace (INR 0 * x) with 0 by (simpl; ring).
    rewrite cos_0. destruct (COS_bound (INR 1 * x)). lra.
  - destruct (triangular_window N) as (l' & E' & W); [lia|]. assert (l' = l) by congruence. subst l'. eexists. split; [eassumption|].
    intros n Hn. cbv beta. assert (HNp : 0 < INR N) by (apply lt_0_INR; lia). rewrite <- distance_abs.
    assert (Hd : (distance ((N - 1) / 2) n <= N)%nat).
    { unfold distance. assert (D := Nat.div_mod (N - 1) 2 ltac:(lia)). destruct (Nat.ltb_spec n ((N - 1) / 2)); lia. }
    apply le_INR in Hd. assert (H0 := pos_INR (distance ((N - 1) / 2) n)).
    assert (Q : INR (distance ((N - 1) / 2) n) / INR N * INR N = INR (distance ((N - 1) / 2) n)) by (field; lra).
    assert (0 <= INR (distance ((N - 1) / 2) n) / INR N) by (apply Rmult_le_pos; [assumption|apply Rlt_le, Rinv_0_lt_compat; assumption]).
    assert (INR (distance ((N - 1) / 2) n) / INR N <= 1) by (apply (Rmult_le_reg_r (INR N)); [assumption|lra]). lra.
  - destruct (welch_window N HN) as (l' & E' & W). assert (l' = l) by congruence. subst l'. eexists. split; [eassumption|].
    intros n Hn. cbv beta. assert (Hb : (n <= N - 1)%nat) by lia. apply le_INR in Hb. assert (H0 := pos_INR n).
    assert (Q : INR n / INR (N - 1) * INR (N - 1) = INR n) by (field; lra).
    assert (0 <= INR n / INR (N - 1)) by (apply Rmult_le_pos; [assumption|apply Rlt_le, Rinv_0_lt_compat; assumption]).
    assert (INR n / INR (N - 1) <= 1) by (apply (Rmult_le_reg_r (INR (N - 1))); [assumption|lra]).
    replace (2 * INR n / INR (N - 1)) with (2 * (INR n / INR (N - 1))) by (unfold Rdiv; ring).
    set (u := INR n / INR (N - 1)) in *. assert (0 <= u * (1 - u)) by (apply Rmult_le_pos; lra).
    replace ((2 * u - 1) ^ 2) with (1 - 4 * (u * (1 - u))) by ring. assert (0 <= (2 * u - 1) * (2 * u - 1)) by apply Rle_0_sqr. lra.
  - destruct (cosine_windows N WBlackmann _ HN eq_refl) as (l' & E' & W). assert (l' = l) by congruence. subst l'. eexists. split; [eassumption|].
    intros n Hn. unfold cosine_sum. cbn [cosine_sum_from]. set (x := 2 * PI * INR n / INR (N - 1)). replace (INR 0 * x) with 0 by (simpl; ring).
    replace (INR 2 * x) with (2 * x) by (simpl; ring). replace (INR 1 * x) with x by (simpl; ring). 
    rewrite cos_0, cos_2a_cos. destruct (COS_bound x) as [B1 B2]. revert B1 B2. generalize (cos x). intros c B1 B2.
    assert (c * c <= 1) by nra. assert (0 <= (1 - c) * (1 - c)) by (apply Rle_0_sqr). lra.
Qed.

(* ---------- centre and ends ---------- *)
Lemma cos_ends j : cos (INR j * (2 * PI)) = 1.
Proof. replace (INR j * (2 * PI)) with (0 + 2 * INR j * PI) by ring. rewrite cos_period. apply cos_0. Qed.
Lemma at_end a N : (2 <= N)%nat -> cosine_sum a N (N - 1) = cosine_sum a N 0.
Proof. intros H. rewrite (cosine_symmetric a N H (N - 1)%nat) by lia. f_equal. lia. Qed.
Lemma at_start a N : (2 <= N)%nat -> cosine_sum a N 0 = cosine_sum_from 0 1 a 0.
Proof. intros H. assert (HP := inr_pred N H). unfold cosine_sum. f_equal. simpl (INR 0). field. lra. Qed.
Lemma at_centre a h : (1 <= h)%nat -> cosine_sum a (2 * h + 1) h = cosine_sum_from 0 1 a PI.
Proof.
  intros H. unfold cosine_sum. f_equal. replace (2 * h + 1 - 1)%nat with (2 * h)%nat by lia. rewrite mult_INR. simpl (INR 2).
  assert (0 < INR h) by (apply lt_0_INR; lia). field. lra.
Qed.
Lemma hanning_ends N : (2 <= N)%nat -> cosine_sum [1 / 2; 1 / 2] N 0 = 0 /\ cosine_sum [1 / 2; 1 / 2] N (N - 1) = 0.
Proof.
  intros H. rewrite at_end, at_start by assumption. cbn [cosine_sum_from]. rewrite !Rmult_0_r, cos_0. split; lra.
Qed.
Lemma hanning_centre h : (1 <= h)%nat -> cosine_sum [1 / 2; 1 / 2] (2 * h + 1) h = 1.
Proof. intros H. rewrite at_centre by assumption. cbn [cosine_sum_from]. simpl (INR 0). simpl (INR 1). rewrite Rmult_0_l; replace (1 * PI) with PI by ring; rewrite cos_0, cos_PI. lra. Qed.
Lemma hamming_ends N : (2 <= N)%nat -> cosine_sum [54 / 100; 46 / 100] N 0 = 8 / 100 /\ cosine_sum [54 / 100; 46 / 100] N (N - 1) = 8 / 100.
Proof.
  intros H. rewrite at_end, at_start by assumption. cbn [cosine_sum_from]. rewrite !Rmult_0_r, cos_0. split; lra.
Qed.
Lemma hamming_centre h : (1 <= h)%nat -> cosine_sum [54 / 100; 46 / 100] (2 * h + 1) h = 1.
Proof. intros H. rewrite at_centre by assumption. cbn [cosine_sum_from]. simpl (INR 0). simpl (INR 1). rewrite Rmult_0_l; replace (1 * PI) with PI by ring; rewrite cos_0, cos_PI. lra. Qed.
Lemma welch_ends_centre h : (1 <= h)%nat -> let v n := 1 - (2 * INR n / INR (2 * h + 1 - 1) - 1) ^ 2 in
  v 0%nat = 0 /\ v h = 1 /\ v (2 * h)%nat = 0.
Proof.
  intros H v. assert (0 < INR h) by (apply lt_0_INR; lia). unfold v. replace (2 * h + 1 - 1)%nat with (2 * h)%nat by lia.
  rewrite mult_INR. simpl (INR 2). simpl (INR 0). split; [field; lra|]. split; field; lra.
Qed.

(* ---------- where the windows fail ---------- *)
Lemma window_one_point w : w <> WUniform -> w <> WTriangular -> w <> WOther -> create_window 1 w = Ok [None].
Proof.
  intros H1 H2 H3. destruct w; try contradiction; unfold create_window; simpl Z.eqb; cbv iota;
    change (Z.to_nat (Z.abs 1)) with 1%nat; cbn [seq map].
  - unfold parzen_window. change ((1 + 2) / 2)%nat with 1%nat. cbn [seq map Nat.sub rev app firstn]. unfold parzen_half.
    change (INR (1 - 1)) with 0. rewrite div0_none. reflexivity.
  - unfold window_value. change (INR (1 - 1)) with 0. rewrite div0_none. reflexivity.
  - unfold window_value. change (INR (1 - 1)) with 0. rewrite div0_none. reflexivity.
  - unfold window_value. change (INR (1 - 1)) with 0. replace (0 / 2) with 0 by lra. rewrite div0_none. reflexivity.
  - unfold window_value. change (INR (1 - 1)) with 0. rewrite div0_none. reflexivity.
  - unfold window_value. change (INR (1 - 1)) with 0. rewrite div0_none. reflexivity.
Qed.
Lemma triangular_even_refuted : exists N l v, create_window (Z.of_nat N) WTriangular = Ok l /\ window_is l N v /\ ~ symmetric N v.
Proof.
  destruct (triangular_window 2) as (l & E & W); [lia|]. do 3 eexists. split; [exact E|]. split; [exact W|].
  intros S. specialize (S 0%nat ltac:(lia)). cbv beta in S. change ((2 - 1) / 2)%nat with 0%nat in S. change (2 - 1 - 0)%nat with 1%nat in S.
  simpl in S. replace (0 - 0) with 0 in S by ring. replace (1 - 0) with 1 in S by ring. rewrite Rabs_R0, Rabs_R1 in S. lra.
Qed.
Lemma parzen_even_refuted : exists N l v, create_window (Z.of_nat N) WParzen = Ok l /\ window_is l N v /\ ~ symmetric N v.
Proof.
  destruct (parzen_values 4) as (l & E & W); [lia|]. do 3 eexists. split; [exact E|]. split; [exact W|].
  intros S. specialize (S 0%nat ltac:(lia)). cbv beta in S. change ((4 + 2) / 2)%nat with 3%nat in S. unfold half_value in S. simpl in S. lra.
Qed.
Lemma parzen_formula_refuted : exists N l v, create_window (Z.of_nat N) WParzen = Ok l /\ window_is l N v /\ (N = 7)%nat /\
  ~ v 1%nat = parzen 3 (-2).
Proof.
  destruct (parzen_values 7) as (l & E & W); [lia|]. do 3 eexists. split; [exact E|]. split; [exact W|]. split; [reflexivity|].
  cbv beta. change ((7 + 2) / 2)%nat with 4%nat. unfold half_value, parzen. simpl. rewrite Rabs_left by lra.
  destruct (Rle_dec (- -2) (3 / 2)); lra.
Qed.
Lemma flat_top_range_refuted : exists N l v n, create_window (Z.of_nat N) WFlatTop = Ok l /\ window_is l N v /\ (n < N)%nat /\ 4 < v n.
Proof.
  destruct (cosine_windows 3 WFlatTop _ ltac:(lia) eq_refl) as (l & E & W). exists 3%nat, l. eexists. exists 1%nat.
  split; [exact E|]. split; [exact W|]. split; [lia|]. change 3%nat with (2 * 1 + 1)%nat. rewrite at_centre by lia. cbn [cosine_sum_from].
  replace (INR 4 * PI) with (0 + 2 * INR 2 * PI) by (simpl; ring). replace (INR 3 * PI) with (PI + 2 * INR 1 * PI) by (simpl; ring).
  replace (INR 2 * PI) with (0 + 2 * INR 1 * PI) at 1 by (simpl; ring). rewrite !cos_period. simpl (INR 0). simpl (INR 1).
  rewrite Rmult_0_l; replace (1 * PI) with PI by ring; rewrite cos_0, cos_PI. lra.
Qed.

(* ---------- all the windows ---------- *)
Lemma window_symmetric N w l : (2 <= N)%nat -> w <> WOther -> (N mod 2 = 1)%nat \/ (w <> WTriangular /\ w <> WParzen) ->
  create_window (Z.of_nat N) w = Ok l -> exists v, window_is l N v /\ symmetric N v.
Proof.
  intros HN H1 H2 E. assert (HO : (N mod 2 = 1)%nat -> exists h, N = (2 * h + 1)%nat /\ (1 <= h)%nat).
  { intros HO. exists (N / 2)%nat. assert (D := Nat.div_mod N 2 ltac:(lia)). lia. }
  destruct w; try contradiction.
  - destruct (uniform_window N) as (l' & E' & W); [lia|]. assert (l' = l) by congruence. subst l'. eexists. split; [eassumption|]. intros n _. reflexivity.
  - destruct H2 as [H2|[_ H2] ]; [|contradiction]. destruct (HO H2) as (h & -> & Hh).
    destruct (parzen_values _ HN) as (l' & E' & W). assert (l' = l) by congruence. subst l'. eexists. split; [eassumption|]. apply parzen_symmetric. assumption.
  - destruct (cosine_windows N WHamming _ HN eq_refl) as (l' & E' & W). assert (l' = l) by congruence. subst l'. eexists. split; [eassumption|]. apply cosine_symmetric. assumption.
  - destruct (cosine_windows N WHanning _ HN eq_refl) as (l' & E' & W). assert (l' = l) by congruence. subst l'. eexists. split; [eassumption|]. apply cosine_symmetric. assumption.
  - destruct H2 as [H2|[H2 _] ]; [|contradiction]. destruct (HO H2) as (h & -> & Hh).
    destruct (triangular_window (2 * h + 1)) as (l' & E' & W); [lia|]. assert (l' = l) by congruence. subst l'. eexists. split; [eassumption|]. apply triangular_symmetric.
  - destruct (welch_window N HN) as (l' & E' & W). assert (l' = l) by congruence. subst l'. eexists. split; [eassumption|]. apply welch_symmetric. assumption.
  - destruct (cosine_windows N WBlackmann _ HN eq_refl) as (l' & E' & W). assert (l' = l) by congruence. subst l'. eexists. split; [eassumption|]. apply cosine_symmetric. assumption.
  - destruct (cosine_windows N WFlatTop _ HN eq_refl) as (l' & E' & W). assert (l' = l) by congruence. subst l'. eexists. split; [eassumption|]. apply cosine_symmetric. assumption.
Qed.
Lemma window_centre h w l : (1 <= h)%nat -> w <> WBlackmann -> w <> WFlatTop -> w <> WOther ->
  create_window (Z.of_nat (2 * h + 1)) w = Ok l -> nth_error l h = Some (Some 1).
Proof.
  intros Hh H1 H2 H3 E. assert (HN : (2 <= 2 * h + 1)%nat) by lia. destruct w; try contradiction.
  - destruct (uniform_window (2 * h + 1)) as (l' & E' & _ & W); [lia|]. assert (l' = l) by congruence. subst l'. rewrite W by lia. reflexivity.
  - destruct (parzen_values _ HN) as (l' & E' & _ & W). assert (l' = l) by congruence. subst l'. rewrite W by lia. do 2 f_equal.
    replace ((2 * h + 1 + 2) / 2)%nat with (h + 1)%nat.
    + replace (h + 1 - 1)%nat with h by lia. unfold distance. rewrite Nat.ltb_irrefl, Nat.sub_diag. unfold half_value. simpl Nat.leb. cbv iota.
      simpl (INR 0). unfold Rdiv. rewrite Rmult_0_l. ring.
    + replace (2 * h + 1 + 2)%nat with (1 + (h + 1) * 2)%nat by lia. rewrite Nat.div_add by lia. reflexivity.
  - destruct (cosine_windows _ WHamming _ HN eq_refl) as (l' & E' & _ & W). assert (l' = l) by congruence. subst l'. rewrite W by lia. rewrite hamming_centre by assumption. reflexivity.
  - destruct (cosine_windows _ WHanning _ HN eq_refl) as (l' & E' & _ & W). assert (l' = l) by congruence. subst l'. rewrite W by lia. rewrite hanning_centre by assumption. reflexivity.
  - destruct (triangular_window (2 * h + 1)) as (l' & E' & _ & W); [lia|]. assert (l' = l) by congruence. subst l'. rewrite W by lia. do 2 f_equal.
    replace (2 * h + 1 - 1)%nat with (h * 2)%nat by lia. rewrite Nat.div_mul by lia. replace (INR h - INR h) with 0 by ring. rewrite Rabs_R0. unfold Rdiv. ring.
  - destruct (welch_window _ HN) as (l' & E' & _ & W). assert (l' = l) by congruence. subst l'. rewrite W by lia. do 2 f_equal. apply (welch_ends_centre h Hh).
Qed.
Lemma window_ends N w l : (2 <= N)%nat -> create_window (Z.of_nat N) w = Ok l ->
  (w = WHanning \/ w = WWelch -> nth_error l 0 = Some (Some 0) /\ nth_error l (N - 1) = Some (Some 0)) /\
  (w = WHamming -> nth_error l 0 = Some (Some (8 / 100)) /\ nth_error l (N - 1) = Some (Some (8 / 100))).
Proof.
  intros HN E. split.
  - intros [-> | ->].
    + destruct (cosine_windows _ WHanning _ HN eq_refl) as (l' & E' & _ & W). assert (l' = l) by congruence. subst l'. rewrite !W by lia.
      destruct (hanning_ends N HN) as [-> ->]. split; reflexivity.
    + destruct (welch_window _ HN) as (l' & E' & _ & W). assert (l' = l) by congruence. subst l'. rewrite !W by lia. assert (HP := inr_pred N HN).
      split; do 2 f_equal; simpl (INR 0); field; lra.
  - intros ->. destruct (cosine_windows _ WHamming _ HN eq_refl) as (l' & E' & _ & W). assert (l' = l) by congruence. subst l'. rewrite !W by lia.
    destruct (hamming_ends N HN) as [-> ->]. split; reflexivity.
Qed.
