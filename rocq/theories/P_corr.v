(* P_corr.v: correlations *)
From Verif Require Import Np Lib Cplx M_fourier M_zn P_zn P_lag M_corr S_corr.
From Coq Require Import Lra.
Open Scope R_scope.

Lemma skipn_seq k s n : skipn k (seq s n) = seq (s + k) (n - k).
Proof.
  revert s n. induction k as [|k IH]; intros s n; [now rewrite Nat.add_0_r, Nat.sub_0_r|].
  destruct n as [|n]; [reflexivity|]. cbn [seq skipn]. rewrite IH. f_equal; lia.
Qed.
Lemma firstn_seq k s n : firstn k (seq s n) = seq s (Nat.min k n).
Proof. revert s n. induction k as [|k IH]; intros s [|n]; cbn; auto. now rewrite IH. Qed.
Lemma slice_map {A B} (f : A -> B) l i j : slice (map f l) i j = map f (slice l i j).
Proof. unfold slice. now rewrite skipn_map, firstn_map. Qed.
Lemma seq_from s n : seq s n = map (fun i => s + i)%nat (seq 0 n).
Proof.
  revert s. induction n as [|n IH]; intros s; cbn; [reflexivity|]. f_equal; [lia|].
  rewrite (IH (S s)), <- (seq_shift n 0), map_map. apply map_ext. intros. lia.
Qed.
Lemma slice_consecutive lo n i j : slice (consecutive lo n) i j = consecutive (lo + Z.of_nat i) (Nat.min (j - i) (n - i)).
Proof.
  unfold consecutive. rewrite slice_map. unfold slice. rewrite skipn_seq, firstn_seq, (seq_from (0 + i)), map_map.
  apply map_ext. intros. lia.
Qed.
Lemma zrange_consecutive lo hi : zrange lo hi = consecutive lo (Z.to_nat (hi - lo)).
Proof. reflexivity. Qed.
Lemma consecutive_len lo n : length (consecutive lo n) = n.
Proof. unfold consecutive. now rewrite map_length, seq_length. Qed.
Lemma consecutive_nth lo n i : (i < n)%nat -> nth_error (consecutive lo n) i = Some (lo + Z.of_nat i)%Z.
Proof.
  intros H. unfold consecutive. rewrite nth_error_map, (nth_error_nth' _ 0%nat) by (now rewrite seq_length).
  rewrite seq_nth by exact H. reflexivity.
Qed.
Lemma consecutive_in lo n k : In k (consecutive lo n) <-> (lo <= k < lo + Z.of_nat n)%Z.
Proof.
  unfold consecutive. rewrite in_map_iff. split.
  - intros (i & <- & Hi). apply in_seq in Hi. lia.
  - intros H. exists (Z.to_nat (k - lo)). split; [lia|]. apply in_seq. lia.
Qed.

(* ---- values ---- *)
Lemma corr_full x y : x <> [] -> y <> [] ->
  correlate_full (map (fun v => v - mean x) x) (map (fun v => v - mean y) y)
  = map (corr_at x y) (consecutive (1 - Z.of_nat (length y)) (length x + length y - 1)).
Proof.
  intros Hx Hy. unfold correlate_full, consecutive. rewrite !map_length, map_map. apply map_ext_in. intros k Hk. apply in_seq in Hk.
  unfold corr_at. apply rs_ext. intros l Hl. f_equal.
  - unfold deviation. destruct (Z.leb_spec 0 (Z.of_nat l)); [|lia]. destruct (Z.ltb_spec (Z.of_nat l) (Z.of_nat (length x))); [|lia].
    cbn [andb]. rewrite Nat2Z.id. rewrite nth_indep with (d' := 0 - mean x) by (now rewrite map_length).
    now rewrite (map_nth (fun v => v - mean x)).
  - unfold outside0, deviation.
    replace (Z.of_nat l - Z.of_nat k + Z.of_nat (length y) - 1)%Z with (Z.of_nat l - (1 - Z.of_nat (length y) + Z.of_nat k))%Z by lia.
    set (i := (Z.of_nat l - (1 - Z.of_nat (length y) + Z.of_nat k))%Z).
    destruct (Z.ltb_spec i 0); destruct (Z.leb_spec 0 i); try lia; cbn [andb]; [reflexivity|].
    destruct (Z.ltb_spec i (Z.of_nat (length y))).
    + rewrite nth_indep with (d' := 0 - mean y) by (rewrite map_length; lia). now rewrite (map_nth (fun v => v - mean y)).
    + apply nth_overflow. rewrite map_length. lia.
Qed.

Notation range_of mode := (match mode with Full => AllLags | Same => CentralLags | Valid => OverlapLags end).
Notation lag_list n1 n2 mode := (lags_in n1 n2 (range_of mode)).

Lemma lags_ok n1 n2 mode : (0 < n1)%nat -> (0 < n2)%nat -> (mode = Same -> n1 = n2) ->
  correlation_lags n1 n2 mode = lag_list n1 n2 mode.
Proof.
  intros H1 H2 Hs. unfold correlation_lags, lag_list. rewrite zrange_consecutive.
  replace (Z.to_nat (Z.of_nat n1 - (1 - Z.of_nat n2))) with (n1 + n2 - 1)%nat by lia.
  destruct mode.
  - reflexivity.
  - rewrite <- (Hs eq_refl) in *. rewrite consecutive_len.
    pose proof (Nat.div_mod n1 2 ltac:(lia)). pose proof (Nat.mod_upper_bound n1 2 ltac:(lia)).
    pose proof (Nat.div_mod (n1 + n1 - 1) 2 ltac:(lia)). pose proof (Nat.mod_upper_bound (n1 + n1 - 1) 2 ltac:(lia)).
    destruct (Nat.eqb_spec (n1 mod 2) 0); rewrite slice_consecutive; f_equal; lia.
  - cbv zeta. rewrite !zrange_consecutive. destruct (Nat.leb_spec n2 n1).
    + destruct (Z.leb_spec 0 (Z.of_nat n1 - Z.of_nat n2)); [|lia]. f_equal. lia.
    + destruct (Z.leb_spec 0 (Z.of_nat n1 - Z.of_nat n2)); [lia|]. f_equal. lia.
Qed.

Lemma correlate_ok x y mode : x <> [] -> y <> [] -> (mode = Same -> length x = length y) ->
  correlate (map (fun v => v - mean x) x) (map (fun v => v - mean y) y) mode = map (corr_at x y) (lag_list (length x) (length y) mode).
Proof.
  intros Hx Hy Hs. unfold correlate. rewrite corr_full by assumption. rewrite !map_length.
  assert (H1 : (0 < length x)%nat) by (destruct x; cbn; [congruence|lia]).
  assert (H2 : (0 < length y)%nat) by (destruct y; cbn; [congruence|lia]).
  destruct (Nat.eqb_spec (length x) 0); [lia|]. destruct (Nat.eqb_spec (length y) 0); [lia|]. cbn [orb].
  unfold lags_in. destruct mode; [reflexivity| |].
  - rewrite slice_map, slice_consecutive. rewrite <- (Hs eq_refl) in *. f_equal.
    set (n1 := length x) in *.
    pose proof (Nat.div_mod n1 2 ltac:(lia)). pose proof (Nat.mod_upper_bound n1 2 ltac:(lia)).
    pose proof (Nat.div_mod (n1 - 1) 2 ltac:(lia)). pose proof (Nat.mod_upper_bound (n1 - 1) 2 ltac:(lia)).
    f_equal; lia.
  - rewrite slice_map, slice_consecutive. f_equal. destruct (Nat.leb_spec (length y) (length x)); f_equal; lia.
Qed.

Lemma isclose_refl d : isclose d d = true.
Proof.
  unfold isclose. destruct (Rle_dec _ _) as [|C]; [reflexivity|]. exfalso. apply C.
  replace (d - d) with 0 by ring. rewrite Rabs_R0. pose proof (Rabs_pos d).
  assert (0 < 1 / 10 ^ 8) by (apply Rdiv_lt_0_compat; [lra|apply pow_lt; lra]).
  assert (0 < 1 / 10 ^ 5) by (apply Rdiv_lt_0_compat; [lra|apply pow_lt; lra]). nra.
Qed.

Lemma isclose_t a b : isclose a b = true <-> same_binning a b.
Proof. unfold isclose, same_binning. destruct (Rle_dec _ _); split; try congruence; try reflexivity; contradiction. Qed.
Lemma isclose_f a b : isclose a b = false <-> ~ same_binning a b.
Proof. unfold isclose, same_binning. destruct (Rle_dec _ _); split; try congruence; try reflexivity; contradiction. Qed.
Lemma same_binning_refl d : same_binning d d.
Proof. apply isclose_t, isclose_refl. Qed.

Lemma corr_binning x y dt1 dt2 mode : ~ same_binning dt1 dt2 -> make_corr x y dt1 dt2 mode = Err StingrayError.
Proof. intros H. apply isclose_f in H. unfold make_corr. now rewrite H. Qed.

Lemma lag_list_pos n1 n2 mode : (0 < n1)%nat -> (0 < n2)%nat -> lag_list n1 n2 mode <> [].
Proof.
  intros H1 H2 E. apply (f_equal (@length Z)) in E. unfold lags_in in E.
  destruct mode; [| |destruct (Nat.leb n2 n1)]; rewrite consecutive_len in E; cbn in E; lia.
Qed.

Lemma timeshift_ok (f : Z -> R) (ks : list Z) n1 n2 mode dt : ks <> [] -> correlation_lags n1 n2 mode = ks ->
  exists k, cal_timeshift (map f ks) n1 n2 mode dt = Ok (mkCorr (map f ks) (map (fun k => IZR k * dt) ks) (IZR k * dt)) /\ first_best f ks k.
Proof.
  intros Hk E. unfold cal_timeshift. rewrite E.
  destruct (argmax_spec (map f ks)) as (i & -> & Hi & A & B).
  { destruct ks; [congruence|discriminate]. }
  cbn [bind]. rewrite map_length in *.
  destruct (nth_error ks i) as [k|] eqn:Ek; [|apply nth_error_None in Ek; lia].
  exists k. unfold get. rewrite nth_error_map, Ek. cbn [option_map bind]. split; [reflexivity|].
  assert (V : forall j k', nth_error ks j = Some k' -> nth j (map f ks) 0 = f k').
  { intros j k' Ej. apply nth_error_nth. now rewrite nth_error_map, Ej. }
  exists i. split; [exact Ek|]. split.
  - intros k' Hin. apply In_nth_error in Hin. destruct Hin as [j Ej]. rewrite <- (V _ _ Ej), <- (V _ _ Ek). apply A.
    apply nth_error_Some. congruence.
  - intros j k' Hj Ej. rewrite <- (V _ _ Ej), <- (V _ _ Ek). apply B. exact Hj.
Qed.

Lemma corr_main x y dt1 dt2 mode : x <> [] -> y <> [] -> same_binning dt1 dt2 -> (mode = Same -> length x = length y) ->
  exists k, make_corr x y dt1 dt2 mode = Ok (mkCorr (map (corr_at x y) (lag_list (length x) (length y) mode))
      (map (fun k => IZR k * dt2) (lag_list (length x) (length y) mode)) (IZR k * dt2)) /\
    first_best (corr_at x y) (lag_list (length x) (length y) mode) k.
Proof.
  intros Hx Hy Hc Hs. apply isclose_t in Hc. unfold make_corr. rewrite Hc. cbn [negb]. cbv zeta. rewrite correlate_ok by assumption.
  assert (H1 : (0 < length x)%nat) by (destruct x; cbn; [congruence|lia]).
  assert (H2 : (0 < length y)%nat) by (destruct y; cbn; [congruence|lia]).
  apply timeshift_ok; [now apply lag_list_pos|now apply lags_ok].
Qed.

(* ---- auto-correlation ---- *)
Lemma shift_le (f : Z -> R) n k : (forall i, 0 <= f i) -> (forall i, (i < 0 \/ Z.of_nat n <= i)%Z -> f i = 0) ->
  rs n (fun i => f (Z.of_nat i - k)%Z) <= rs n (fun i => f (Z.of_nat i)).
Proof.
  intros P Z0. destruct (Z.le_gt_cases (Z.of_nat n) (Z.abs k)) as [B|B].
  - rewrite rs_zero by (intros i Hi; apply Z0; lia). apply rs_nonneg. intros; apply P.
  - set (m := Z.to_nat (Z.abs k)). replace n with (m + (n - m))%nat at 1 by lia.
    destruct (Z.le_gt_cases 0 k) as [S|S].
    + rewrite rs_add, rs_zero by (intros i Hi; apply Z0; lia).
      replace (rs n (fun i => f (Z.of_nat i))) with (rs ((n - m) + m) (fun i => f (Z.of_nat i))) by (f_equal; lia).
      rewrite rs_add. rewrite (rs_ext (n - m) _ (fun i => f (Z.of_nat i))) by (intros; f_equal; lia).
      assert (0 <= rs m (fun i => f (Z.of_nat (n - m + i)))) by (apply rs_nonneg; intros; apply P). lra.
    + replace (m + (n - m))%nat with ((n - m) + m)%nat by lia. rewrite rs_add.
      rewrite (rs_zero m) by (intros i Hi; apply Z0; lia).
      replace (rs n (fun i => f (Z.of_nat i))) with (rs (m + (n - m)) (fun i => f (Z.of_nat i))) by (f_equal; lia).
      rewrite rs_add. rewrite (rs_ext (n - m) _ (fun i => f (Z.of_nat (m + i)))) by (intros; f_equal; lia).
      assert (0 <= rs m (fun i => f (Z.of_nat i))) by (apply rs_nonneg; intros; apply P). lra.
Qed.

Lemma rs_zero_all n f : (forall i, (i < n)%nat -> 0 <= f i) -> rs n f <= 0 -> forall i, (i < n)%nat -> f i = 0.
Proof.
  induction n as [|n IH]; intros P H i Hi; [lia|]. rewrite rs_S in H.
  assert (0 <= rs n f) by (apply rs_nonneg; intros; apply P; lia). assert (0 <= f n) by (apply P; lia).
  destruct (Nat.eq_dec i n) as [->|]; [lra|]. apply IH; [intros; apply P; lia|lra|lia].
Qed.

Lemma dev_out x i : (i < 0 \/ Z.of_nat (length x) <= i)%Z -> deviation x i = 0.
Proof.
  intros H. unfold deviation. destruct (Z.leb_spec 0 i); cbn [andb]; [|reflexivity].
  destruct (Z.ltb_spec i (Z.of_nat (length x))); [lia|reflexivity].
Qed.

Lemma dev_shift x k : rs (length x) (fun i => deviation x (Z.of_nat i - k) ^ 2) <= rs (length x) (fun i => deviation x (Z.of_nat i) ^ 2).
Proof.
  apply (shift_le (fun i => deviation x i ^ 2)).
  - intros. apply pow2_ge_0.
  - intros i Hi. rewrite dev_out by exact Hi. ring.
Qed.

Lemma dev_periodic x k : (k <> 0)%Z -> (forall i, (i < length x)%nat -> deviation x (Z.of_nat i) = deviation x (Z.of_nat i - k)) ->
  forall i, (i < length x)%nat -> deviation x (Z.of_nat i) = 0.
Proof.
  intros K H. destruct (Z.lt_ge_cases 0 k) as [S|S].
  - intros i. induction i as [i IH] using lt_wf_ind. intros Hi. rewrite H by exact Hi.
    destruct (Z.lt_ge_cases (Z.of_nat i - k) 0); [apply dev_out; lia|].
    replace (Z.of_nat i - k)%Z with (Z.of_nat (Z.to_nat (Z.of_nat i - k))) by lia. apply IH; lia.
  - intros i Hi. remember (length x - i)%nat as m eqn:Em. revert i Hi Em. induction m as [m IH] using lt_wf_ind. intros i Hi Em.
    rewrite H by exact Hi. destruct (Z.le_gt_cases (Z.of_nat (length x)) (Z.of_nat i - k)); [apply dev_out; lia|].
    replace (Z.of_nat i - k)%Z with (Z.of_nat (Z.to_nat (Z.of_nat i - k))) by lia.
    apply (IH (length x - Z.to_nat (Z.of_nat i - k))%nat); lia.
Qed.

Lemma corr_0 x : corr_at x x 0 = rs (length x) (fun i => deviation x (Z.of_nat i) ^ 2).
Proof. unfold corr_at. apply rs_ext. intros i _. rewrite Z.sub_0_r. ring. Qed.

Lemma dev_in x i : (i < length x)%nat -> deviation x (Z.of_nat i) = nth i x 0 - average x.
Proof.
  intros H. unfold deviation. destruct (Z.leb_spec 0 (Z.of_nat i)); [|lia].
  destruct (Z.ltb_spec (Z.of_nat i) (Z.of_nat (length x))); [|lia]. cbn [andb]. now rewrite Nat2Z.id.
Qed.

Lemma auto_peak x k : ~ constant x -> (k <> 0)%Z -> corr_at x x k < corr_at x x 0.
Proof.
  intros C K. destruct (Rlt_dec (corr_at x x k) (corr_at x x 0)) as [|N]; [assumption|]. exfalso. apply C.
  apply Rnot_lt_le in N.
  assert (Q : rs (length x) (fun i => (deviation x (Z.of_nat i) - deviation x (Z.of_nat i - k)) ^ 2) <= 0).
  { rewrite (rs_ext _ _ (fun i => (deviation x (Z.of_nat i) ^ 2 + deviation x (Z.of_nat i - k) ^ 2) - 2 * (deviation x (Z.of_nat i) * deviation x (Z.of_nat i - k)))) by (intros; ring).
    rewrite rs_minus, rs_plus, rs_scal_l. fold (corr_at x x k). pose proof (dev_shift x k). rewrite corr_0 in N. lra. }
  assert (Z1 : forall i, (i < length x)%nat -> deviation x (Z.of_nat i) = deviation x (Z.of_nat i - k)).
  { intros i Hi. assert (E := rs_zero_all _ _ (fun j _ => pow2_ge_0 _) Q i Hi). cbv beta in E. nra. }
  assert (Z2 := dev_periodic x k K Z1).
  intros i j Hi Hj. assert (Ei := Z2 i Hi). assert (Ej := Z2 j Hj). rewrite dev_in in Ei, Ej by assumption. lra.
Qed.

Lemma lag0_in n mode : (0 < n)%nat -> In 0%Z (lag_list n n mode).
Proof.
  intros H1. unfold lags_in. destruct mode; [| |destruct (Nat.leb n n)]; apply consecutive_in; try lia.
  pose proof (Nat.div_lt n 2 H1 ltac:(lia)). lia.
Qed.

Lemma auto_main x dt mode : x <> [] -> ~ constant x -> exists r, auto_corr x dt mode = Ok r /\ c_shift r = 0.
Proof.
  intros Hx C. destruct (corr_main x x dt dt mode Hx Hx (same_binning_refl dt) (fun _ => eq_refl)) as (k & E & i & Ei & B & _).
  unfold auto_corr. rewrite E. eexists. split; [reflexivity|]. cbn [c_shift].
  destruct (Z.eq_dec k 0) as [->|K]; [cbn; ring|]. exfalso.
  assert (H1 : (0 < length x)%nat) by (destruct x; cbn; [congruence|lia]).
  assert (I : In 0%Z (lag_list (length x) (length x) mode)).
  { now apply lag0_in. }
  specialize (B 0%Z I). pose proof (auto_peak x k C K). lra.
Qed.

Lemma auto_refuted : exists x dt mode r, x <> [] /\ 0 < dt /\ auto_corr x dt mode = Ok r /\ c_shift r <> 0.
Proof.
  exists [1; 1], 1, Full.
  destruct (corr_main [1; 1] [1; 1] 1 1 Full) as (k & E & i & Ei & B & F); try discriminate; [apply same_binning_refl|].
  eexists. split; [discriminate|]. split; [lra|]. split; [exact E|]. cbn [c_shift].
  assert (V : forall k, corr_at [1; 1] [1; 1] k = 0).
  { intros k'. unfold corr_at. apply rs_zero. intros j Hj.
    rewrite dev_in by exact Hj. unfold average. cbn [length rlsum fold_right]. destruct j as [|[|j]]; cbn [nth]; cbn in Hj; [| |lia]; cbn; lra. }
  destruct i as [|i].
  - cbn in Ei. injection Ei as <-. cbn. lra.
  - exfalso. specialize (F 0%nat (-1)%Z ltac:(lia) eq_refl). rewrite !V in F. lra.
Qed.

(* ---- normalization ---- *)
Lemma cauchy_step A B S a b : 0 <= A -> 0 <= B -> S ^ 2 <= A * B -> (S + a * b) ^ 2 <= (A + a ^ 2) * (B + b ^ 2).
Proof.
  intros HA HB H.
  assert (K : 2 * S * (a * b) <= A * b ^ 2 + a ^ 2 * B).
  { apply Rnot_lt_le. intros N.
    assert (P : 0 <= A * b ^ 2 + a ^ 2 * B) by (pose proof (pow2_ge_0 a); pose proof (pow2_ge_0 b); nra).
    assert (Sq : (A * b ^ 2 + a ^ 2 * B) ^ 2 < (2 * S * (a * b)) ^ 2) by nra.
    assert (U : (2 * S * (a * b)) ^ 2 <= 4 * (A * B) * (a * b) ^ 2).
    { replace ((2 * S * (a * b)) ^ 2) with (4 * S ^ 2 * (a * b) ^ 2) by ring.
      apply Rmult_le_compat_r; [apply pow2_ge_0|lra]. }
    pose proof (pow2_ge_0 (A * b ^ 2 - a ^ 2 * B)). nra. }
  nra.
Qed.
Lemma real_cauchy n f g : (rs n (fun i => f i * g i)) ^ 2 <= rs n (fun i => f i ^ 2) * rs n (fun i => g i ^ 2).
Proof.
  induction n as [|n IH]; [rewrite !rs_0; lra|]. rewrite !rs_S. apply cauchy_step; [| |exact IH]; apply rs_nonneg; intros; apply pow2_ge_0.
Qed.

Lemma scatter_dev x : scatter2 x = rs (length x) (fun i => deviation x (Z.of_nat i) ^ 2).
Proof. apply rs_ext. intros i Hi. now rewrite dev_in. Qed.

Lemma corr_bound x y k : length x = length y -> corr_at x y k ^ 2 <= scatter2 x * scatter2 y.
Proof.
  intros L. unfold corr_at. eapply Rle_trans; [apply real_cauchy|]. rewrite (scatter_dev x), (scatter_dev y).
  apply Rmult_le_compat_l; [apply rs_nonneg; intros; apply pow2_ge_0|]. rewrite L. apply dev_shift.
Qed.

Lemma variance_scatter x : x <> [] -> np_variance x = scatter2 x / INR (length x).
Proof.
  intros _. unfold np_variance, mean at 1. rewrite map_length. f_equal. unfold scatter2.
  rewrite (rs_nth_seq x 0). reflexivity.
Qed.

Lemma sq0 a : a ^ 2 = 0 -> a = 0.
Proof. intros H. nra. Qed.
Lemma scatter_pos x : ~ constant x -> 0 < scatter2 x.
Proof.
  intros C. assert (P : 0 <= scatter2 x) by (apply rs_nonneg; intros; apply pow2_ge_0).
  destruct (Rle_lt_or_eq_dec _ _ P) as [|E]; [assumption|]. exfalso. apply C. intros i j Hi Hj.
  assert (Z := rs_zero_all (length x) (fun i => (nth i x 0 - average x) ^ 2) (fun _ _ => pow2_ge_0 _) ltac:(unfold scatter2 in E; lra)).
  assert (A := sq0 _ (Z i Hi)). assert (B := sq0 _ (Z j Hj)). lra.
Qed.

Lemma var_values x y ex ey dt1 dt2 mode : x <> [] -> y <> [] -> same_binning dt1 dt2 -> (mode = Same -> length x = length y) ->
  exists k, make_corr_variance x y ex ey dt1 dt2 mode =
    Ok (mkCorr (map (fun k => corr_at x y k / (INR (length x) * sqrt ((scatter2 x / INR (length x) - average ex ^ 2) * (scatter2 y / INR (length y) - average ey ^ 2))))
                  (lag_list (length x) (length y) mode))
               (map (fun k => IZR k * dt2) (lag_list (length x) (length y) mode)) (IZR k * dt2)) /\
    first_best (corr_at x y) (lag_list (length x) (length y) mode) k.
Proof.
  intros Hx Hy Hc Hs. destruct (corr_main x y dt1 dt2 mode Hx Hy Hc Hs) as (k & E & B).
  exists k. split; [|exact B]. unfold make_corr_variance. rewrite E. cbn [bind c_corr c_lags c_shift]. f_equal. f_equal.
  rewrite map_map. apply map_ext. intros j. rewrite !variance_scatter by assumption.
  change (mean ex) with (average ex). change (mean ey) with (average ey).
  unfold Rdiv at 1 2. rewrite Rmult_assoc. unfold Rdiv at 3. f_equal. rewrite <- Rinv_mult. f_equal. ring.
Qed.

Lemma corr_variance x y ex ey dt1 dt2 mode : length x = length y -> ~ constant x -> ~ constant y ->
  x <> [] -> average ex = 0 -> average ey = 0 -> same_binning dt1 dt2 ->
  exists r, make_corr_variance x y ex ey dt1 dt2 mode = Ok r /\
    c_corr r = map (fun k => corr_at x y k / sqrt (scatter2 x * scatter2 y)) (lag_list (length x) (length y) mode) /\
    (forall c, In c (c_corr r) -> -1 <= c <= 1) /\ (x = y -> In 1 (c_corr r)).
Proof.
  intros L Cx Cy Hx Ex Ey Hc.
  assert (Hy : y <> []) by (intros ->; destruct x; [congruence|discriminate]).
  destruct (var_values x y ex ey dt1 dt2 mode Hx Hy Hc (fun _ => L)) as (k & E & _).
  rewrite E. eexists. split; [reflexivity|]. cbn [c_corr].
  assert (Px := scatter_pos x Cx). assert (Py := scatter_pos y Cy).
  assert (Hl : (0 < length x)%nat) by (destruct x; cbn; [congruence|lia]).
  assert (Hn : 0 < INR (length x)) by (now apply lt_0_INR).
  assert (Sq : 0 < sqrt (scatter2 x * scatter2 y)) by (apply sqrt_lt_R0; nra).
  assert (Q : INR (length x) * sqrt ((scatter2 x / INR (length x) - average ex ^ 2) * (scatter2 y / INR (length y) - average ey ^ 2)) = sqrt (scatter2 x * scatter2 y)).
  { rewrite Ex, Ey, <- L.
    replace ((scatter2 x / INR (length x) - 0 ^ 2) * (scatter2 y / INR (length x) - 0 ^ 2)) with ((scatter2 x * scatter2 y) / (INR (length x) * INR (length x))) by (field; lra).
    rewrite sqrt_div_alt by nra. rewrite sqrt_square by lra. field. lra. }
  rewrite Q. split; [reflexivity|]. split.
  - intros c Hin. apply in_map_iff in Hin. destruct Hin as (j & <- & _).
    assert (B := corr_bound x y j L).
    assert (A : Rabs (corr_at x y j) <= sqrt (scatter2 x * scatter2 y)).
    { rewrite <- sqrt_pow2 with (x := Rabs (corr_at x y j)) by apply Rabs_pos. apply sqrt_le_1_alt. rewrite pow2_abs. exact B. }
    assert (A' : - sqrt (scatter2 x * scatter2 y) <= corr_at x y j <= sqrt (scatter2 x * scatter2 y)).
    { revert A. unfold Rabs. destruct (Rcase_abs _); lra. }
    split; apply Rmult_le_reg_r with (sqrt (scatter2 x * scatter2 y)); try exact Sq;
      unfold Rdiv; rewrite Rmult_assoc, Rinv_l by lra; lra.
  - intros <-. apply in_map_iff. exists 0%Z. split.
    + rewrite sqrt_square by lra. rewrite corr_0, <- scatter_dev. field. lra.
    + now apply lag0_in.
Qed.

(* ---- from a cross spectrum ---- *)
Lemma ifft_at X m : (m < length X)%nat -> nth_error (ifft X) m = Some (inverse_at X (Z.of_nat m)).
Proof.
  intros H. unfold ifft. rewrite nth_error_map, (nth_error_nth' _ 0%nat) by (now rewrite seq_length).
  rewrite seq_nth by exact H. cbn [option_map]. f_equal. unfold inverse_at. f_equal. apply cs_ext. intros k _. f_equal. f_equal. lia.
Qed.
Lemma inverse_periodic X k : X <> [] -> inverse_at X (k + Z.of_nat (length X)) = inverse_at X k.
Proof.
  intros H. unfold inverse_at. f_equal. apply cs_ext. intros j _. f_equal. apply cis_mod; [destruct X; cbn; [congruence|lia]|].
  rewrite Z.mul_add_distr_l. apply Z_mod_plus_full.
Qed.

Lemma cross_corr_list X : X <> [] ->
  let p := map (fun z => Rabs (re z)) (ifft X) in
  let h := ((length X - 1) / 2 + 1)%nat in
  skipn h p ++ firstn h p = map (fun k => Rabs (re (inverse_at X k))) (lag_list (length X) (length X) Same).
Proof.
  intros H p h. set (n := length X) in *.
  assert (Hn : (0 < n)%nat) by (unfold n; destruct X; cbn; [congruence|lia]).
  pose proof (Nat.div_mod n 2 ltac:(lia)). pose proof (Nat.mod_upper_bound n 2 ltac:(lia)).
  pose proof (Nat.div_mod (n - 1) 2 ltac:(lia)). pose proof (Nat.mod_upper_bound (n - 1) 2 ltac:(lia)).
  assert (Hh : (h + n / 2 = n)%nat) by (unfold h; lia).
  assert (Ep : p = map (fun m => Rabs (re (inverse_at X (Z.of_nat m)))) (seq 0 n)).
  { unfold p, ifft. rewrite map_map. apply map_ext_in. intros m Hm. apply in_seq in Hm. f_equal. f_equal.
    unfold inverse_at. f_equal. apply cs_ext. intros k _. f_equal. f_equal. lia. }
  rewrite Ep, skipn_map, firstn_map, skipn_seq, firstn_seq. rewrite Nat.add_0_l, Nat.min_l by lia.
  unfold lags_in, consecutive. rewrite map_map.
  replace (seq 0 n) with (seq 0 (n / 2 + h)) by (f_equal; lia). rewrite seq_app, map_app. rewrite Nat.add_0_l. f_equal.
  - replace (n - h)%nat with (n / 2)%nat by lia. rewrite (seq_from h), map_map. apply map_ext. intros i. f_equal. f_equal.
    rewrite <- (inverse_periodic X (- Z.of_nat (n / 2) + Z.of_nat i)) by exact H. f_equal. fold n. lia.
  - rewrite (seq_from (n / 2)), map_map. apply map_ext. intros i. f_equal. f_equal. f_equal. lia.
Qed.

Lemma cross_same X df m : X <> [] ->
  exists k, make_cross_corr X df m Same =
    Ok (mkCorr (map (fun k => Rabs (re (inverse_at X k))) (lag_list (length X) (length X) Same))
               (map (fun k => IZR k * (1 / (df * INR m))) (lag_list (length X) (length X) Same)) (IZR k * (1 / (df * INR m)))) /\
    first_best (fun k => Rabs (re (inverse_at X k))) (lag_list (length X) (length X) Same) k.
Proof.
  intros H. unfold make_cross_corr. cbv zeta.
  assert (L : length (map (fun z : cx => Rabs (re z)) (ifft X)) = length X) by (unfold ifft; now rewrite !map_length, seq_length).
  rewrite L, cross_corr_list by exact H.
  assert (Hn : (0 < length X)%nat) by (destruct X; cbn; [congruence|lia]).
  apply timeshift_ok; [now apply (lag_list_pos _ _ Same)|now apply (lags_ok _ _ Same)].
Qed.

Lemma cross_full_error X df m r : (2 <= length X)%nat -> make_cross_corr X df m Full = Ok r -> length (c_corr r) <> length (c_lags r).
Proof.
  intros H. unfold make_cross_corr. cbv zeta.
  assert (L : length (map (fun z : cx => Rabs (re z)) (ifft X)) = length X) by (unfold ifft; now rewrite !map_length, seq_length).
  rewrite L. unfold cal_timeshift. destruct (argmax _) as [i|]; [|discriminate]. cbn [bind].
  destruct (get _ i) as [s|]; [|discriminate]. cbn [bind]. intros E.
  assert (E' : r = {| c_corr := skipn ((length X - 1) / 2 + 1) (map (fun z => Rabs (re z)) (ifft X)) ++ firstn ((length X - 1) / 2 + 1) (map (fun z => Rabs (re z)) (ifft X));
    c_lags := map (fun k => IZR k * (1 / (df * INR m))) (correlation_lags (length X) (length X) Full); c_shift := s |}) by congruence.
  rewrite E'. cbn [c_corr c_lags]. rewrite app_length, skipn_length, firstn_length, L, map_length.
  rewrite lags_ok by (try lia; discriminate). unfold lags_in. rewrite consecutive_len.
  pose proof (Nat.div_mod (length X - 1) 2 ltac:(lia)). lia.
Qed.

Lemma cross_full_refuted : exists X df m r, X <> [] /\ 0 < df /\ (0 < m)%nat /\ make_cross_corr X df m Full = Ok r /\ length (c_corr r) <> length (c_lags r).
Proof.
  assert (H : exists r, make_cross_corr [c1; c1] 1 1 Full = Ok r).
  { unfold make_cross_corr, cal_timeshift. cbv zeta. set (l := skipn _ _ ++ _).
    assert (L : length l = 2%nat) by reflexivity.
    destruct (argmax_spec l) as (i & -> & Hi & _); [intros E; rewrite E in L; discriminate|]. cbn [bind].
    rewrite L in Hi. destruct i as [|[|i]]; [| |lia]; eexists; reflexivity. }
  destruct H as [r E]. exists [c1; c1], 1, 1%nat, r. split; [discriminate|]. split; [lra|]. split; [lia|]. split; [exact E|].
  apply (cross_full_error [c1; c1] 1 1 r); [cbn; lia|exact E].
Qed.

Lemma inverse_ex k : inverse_at [c1; c1] k = cscal (cadd c1 (cis 2 k)) (/ 2).
Proof.
  unfold inverse_at. cbn [length]. f_equal. rewrite cs_S, cs_S, cs_0. cbn [nth]. change (Z.of_nat 0 * k)%Z with 0%Z. rewrite cis_0.
  replace (Z.of_nat 1 * k)%Z with k by lia. apply cx_eq; cbn; ring.
Qed.
Lemma cis2_1 : cis 2 (-1) = (-1, 0).
Proof.
  rewrite (cis_mod 2 (-1) 1) by (cbn; lia || reflexivity).
  unfold cis. cbn. replace (2 * PI * 1 / (1 + 1)) with PI by field. now rewrite cos_PI, sin_PI.
Qed.
Lemma cross_valid_refuted : exists X df m, X <> [] /\ 0 < df /\ (0 < m)%nat /\ make_cross_corr X df m Valid = Err IndexError.
Proof.
  exists [c1; c1], 1, 1%nat. split; [discriminate|]. split; [lra|]. split; [lia|].
  unfold make_cross_corr, cal_timeshift. cbv zeta.
  assert (L : length (map (fun z : cx => Rabs (re z)) (ifft [c1; c1])) = 2%nat) by reflexivity.
  rewrite L. assert (C := cross_corr_list [c1; c1] ltac:(discriminate)). cbv zeta in C. cbn [length] in C. rewrite C.
  destruct (argmax_spec (map (fun k => Rabs (re (inverse_at [c1; c1] k))) (lag_list 2 2 Same))) as (i & -> & Hi & A & _); [discriminate|].
  cbn [bind]. destruct i as [|i]; [exfalso|destruct i; reflexivity].
  specialize (A 1%nat ltac:(cbn; lia)). change (lags_in 2 2 CentralLags) with [(-1)%Z; 0%Z] in A. cbn [nth map] in A. rewrite !inverse_ex, cis2_1, cis_0 in A. cbn in A.
  replace ((1 + -1) * / 2) with 0 in A by field. replace ((1 + 1) * / 2) with 1 in A by field.
  rewrite Rabs_R0, Rabs_R1 in A. lra.
Qed.

Lemma cross_sign_refuted : exists X df m r, X <> [] /\ 0 < df /\ (0 < m)%nat /\ make_cross_corr X df m Same = Ok r /\
  c_corr r <> map (fun k => re (inverse_at X k)) (lag_list (length X) (length X) Same).
Proof.
  destruct (cross_same [(-1, 0)] 1 1 ltac:(discriminate)) as (k & E & _).
  exists [(-1, 0)], 1, 1%nat. eexists. split; [discriminate|]. split; [lra|]. split; [lia|]. split; [exact E|].
  cbn [c_corr length]. change (lags_in 1 1 CentralLags) with [0%Z]. cbn [map]. unfold inverse_at. cbn [length]. rewrite cs_S, cs_0. cbn [nth].
  change (Z.of_nat 0 * 0)%Z with 0%Z. rewrite cis_0. cbn. intros C. injection C as C.
  replace ((0 + (-1 * 1 - 0 * 0)) * / 1) with (-1) in C by field. unfold Rabs in C. destruct (Rcase_abs (-1)); lra.
Qed.
