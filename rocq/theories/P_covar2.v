(* P_covar2.v: algebra of covariances; references made of the other light curves; spectra of lists of light curves. *)
From Coq Require Import Reals Qreals.
From Verif Require Import Np Lib M_gti M_utils M_lc M_exvar M_covar Cplx S_covar P_exvar P_helpers P_segan P_covar P_lag.
From Coq Require Import Reals List Bool Arith Lra Lia.
Import ListNotations.
Open Scope R_scope.

Lemma mean_ext n f g : (forall i, (i < n)%nat -> f i = g i) -> mean_of n f = mean_of n g.
Proof. intros H. unfold mean_of. f_equal. now apply rs_ext. Qed.
Lemma cov_ext n f f' g g' : (forall i, (i < n)%nat -> f i = f' i) -> (forall i, (i < n)%nat -> g i = g' i) -> cov_of n f g = cov_of n f' g'.
Proof. intros H H'. unfold cov_of. f_equal. rewrite (mean_ext n f f' H), (mean_ext n g g' H'). apply rs_ext. intros i Hi. now rewrite H, H'. Qed.
Lemma cov_sym n f g : cov_of n f g = cov_of n g f.
Proof. unfold cov_of. f_equal. apply rs_ext. intros; ring. Qed.
Lemma mean_sum n m (h : nat -> nat -> R) : mean_of n (fun k => rs m (fun j => h j k)) = rs m (fun j => mean_of n (h j)).
Proof. unfold mean_of, Rdiv. rewrite rs_swap, <- rs_scal. reflexivity. Qed.
Lemma cov_sum n m f (h : nat -> nat -> R) : cov_of n f (fun k => rs m (fun j => h j k)) = rs m (fun j => cov_of n f (h j)).
Proof.
  unfold cov_of, Rdiv. rewrite rs_scal. f_equal. rewrite mean_sum. rewrite <- rs_swap. apply rs_ext. intros k Hk. rewrite <- rs_minus, <- rs_scal_l. reflexivity.
Qed.
Lemma cov_affine n f g a b : (0 < n)%nat -> cov_of n (fun k => a * f k + b) g = a * cov_of n f g.
Proof.
  intros Hn. unfold cov_of. unfold Rdiv. rewrite <- Rmult_assoc. f_equal. rewrite <- rs_scal_l. apply rs_ext. intros k Hk.
  assert (M : mean_of n (fun k => a * f k + b) = a * mean_of n f + b). { unfold mean_of. rewrite rs_plus, rs_scal_l, rs_const. field. apply not_0_INR. lia. }
  rewrite M. ring.
Qed.
(* sample variances: divided by n - 1 *)
Lemma cov_self n f : (2 <= n)%nat -> cov_of n f f = INR n / (INR n - 1) * var_of n f.
Proof.
  intros Hn. unfold cov_of, var_of. assert (2 <= INR n) by (replace 2 with (INR 2) by reflexivity; apply le_INR; lia). rewrite (rs_ext n _ (fun i => (f i - mean_of n f) ^ 2)) by (intros; ring). field. lra.
Qed.
Lemma cov_cauchy n f g : (2 <= n)%nat -> (cov_of n f g) ^ 2 <= cov_of n f f * cov_of n g g.
Proof.
  intros Hn. unfold cov_of. set (F := fun i => f i - mean_of n f). set (G := fun i => g i - mean_of n g).
  assert (2 <= INR n) by (replace 2 with (INR 2) by reflexivity; apply le_INR; lia).
  assert (C : (rs n (fun i => F i * G i)) ^ 2 <= rs n (fun i => F i * F i) * rs n (fun i => G i * G i)).
  { set (A := rs n (fun i => F i * F i)). set (B := rs n (fun i => G i * G i)). set (D := rs n (fun i => F i * G i)).
    assert (A0 : 0 <= A) by (apply rs_nonneg; intros; nra). assert (B0 : 0 <= B) by (apply rs_nonneg; intros; nra).
    assert (P : forall t u, 0 <= t * t * A + 2 * t * u * D + u * u * B).
    { intros t u. replace (t * t * A + 2 * t * u * D + u * u * B) with (rs n (fun i => (t * F i + u * G i) * (t * F i + u * G i))); [apply rs_nonneg; intros; apply Rle_0_sqr|].
      unfold A, B, D. rewrite <- !rs_scal_l, <- !rs_plus. apply rs_ext. intros; ring. }
    destruct (Req_dec A 0) as [Z|NZ].
    - rewrite Z in *. destruct (Req_dec D 0) as [ZD|ND]; [rewrite ZD; nra|]. pose proof (P (- (B + 1) / (2 * D)) 1) as P1. replace (2 * (- (B + 1) / (2 * D)) * 1 * D) with (- (B + 1)) in P1 by (field; exact ND). rewrite Rmult_0_r in P1. lra.
    - assert (0 < A) by lra. pose proof (P (- D) A) as P1. assert (P2 : 0 <= A * (A * B - D * D)) by lra. assert (0 <= A * B - D * D); [|lra]. apply Rnot_lt_le. intros Q0. assert (A * (A * B - D * D) < 0) by nra. lra. }
  assert (I : 0 < / (INR n - 1)) by (apply Rinv_0_lt_compat; lra).
  change ((rs n (fun i => F i * G i) / (INR n - 1)) ^ 2 <= rs n (fun i => F i * F i) / (INR n - 1) * (rs n (fun i => G i * G i) / (INR n - 1))). unfold Rdiv.
  replace (rs n (fun i => F i * F i) * / (INR n - 1) * (rs n (fun i => G i * G i) * / (INR n - 1))) with (rs n (fun i => F i * F i) * rs n (fun i => G i * G i) * (/ (INR n - 1)) ^ 2) by ring.
  rewrite Rpow_mult_distr. apply Rmult_le_compat_r; [nra|exact C].
Qed.

(* ---- reference bands from light curves ---- *)
Lemma nth_map_lt {A B} (f : A -> B) l d d' i : (i < length l)%nat -> nth i (map f l) d' = f (nth i l d).
Proof. intros H. rewrite (nth_indep _ d' (f d)) by now rewrite map_length. apply map_nth. Qed.
Lemma add_counts_ok n a b : length a = n -> length b = n -> exists c, add_counts a b = Ok c /\ length c = n /\ forall k, Q2R (nth k c 0%Q) = Q2R (nth k a 0%Q) + Q2R (nth k b 0%Q).
Proof.
  intros Ha Hb. unfold add_counts. rewrite Ha, Hb, Nat.eqb_refl. eexists. split; [reflexivity|]. rewrite map_length, combine_length, Ha, Hb, Nat.min_id. split; [reflexivity|].
  intros k. destruct (Nat.lt_ge_cases k n) as [L|G].
  - rewrite (nth_map_lt _ _ (0%Q, 0%Q)) by now rewrite combine_length, Ha, Hb, Nat.min_id. rewrite combine_nth by congruence. cbn [fst snd]. apply Q2R_plus.
  - rewrite !nth_overflow by (try rewrite map_length, combine_length; lia). change (Q2R 0%Q) with (Q2R (inject_Z 0)). unfold inject_Z, Q2R. cbn. lra.
Qed.
Lemma others_fold lcs i n js : (forall j, In j js -> (j < length lcs)%nat) -> Forall (bins n) lcs -> forall acc, length acc = n ->
  exists c, fold_left (fun acc j => let! acc := acc in if Nat.eqb i j then Ok acc else let! lc := get lcs j in add_counts acc (lc_counts lc)) js (Ok acc) = Ok c /\ length c = n /\
    forall k, Q2R (nth k c 0%Q) = Q2R (nth k acc 0%Q) + rlsum (map (fun j => if Nat.eqb i j then 0 else counts_at (nth j lcs nothing) k) js).
Proof.
  induction js as [|j js IH]; intros Hj F acc L; cbn [fold_left map].
  - exists acc. split; [reflexivity|]. split; [exact L|]. intros k. cbn [rlsum fold_right]. lra.
  - cbn [bind]. destruct (Nat.eqb i j) eqn:E.
    + destruct (IH (fun x I => Hj x (or_intror I)) F acc L) as (c & C & Lc & K). exists c. split; [exact C|]. split; [exact Lc|]. intros k. rewrite K. change (rlsum (0 :: ?l)) with (0 + rlsum l). lra.
    + rewrite (get_at lcs nothing j) by (apply Hj; now left). cbn [bind].
      assert (B : bins n (nth j lcs nothing)) by (rewrite Forall_forall in F; apply F, nth_In, Hj; now left).
      destruct (add_counts_ok n acc (lc_counts (nth j lcs nothing)) L (proj1 B)) as (a & A & La & Ka). rewrite A.
      destruct (IH (fun x I => Hj x (or_intror I)) F a La) as (c & C & Lc & K). exists c. split; [exact C|]. split; [exact Lc|]. intros k. rewrite K, Ka. change (rlsum (?x :: ?l)) with (x + rlsum l). unfold counts_at. lra.
Qed.
Lemma others_ok lcs bands n : (0 < n)%nat -> lcs <> [] -> length bands = length lcs -> Forall (bins n) lcs ->
  exists l, reference_from_lightcurves lcs bands None = Ok (RefList l) /\ length l = length lcs /\ Forall (bins n) l /\
    forall i k, (i < length lcs)%nat -> counts_at (nth i l nothing) k = rs (length lcs) (fun j => if Nat.eqb i j then 0 else counts_at (nth j lcs nothing) k).
Proof.
  intros Hn NE Lb F. assert (B0 : bins n (nth 0 lcs nothing)) by (rewrite Forall_forall in F; apply F, nth_In; destruct lcs; [contradiction|cbn; lia]).
  unfold reference_from_lightcurves. rewrite (get_at lcs nothing 0) by (destruct lcs; [contradiction|cbn; lia]). cbn [bind]. rewrite Lb.
  set (f := fun i => let! counts := fold_left (fun acc j => let! acc := acc in if Nat.eqb i j then Ok acc else let! lc := get lcs j in add_counts acc (lc_counts lc)) (seq 0 (length lcs)) (Ok (map (fun _ => 0%Q) (lc_counts (nth 0 lcs nothing)))) in
                  Ok (new_lightcurve (lc_time (nth 0 lcs nothing)) counts None (lc_dt (nth 0 lcs nothing)))).
  assert (X : forall i, In i (seq 0 (length lcs)) -> exists lc, f i = Ok lc /\ bins n lc /\ forall k, counts_at lc k = rs (length lcs) (fun j => if Nat.eqb i j then 0 else counts_at (nth j lcs nothing) k)).
  { intros i _. unfold f. destruct (others_fold lcs i n (seq 0 (length lcs)) ltac:(intros j J; apply in_seq in J; lia) F (map (fun _ => 0%Q) (lc_counts (nth 0 lcs nothing)))) as (c & C & Lc & K).
    { rewrite map_length. apply B0. }
    rewrite C. cbn [bind]. eexists. split; [reflexivity|]. split; [split; [exact Lc|]; apply B0|]. intros k. unfold counts_at at 1. cbn [lc_counts new_lightcurve]. rewrite K.
    replace (Q2R (nth k (map (fun _ => 0%Q) (lc_counts (nth 0 lcs nothing))) 0%Q)) with 0; [unfold rs; lra|]. replace (nth k (map (fun _ => 0%Q) (lc_counts (nth 0 lcs nothing))) 0%Q) with 0%Q; [unfold Q2R; cbn; lra|].
    symmetry. clear. revert k. induction (lc_counts (nth 0 lcs nothing)); intros [|k]; cbn; auto. }
  assert (M : exists l, map_result f (seq 0 (length lcs)) = Ok l) by (apply map_result_ok; intros i I; destruct (X i I) as (lc & E & _); eauto).
  destruct M as [l M]. rewrite M. cbn [bind]. exists l. split; [reflexivity|]. destruct (map_result_nth f _ l M) as [L N]. rewrite seq_length in L. split; [exact L|].
  assert (Y : forall i, (i < length lcs)%nat -> exists lc, nth i l nothing = lc /\ f i = Ok lc).
  { intros i Hi. exists (nth i l nothing). split; [reflexivity|]. destruct (N i i) as (b & Bn & Bf); [rewrite (nth_error_nth' _ 0%nat) by (rewrite seq_length; exact Hi); rewrite seq_nth by exact Hi; reflexivity|]. rewrite (nth_error_nth l i nothing Bn). exact Bf. }
  split.
  - apply Forall_forall. intros lc I. destruct (In_nth l lc nothing I) as (i & Hi & E). rewrite L in Hi. destruct (Y i Hi) as (lc' & E' & G). destruct (X i) as (lc2 & G2 & B & _); [apply in_seq; lia|]. rewrite <- E, E'. rewrite G in G2. inversion G2. exact B.
  - intros i k Hi. destruct (Y i Hi) as (lc' & E' & G). destruct (X i) as (lc2 & G2 & _ & K); [apply in_seq; lia|]. rewrite E'. rewrite G in G2. inversion G2. apply K.
Qed.
