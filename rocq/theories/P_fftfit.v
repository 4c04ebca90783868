(* P_fftfit.v: proofs about fftfit. *)
From Verif Require Import Np Lib Cplx M_fourier M_zn M_corr M_exvar M_fftfit S_fourier S_fftfit P_dft P_lag P_pcolor2 P_timmer P_zn P_exvar.
From Coq Require Import Reals List Arith ZArith Lra Lia.
Import ListNotations.
Open Scope R_scope.

(* ---- phases ---- *)
Lemma lower_ok fuel : forall x, x <= 1 / 2 + INR fuel -> exists y k, lower_phase (S fuel) x = Ok y /\ y = x + IZR k /\ y <= 1 / 2 /\ (x <= 1 / 2 -> y = x) /\ (1 / 2 < x -> - (1 / 2) < y).
Proof.
  induction fuel as [|fuel IH]; intros x H.
  - cbn in H. exists x, 0%Z. cbn. destruct (Rlt_dec (1 / 2) x); [lra|]. repeat split; lra.
  - rewrite S_INR in H. destruct (Rlt_dec (1 / 2) x) as [L|L].
    + destruct (IH (x - 1)) as (y & k & E & Y & B & C & D); [lra|]. exists y, (k - 1)%Z.
      split; [|split; [|split; [|split]]].
      * change (lower_phase (S (S fuel)) x) with (if Rlt_dec (1 / 2) x then lower_phase (S fuel) (x - 1) else Ok x).
        destruct (Rlt_dec (1 / 2) x); [exact E|contradiction].
      * rewrite minus_IZR. lra.
      * lra.
      * lra.
      * intros _. destruct (Rlt_dec (1 / 2) (x - 1)) as [L'|L']; [now apply D|]. rewrite C by lra. lra.
    + exists x, 0%Z. split; [|split; [|split; [|split]]]; try lra.
      change (lower_phase (S (S fuel)) x) with (if Rlt_dec (1 / 2) x then lower_phase (S fuel) (x - 1) else Ok x).
      destruct (Rlt_dec (1 / 2) x); [contradiction|reflexivity].
Qed.
Lemma raise_ok fuel : forall x, - (1 / 2) - INR fuel < x -> x <= 1 / 2 -> exists y k, raise_phase (S fuel) x = Ok y /\ y = x + IZR k /\ - (1 / 2) < y <= 1 / 2.
Proof.
  induction fuel as [|fuel IH]; intros x H U.
  - cbn in H. exists x, 0%Z. cbn. destruct (Rle_dec x (- (1 / 2))); [lra|]. repeat split; lra.
  - rewrite S_INR in H. destruct (Rle_dec x (- (1 / 2))) as [L|L].
    + destruct (IH (x + 1)) as (y & k & E & Y & B); [lra|lra|]. exists y, (k + 1)%Z.
      split; [|split; [|exact B]].
      * change (raise_phase (S (S fuel)) x) with (if Rle_dec x (- (1 / 2)) then raise_phase (S fuel) (x + 1) else Ok x).
        destruct (Rle_dec x (- (1 / 2))); [exact E|contradiction].
      * rewrite plus_IZR. lra.
    + exists x, 0%Z. split; [|split]; try lra.
      change (raise_phase (S (S fuel)) x) with (if Rle_dec x (- (1 / 2)) then raise_phase (S fuel) (x + 1) else Ok x).
      destruct (Rle_dec x (- (1 / 2))); [contradiction|reflexivity].
Qed.
(* the loops end *)
Lemma normalize_ends fuel x : Rabs x < INR fuel -> exists y, normalize_phase_0d5 (S fuel) x = Ok y /\ wrapped x y.
Proof.
  intros H. unfold normalize_phase_0d5. pose proof (Rle_abs x) as A. pose proof (Rle_abs (- x)) as A'. rewrite Rabs_Ropp in A'.
  destruct (lower_ok fuel x) as (y & k & E & Y & B & C & D); [lra|]. rewrite E. cbn [bind].
  destruct (raise_ok fuel y) as (z & j & E' & Y' & B').
  - destruct (Rlt_dec (1 / 2) x) as [L|L]; [specialize (D L); pose proof (pos_INR fuel); lra|rewrite C; lra].
  - assumption.
  - exists z. split; [exact E'|]. split; [exact B'|]. exists (k + j)%Z. rewrite plus_IZR. lra.
Qed.
Lemma lower_sound fuel : forall x y, lower_phase fuel x = Ok y -> y <= 1 / 2 /\ (exists k, y = x + IZR k) /\ (x <= 1 / 2 -> y = x).
Proof.
  induction fuel as [|fuel IH]; intros x y; cbn; [discriminate|]. destruct (Rlt_dec (1 / 2) x) as [L|L]; intros E.
  - apply IH in E. destruct E as (A & (k & B) & _). split; [exact A|]. split; [exists (k - 1)%Z; rewrite minus_IZR; lra|lra].
  - injection E as <-. split; [lra|]. split; [exists 0%Z; lra|reflexivity].
Qed.
Lemma raise_sound fuel : forall x y, x <= 1 / 2 -> raise_phase fuel x = Ok y -> - (1 / 2) < y <= 1 / 2 /\ (exists k, y = x + IZR k).
Proof.
  induction fuel as [|fuel IH]; intros x y U; cbn; [discriminate|]. destruct (Rle_dec x (- (1 / 2))) as [L|L]; intros E.
  - apply IH in E; [|lra]. destruct E as (A & (k & B)). split; [exact A|]. exists (k + 1)%Z. rewrite plus_IZR. lra.
  - injection E as <-. split; [lra|]. exists 0%Z. lra.
Qed.
Lemma normalize_sound fuel x y : normalize_phase_0d5 fuel x = Ok y -> wrapped x y.
Proof.
  unfold normalize_phase_0d5. destruct (lower_phase fuel x) as [p|] eqn:E; [|discriminate]. cbn [bind]. intros F.
  apply lower_sound in E. destruct E as (A & (k & B) & _). apply raise_sound in F; [|assumption]. destruct F as (C & (j & D)).
  split; [exact C|]. exists (k + j)%Z. rewrite plus_IZR. lra.
Qed.
Lemma wrapped_unique x y z : wrapped x y -> wrapped x z -> y = z.
Proof.
  intros (A & k & B) (C & j & D). assert (k = j) as ->; [|lra].
  assert (IZR k - IZR j < 1) by lra. assert (IZR j - IZR k < 1) by lra. rewrite <- minus_IZR in *. apply lt_IZR in H. apply lt_IZR in H0. lia.
Qed.

(* ---- amplitudes and phases of the products ---- *)
Lemma cabs_polar x y r th : 0 < r -> x = r * cos th -> y = r * sin th -> cabs (x, y) = r.
Proof.
  intros H -> ->. unfold cabs, cnorm2. cbn [re im fst snd].
  replace (_ + _) with (r * r * ((sin th)² + (cos th)²)) by (unfold Rsqr; ring).
  rewrite sin2_cos2, Rmult_1_r. apply sqrt_square. lra.
Qed.
Lemma polar z : cabs z * cos (angle z) = re z /\ cabs z * sin (angle z) = im z.
Proof.
  destruct z as [x y]. destruct (Req_dec x 0) as [X|X]; [destruct (Req_dec y 0) as [Y|Y]|].
  - subst. unfold cabs, cnorm2. cbn. rewrite !Rmult_0_l, Rplus_0_l, sqrt_0. split; ring.
  - destruct (angle_exact x y (or_intror Y)) as (r & H & E1 & E2).
    rewrite (cabs_polar x y r _ H E1 E2). cbn. split; now symmetry.
  - destruct (angle_exact x y (or_introl X)) as (r & H & E1 & E2).
    rewrite (cabs_polar x y r _ H E1 E2). cbn. split; now symmetry.
Qed.
(* the product of two transforms, turned by th *)
Lemma product_polar x t th :
  cabs x * cabs t * cos (- (angle x - angle t) + - th) = re (cmul (cmul x (cconj t)) (cos th, sin th)) /\
  cabs x * cabs t * sin (- (angle x - angle t) + - th) = - im (cmul (cmul x (cconj t)) (cos th, sin th)).
Proof.
  destruct (polar x) as [X1 X2]. destruct (polar t) as [T1 T2].
  assert (E : cmul (cmul x (cconj t)) (cos th, sin th) =
    (cabs x * cabs t * cos ((angle x - angle t) + th), cabs x * cabs t * sin ((angle x - angle t) + th))).
  { apply cx_eq; unfold cmul, cconj; cbn [re im fst snd]; rewrite <- X1, <- X2, <- T1, <- T2.
    - rewrite cos_plus, cos_minus, sin_minus. ring.
    - rewrite sin_plus, cos_minus, sin_minus. ring. }
  rewrite E. cbn [re im fst snd]. replace (- (angle x - angle t) + - th) with (- ((angle x - angle t) + th)) by ring.
  rewrite cos_neg, sin_neg. split; ring.
Qed.

(* ---- mean subtraction ---- *)
Lemma demean_len x : length (demean x) = length x.
Proof. unfold demean. apply map_length. Qed.
Lemma demean_dft x k : (0 < k < length x)%nat -> dft (demean x) k = dft x k.
Proof.
  intros H. unfold demean. rewrite (map_ext _ (fun v => 1 * v + - mean x)) by (intros; ring).
  rewrite affine_dft by assumption. apply cx_eq; cbn; ring.
Qed.
Lemma demean_dft0 x : (0 < length x)%nat -> dft (demean x) 0 = c0.
Proof.
  intros H. rewrite dft_0. unfold demean. rewrite (map_ext _ (fun v => 1 * v + - mean x)) by (intros; ring).
  rewrite affine_sum. unfold mean. apply cx_eq; cbn; [|reflexivity]. field. apply not_0_INR. lia.
Qed.

Section Fit.
Variables p t : list R.
Hypothesis same : length t = length p.
Hypothesis long : (32 <= length p)%nat.
Let n := length p.
Let pf := fft (map rtoc (demean p)).
Let tf := fft (map rtoc (demean t)).
Let amp := amp_of pf tf.
Let pha := pha_of pf tf.
Lemma pf_map : pf = map (dft (demean p)) (seq 0 n).
Proof. unfold pf. rewrite fft_map, demean_len. reflexivity. Qed.
Lemma tf_map : tf = map (dft (demean t)) (seq 0 n).
Proof. unfold tf. rewrite fft_map, demean_len, same. reflexivity. Qed.
Lemma comb_map {A B C} (f : A -> B) (g : A -> C) l : combine (map f l) (map g l) = map (fun x => (f x, g x)) l.
Proof. induction l as [|a l IH]; [reflexivity|]. cbn. now rewrite IH. Qed.
Lemma amp_map : amp = map (strength p t) (seq 0 n).
Proof.
  unfold amp, amp_of. rewrite pf_map, tf_map, comb_map, map_map. apply map_ext_in. intros k Hk. apply in_seq in Hk. cbn [fst snd].
  unfold strength. destruct (Nat.eqb_spec k 0) as [->|N].
  - rewrite demean_dft0 by (fold n; lia). unfold cabs at 1, cnorm2. cbn. rewrite Rmult_0_l, Rplus_0_l, sqrt_0. ring.
  - rewrite !demean_dft; [reflexivity|rewrite same; fold n; lia|fold n; lia].
Qed.
Lemma pha_nth k : (0 < k < n)%nat -> nth k pha 0 = angle (dft p k) - angle (dft t k).
Proof.
  intros H. unfold pha, pha_of. rewrite pf_map, tf_map, comb_map, map_map. cbn [fst snd].
  rewrite (nth_map_lt2 _ _ _ 0%nat) by (rewrite seq_length; lia). rewrite seq_nth by lia. cbn [plus].
  rewrite !demean_dft; [reflexivity|rewrite same; fold n; lia|fold n; lia].
Qed.
Lemma amp_nth k : (0 < k < n)%nat -> nth k amp 0 = cabs (dft p k) * cabs (dft t k).
Proof.
  intros H. rewrite amp_map. rewrite (nth_map_lt2 _ _ _ 0%nat) by (rewrite seq_length; lia). rewrite seq_nth by lia. cbn [plus].
  unfold strength. destruct (Nat.eqb_spec k 0); [lia|reflexivity].
Qed.
Lemma amp_len : length amp = n.
Proof. rewrite amp_map. now rewrite map_length, seq_length. Qed.
Lemma good_strong : count_good amp = strong p t.
Proof.
  unfold count_good, strong. rewrite amp_map. unfold mean. rewrite map_length, seq_length. fold n.
  change (rlsum (map (strength p t) (seq 0 n))) with (rs n (strength p t)).
  induction (seq 0 n) as [|k l IH]; [reflexivity|]. cbn [map filter].
  destruct (Rle_dec _ _); cbn [length]; now rewrite IH.
Qed.
(* the function whose root is sought *)
Lemma func_slope tau : (strong p t <= n - 1)%nat -> best_phase_func (- tau) amp pha (count_good amp) = Ok (- slope p t (strong p t) tau).
Proof.
  intros H. unfold best_phase_func. rewrite amp_len, good_strong. destruct (Nat.ltb_spec (n - 1) (strong p t)); [lia|].
  f_equal. unfold slope, hsum.
  assert (G : forall l, (forall k, In k l -> (0 < k < n)%nat) ->
    rlsum (map (fun k => INR k * nth k amp 0 * sin (- nth k pha 0 + 2 * PI * INR k * - tau)) l) =
    - rlsum (map (fun k => INR k * im (harmonic p t k tau)) l)).
  { induction l as [|k l IH]; intros Hl; [cbn; ring|]. cbn [map rlsum fold_right].
    fold (rlsum (map (fun k => INR k * nth k amp 0 * sin (- nth k pha 0 + 2 * PI * INR k * - tau)) l)).
    fold (rlsum (map (fun k => INR k * im (harmonic p t k tau)) l)). rewrite IH by (intros; apply Hl; now right).
    rewrite amp_nth, pha_nth by (apply Hl; now left).
    replace (2 * PI * INR k * - tau) with (- (2 * PI * INR k * tau)) by ring.
    rewrite Rmult_assoc, (proj2 (product_polar (dft p k) (dft t k) (2 * PI * INR k * tau))). unfold harmonic. ring. }
  apply G. intros k Hk. apply in_seq in Hk. lia.
Qed.
Lemma func_error : (n - 1 < strong p t)%nat -> forall tau, best_phase_func tau amp pha (count_good amp) = Err ValueError.
Proof. intros H tau. unfold best_phase_func. rewrite amp_len, good_strong. destruct (Nat.ltb_spec (n - 1) (strong p t)); [reflexivity|lia]. Qed.
Lemma sum_re (c : nat -> R) s K : (K <= n)%nat ->
  sum_good (fun k a => c k * a * cos (- nth k pha 0 + 2 * PI * INR k * - s)) 0 amp K = hsum (K - 1) (fun k => c k * re (harmonic p t k s)).
Proof.
  intros H. unfold sum_good, hsum. f_equal. apply map_ext_in. intros k Hk. apply in_seq in Hk.
  rewrite amp_nth, pha_nth by lia. replace (2 * PI * INR k * - s) with (- (2 * PI * INR k * s)) by ring.
  rewrite Rmult_assoc, (proj1 (product_polar (dft p k) (dft t k) (2 * PI * INR k * s))). reflexivity.
Qed.
Lemma sum_t K : (K <= n)%nat -> sum_good (fun _ s => cabs s * cabs s) c0 tf K = tpower t (K - 1).
Proof.
  intros H. unfold sum_good, tpower, hsum. f_equal. apply map_ext_in. intros k Hk. apply in_seq in Hk.
  rewrite tf_map. rewrite (nth_map_lt2 _ _ _ 0%nat) by (rewrite seq_length; lia). rewrite seq_nth by lia. cbn [plus].
  rewrite demean_dft by (rewrite same; fold n; lia). unfold cabs. apply sqrt_def. unfold cnorm2. nra.
Qed.
End Fit.
