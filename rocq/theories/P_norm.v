(* P_norm.v: positive frequencies, normalizations, Poisson level *)
From Verif Require Import Np Cplx M_fourier S_fourier P_dft.
From Coq Require Import Lra.
Open Scope R_scope.

Lemma n_pos_half n : (0 < n)%nat -> (n = 2 * n_pos n + 1 \/ n = 2 * n_pos n + 2)%nat.
Proof.
  intros H. unfold n_pos. pose proof (Nat.div_mod (n - 1) 2 ltac:(lia)).
  pose proof (Nat.mod_upper_bound (n - 1) 2 ltac:(lia)). lia.
Qed.

Lemma pos_bins n iz : (0 < n)%nat ->
  positive_fft_bins n iz = (if iz then 0%nat else 1%nat, S (n_pos n)).
Proof.
  intros H. unfold positive_fft_bins. destruct (n_pos_half n H) as [E|E].
  - assert (n mod 2 = 1)%nat.
    { rewrite E. rewrite Nat.mul_comm, Nat.add_comm, Nat.mod_add by lia. reflexivity. }
    rewrite H0. cbn [Nat.eqb]. f_equal.
    symmetry. apply Nat.div_unique with (r := 0%nat); lia.
  - assert (n mod 2 = 0)%nat.
    { rewrite E. replace (2 * n_pos n + 2)%nat with ((n_pos n + 1) * 2)%nat by lia. apply Nat.mod_mul. lia. }
    rewrite H0. cbn [Nat.eqb]. f_equal.
    symmetry. apply Nat.div_unique with (r := 0%nat); lia.
Qed.

Lemma fftfreq_map n d : (0 < n)%nat -> fftfreq n d = map (bin_freq n d) (seq 0 n).
Proof.
  intros H. unfold fftfreq. fold (n_pos n).
  assert (Hh : (n / 2 = n - (n_pos n + 1))%nat).
  { destruct (n_pos_half n H).
    - symmetry. apply Nat.div_unique with (r := 1%nat); lia.
    - symmetry. apply Nat.div_unique with (r := 0%nat); lia. }
  rewrite Hh. set (p := (n_pos n + 1)%nat).
  replace (seq 0 n) with (seq 0 p ++ seq p (n - p)).
  2:{ rewrite <- seq_app. f_equal. unfold p. destruct (n_pos_half n H); lia. }
  rewrite map_app. f_equal.
  - apply map_ext_in. intros k Hk. apply in_seq in Hk. unfold bin_freq.
    assert (E : Nat.ltb (2 * k) n = true) by (apply Nat.ltb_lt; unfold p in *; destruct (n_pos_half n H); lia).
    rewrite E. f_equal. ring.
  -
    apply nth_ext with (d := (INR 0 - INR (n - p)) / (INR n * d)) (d' := bin_freq n d 0).
    + now rewrite !map_length, !seq_length.
    + intros i Hi. rewrite map_length, seq_length in Hi.
      rewrite (map_nth (fun i => (INR i - INR (n - p)) / (INR n * d))), (map_nth (bin_freq n d)).
      rewrite !seq_nth by exact Hi. unfold bin_freq.
      assert (E : Nat.ltb (2 * (p + i)) n = false).
      { apply Nat.ltb_ge. unfold p in *. destruct (n_pos_half n H); lia. }
      rewrite E. f_equal. rewrite !plus_INR, minus_INR by (unfold p; destruct (n_pos_half n H); lia).
      cbn [INR]. ring.
Qed.

Lemma cut_range {A} (f : nat -> A) n a b : (b <= n)%nat ->
  cut (map f (seq 0 n)) (a, b) = map f (seq a (b - a)).
Proof.
  intros H. unfold cut, slice. cbn [fst snd]. rewrite skipn_map, firstn_map. f_equal.
  assert (E : forall m s, skipn m (seq s n) = seq (s + m) (n - m)).
  { clear. intros m. revert n. induction m as [|m IH]; intros n s.
    - rewrite Nat.add_0_r, Nat.sub_0_r. reflexivity.
    - destruct n as [|n]; [reflexivity|]. cbn [seq skipn]. rewrite IH. f_equal; lia. }
  rewrite E. cbn [Nat.add].
  assert (F : forall m k s, (m <= k)%nat -> firstn m (seq s k) = seq s m).
  { clear. induction m as [|m IH]; intros k s Hm; [reflexivity|].
    destruct k as [|k]; [lia|]. cbn [seq firstn]. rewrite IH by lia. reflexivity. }
  apply F. lia.
Qed.

Lemma bin_freq_sign n d k : (0 < n)%nat -> 0 < d -> (k < n)%nat ->
  (0 < bin_freq n d k <-> (1 <= k <= n_pos n)%nat) /\
  (0 <= bin_freq n d k <-> (k <= n_pos n)%nat).
Proof.
  intros Hn Hd Hk. assert (Hi : 0 < INR n * d) by (apply Rmult_lt_0_compat; [apply lt_0_INR; lia|assumption]).
  assert (Hinv := Rinv_0_lt_compat _ Hi).
  unfold bin_freq, Rdiv. destruct (Nat.ltb (2 * k) n) eqn:E.
  - apply Nat.ltb_lt in E. assert ((k <= n_pos n)%nat) by (destruct (n_pos_half n Hn); lia).
    pose proof (pos_INR k). split; split; intros H1.
    + split; [|assumption]. destruct k; [cbn in H1; nra|lia].
    + assert (0 < INR k) by (apply lt_0_INR; lia). apply Rmult_lt_0_compat; lra.
    + assumption.
    + apply Rmult_le_pos; lra.
  - apply Nat.ltb_ge in E. assert (~ (k <= n_pos n)%nat) by (destruct (n_pos_half n Hn); lia).
    assert (INR k < INR n) by (apply lt_INR; lia).
    assert ((INR k - INR n) * / (INR n * d) < 0).
    { apply Ropp_lt_cancel. rewrite Ropp_0. rewrite <- Ropp_mult_distr_l_reverse. apply Rmult_lt_0_compat; lra. }
    split; split; intros; try lia; lra.
Qed.

Lemma filter_range (p : nat -> bool) n a b :
  (forall k, (k < n)%nat -> p k = true <-> (a <= k < b)%nat) -> (b <= n)%nat ->
  filter p (seq 0 n) = seq a (b - a).
Proof.
  intros H Hb.
  destruct (le_lt_dec a b) as [Hab|Hab].
  2:{ replace (b - a)%nat with 0%nat by lia. cbn [seq].
      destruct (filter p (seq 0 n)) as [|x l] eqn:E; [reflexivity|].
      assert (Hx : In x (filter p (seq 0 n))) by (rewrite E; now left).
      apply filter_In in Hx. destruct Hx as [Hx1 Hx2]. apply in_seq in Hx1. apply H in Hx2; lia. }
  replace (seq 0 n) with (seq 0 a ++ seq a (b - a) ++ seq b (n - b)).
  2:{ replace b with (a + (b - a))%nat at 2 by lia. rewrite <- seq_app, <- (seq_app a _ 0).
      f_equal. lia. }
  rewrite !filter_app.
  assert (F0 : forall l, (forall x, In x l -> p x = false) -> filter p l = []).
  { induction l as [|x l IH]; intros Hl; [reflexivity|]. cbn. rewrite Hl by now left. apply IH. intros; apply Hl; now right. }
  assert (F1 : forall l, (forall x, In x l -> p x = true) -> filter p l = l).
  { induction l as [|x l IH]; intros Hl; [reflexivity|]. cbn. rewrite Hl by now left. f_equal. apply IH. intros; apply Hl; now right. }
  rewrite F0, F1, F0.
  - now rewrite app_nil_r.
  - intros x Hx. apply in_seq in Hx. destruct (p x) eqn:E; [|reflexivity]. apply H in E; lia.
  - intros x Hx. apply in_seq in Hx. apply H; lia.
  - intros x Hx. apply in_seq in Hx. destruct (p x) eqn:E; [|reflexivity]. apply H in E; lia.
Qed.
Lemma filter_map' {A B} (f : A -> B) (p : B -> bool) l : filter p (map f l) = map f (filter (fun a => p (f a)) l).
Proof. induction l as [|a l IH]; [reflexivity|]. cbn. destruct (p (f a)); cbn; now rewrite IH. Qed.

(* the slice is the mask freq > 0 (or freq >= 0) *)
Lemma pos_bins_main n d (iz : bool) : (0 < n)%nat -> 0 < d ->
  length (fftfreq n d) = n /\
  (forall k, (k < n)%nat -> nth k (fftfreq n d) 0 = bin_freq n d k) /\
  cut (fftfreq n d) (positive_fft_bins n iz) = filter (if iz then nonnegb else posb) (fftfreq n d) /\
  (forall k, (k < n)%nat ->
     (fst (positive_fft_bins n iz) <= k < snd (positive_fft_bins n iz))%nat <->
     (if iz then 0 <= bin_freq n d k else 0 < bin_freq n d k)).
Proof.
  intros Hn Hd. rewrite pos_bins, fftfreq_map by exact Hn. split; [|split; [|split]].
  - now rewrite map_length, seq_length.
  - intros k Hk. rewrite nth_indep with (d' := bin_freq n d 0) by (now rewrite map_length, seq_length).
    rewrite map_nth, seq_nth by exact Hk. reflexivity.
  - assert (B : (S (n_pos n) <= n)%nat) by (destruct (n_pos_half n Hn); lia).
    rewrite cut_range by exact B. rewrite filter_map'. f_equal. symmetry. apply filter_range; [|exact B].
    intros k Hk. destruct (bin_freq_sign n d k Hn Hd Hk) as [P1 P2].
    destruct iz; unfold posb, nonnegb; [destruct (Rle_dec 0 (bin_freq n d k))|destruct (Rlt_dec 0 (bin_freq n d k))];
      split; intros HH; try congruence; try (apply P1 in r; lia); try (apply P2 in r; lia);
      exfalso; apply n0; (apply P1 || apply P2); lia.
  - intros k Hk. destruct (bin_freq_sign n d k Hn Hd Hk) as [P1 P2]. cbn [fst snd].
    destruct iz; [rewrite P2|rewrite P1]; lia.
Qed.

Section Gen.
Context {A : Type} (mul : A -> R -> A).
Hypothesis mul_mul : forall p a b, mul (mul p a) b = mul p (a * b).
Hypothesis mul_1 : forall p, mul p 1 = p.

Lemma rinv_mult (a b : R) : / (a * b) = / a * / b.
Proof. apply Rinv_mult. Qed.

Lemma norm_factor p dt n mean nph var norm :
  normalize mul p dt n (Some mean) (Some nph) var 0 norm =
  match kind norm var with
  | Some k => Ok (mul p (factor k dt n mean nph))
  | None => Err ValueError
  end.
Proof.
  destruct norm; cbn [kind normalize].
  - unfold normalize_frac. destruct (Rlt_dec 0 0); [lra|]. rewrite !mul_mul. do 2 f_equal. cbn [factor]. unfold Rdiv. ring.
  - unfold normalize_abs. rewrite !mul_mul. do 2 f_equal. cbn [factor]. unfold Rdiv. rewrite rinv_mult. ring.
  - destruct var as [v|].
    + unfold normalize_leahy_from_variance. destruct (Req_EM_T v 0); [reflexivity|]. rewrite mul_mul. reflexivity.
    + unfold normalize_leahy_poisson. rewrite mul_mul. reflexivity.
  - cbn [factor]. now rewrite mul_1.
  - reflexivity.
Qed.

Lemma roundtrip_gen p dt n nph bkg norm : dt <> 0 -> (0 < n)%nat -> nph <> 0 ->
  norm <> OtherNorm -> (0 < bkg -> nph / INR n <> bkg) ->
  (let! q := normalize mul p dt n (Some (nph / INR n)) (Some nph) None bkg norm in
   unnormalize mul q dt n nph None bkg norm) = Ok p.
Proof.
  intros Hdt Hn Hph Hno Hb. assert (Hn' : INR n <> 0) by (apply not_0_INR; lia).
  assert (K : forall a, a = 1 -> Ok (mul p a) = Ok p) by (intros a ->; now rewrite mul_1).
  destruct norm; try (now destruct Hno); cbn [normalize bind unnormalize].
  - unfold normalize_frac. destruct (Rlt_dec 0 bkg) as [B|B].
    + specialize (Hb B). rewrite !mul_mul. apply K. field. repeat split; try assumption.
      intros E. apply Hb. apply Rminus_diag_uniq. unfold Rdiv.
      replace (nph * / INR n - bkg) with ((nph - bkg * INR n) * / INR n) by (field; assumption). rewrite E. ring.
    + rewrite !mul_mul. apply K. field. repeat split; assumption.
  - unfold normalize_abs. rewrite !mul_mul. apply K. field. split; assumption.
  - unfold normalize_leahy_poisson. rewrite !mul_mul. apply K. field. assumption.
  - reflexivity.
Qed.

Lemma roundtrip_var_gen p dt n nph v bkg : (0 < n)%nat -> v <> 0 ->
  (let! q := normalize mul p dt n (Some (nph / INR n)) (Some nph) (Some v) bkg Leahy in
   unnormalize mul q dt n nph (Some v) bkg Leahy) = Ok (mul p (nph / INR n)).
Proof.
  intros Hn Hv. assert (Hn' : INR n <> 0) by (apply not_0_INR; lia).
  cbn [normalize bind]. unfold normalize_leahy_from_variance. destruct (Req_EM_T v 0); [contradiction|].
  cbn [bind unnormalize]. rewrite !mul_mul. do 2 f_equal. field. split; assumption.
Qed.
End Gen.

Lemma cmulr_mul p a b : cmulr (cmulr p a) b = cmulr p (a * b).
Proof. unfold cmulr. rewrite map_map. apply map_ext. intros [x y]. unfold cscal; cbn. f_equal; ring. Qed.
Lemma cmulr_1 p : cmulr p 1 = p.
Proof. unfold cmulr. transitivity (map (fun z : cx => z) p); [|apply map_id]. apply map_ext. intros [x y]. unfold cscal; cbn. f_equal; ring. Qed.
Lemma rmul_mul p a b : rmul (rmul p a) b = rmul p (a * b).
Proof. unfold rmul. rewrite map_map. apply map_ext. intros x. ring. Qed.
Lemma rmul_1 p : rmul p 1 = p.
Proof. unfold rmul. transitivity (map (fun z : R => z) p); [|apply map_id]. apply map_ext. intros x. ring. Qed.
Lemma Rmult_mul (p a b : R) : (p * a) * b = p * (a * b).
Proof. ring. Qed.

(* C27 *)
Lemma roundtrip_main (p : list cx) dt n nph bkg norm : dt <> 0 -> (0 < n)%nat -> nph <> 0 ->
  norm <> OtherNorm -> (0 < bkg -> nph / INR n <> bkg) ->
  exists q, normalize cmulr p dt n (Some (nph / INR n)) (Some nph) None bkg norm = Ok q /\
            unnormalize cmulr q dt n nph None bkg norm = Ok p.
Proof.
  intros H1 H2 H3 H4 H5. pose proof (roundtrip_gen cmulr cmulr_mul cmulr_1 p dt n nph bkg norm H1 H2 H3 H4 H5) as E.
  destruct (normalize cmulr p dt n (Some (nph / INR n)) (Some nph) None bkg norm) as [q|e]; [|discriminate].
  exists q. split; [reflexivity|exact E].
Qed.

(* the other direction: unnormalize then normalize *)
Lemma roundtrip_back (p : list cx) dt n nph bkg norm : dt <> 0 -> (0 < n)%nat -> nph <> 0 ->
  norm <> OtherNorm -> (0 < bkg -> nph / INR n <> bkg) ->
  exists q, unnormalize cmulr p dt n nph None bkg norm = Ok q /\
            normalize cmulr q dt n (Some (nph / INR n)) (Some nph) None bkg norm = Ok p.
Proof.
  intros Hdt Hn Hph Hno Hb. assert (Hn' : INR n <> 0) by (apply not_0_INR; lia).
  assert (K : forall a, a = 1 -> Ok (cmulr p a) = Ok p) by (intros a ->; now rewrite cmulr_1).
  destruct norm; try (now destruct Hno); cbn [normalize bind unnormalize].
  - unfold normalize_frac. destruct (Rlt_dec 0 bkg) as [B|B]; eexists; (split; [reflexivity|]).
    + specialize (Hb B). rewrite !cmulr_mul. apply K. field. repeat split; try assumption.
      intros E. apply Hb. apply Rminus_diag_uniq. unfold Rdiv.
      replace (nph * / INR n - bkg) with ((nph - bkg * INR n) * / INR n) by (field; assumption). rewrite E. ring.
    + rewrite !cmulr_mul. apply K. field. repeat split; assumption.
  - eexists; split; [reflexivity|]. unfold normalize_abs. rewrite !cmulr_mul. apply K. field. split; assumption.
  - eexists; split; [reflexivity|]. unfold normalize_leahy_poisson. rewrite !cmulr_mul. apply K. field. assumption.
  - eexists; split; reflexivity.
Qed.

(* with a variance the round trip multiplies by n_ph / n_bin *)
Lemma roundtrip_variance (p : list cx) dt n nph v bkg : (0 < n)%nat -> v <> 0 ->
  exists q, normalize cmulr p dt n (Some (nph / INR n)) (Some nph) (Some v) bkg Leahy = Ok q /\
            unnormalize cmulr q dt n nph (Some v) bkg Leahy = Ok (map (fun z => cscal z (nph / INR n)) p).
Proof.
  intros H1 H2. pose proof (roundtrip_var_gen cmulr cmulr_mul p dt n nph v bkg H1 H2) as E.
  destruct (normalize cmulr p dt n (Some (nph / INR n)) (Some nph) (Some v) bkg Leahy) as [q|e]; [|discriminate].
  exists q. split; [reflexivity|exact E].
Qed.
Lemma roundtrip_variance_refuted :
  exists (p q r : list cx) dt n nph v, 0 < dt /\ (0 < n)%nat /\ 0 < nph /\ 0 < v /\
    normalize cmulr p dt n (Some (nph / INR n)) (Some nph) (Some v) 0 Leahy = Ok q /\
    unnormalize cmulr q dt n nph (Some v) 0 Leahy = Ok r /\ r <> p.
Proof.
  destruct (roundtrip_variance [(1, 0)] 1 2 100 5 0 ltac:(lia) ltac:(lra)) as (q & H1 & H2).
  exists [(1, 0)], q, (map (fun z : cx => cscal z (100 / INR 2)) [(1, 0)]), 1, 2%nat, 100, 5.
  repeat split; try lra; try lia; try exact H1.
  - exact H2.
  - cbn [map]. unfold cscal. cbn [re im fst snd INR]. intros E.
    assert (1 * (100 / (1 + 1)) = 1) by congruence. lra.
Qed.

(* the values of the normalizations, one power at a time *)
Lemma normalize_values (z : cx) dt n mean nph bkg :
  normalize cscal z dt n (Some mean) (Some nph) None bkg Frac =
    Ok (cscal z (2 * dt / ((mean - Rmax 0 bkg) * (mean - Rmax 0 bkg) * INR n))) /\
  normalize cscal z dt n (Some mean) (Some nph) None bkg AbsNorm = Ok (cscal z (2 / (INR n * dt))) /\
  normalize cscal z dt n (Some mean) (Some nph) None bkg Leahy = Ok (cscal z (2 / nph)) /\
  (forall v, v <> 0 ->
     normalize cscal z dt n (Some mean) (Some nph) (Some v) bkg Leahy = Ok (cscal z (2 / (v * INR n)))) /\
  normalize cscal z dt n (Some mean) (Some nph) (Some 0) bkg Leahy = Err ValueError /\
  normalize cscal z dt n (Some mean) (Some nph) None bkg NoNorm = Ok z /\
  normalize cscal z dt n (Some mean) (Some nph) None bkg OtherNorm = Err ValueError.
Proof.
  assert (M : forall a b, cscal (cscal z a) b = cscal z (a * b)) by (intros; unfold cscal; cbn; f_equal; ring).
  repeat split; cbn [normalize].
  - unfold normalize_frac. destruct (Rlt_dec 0 bkg) as [B|B].
    + rewrite Rmax_right by lra. rewrite !M. reflexivity.
    + rewrite Rmax_left, Rminus_0_r by lra. rewrite !M. reflexivity.
  - unfold normalize_abs. rewrite !M. do 2 f_equal. unfold Rdiv. rewrite rinv_mult. ring.
  - unfold normalize_leahy_poisson. rewrite M. reflexivity.
  - intros v Hv. unfold normalize_leahy_from_variance. destruct (Req_EM_T v 0); [contradiction|]. rewrite M. reflexivity.
  - unfold normalize_leahy_from_variance. destruct (Req_EM_T 0 0); [reflexivity|congruence].
Qed.

(* C28: the noise level in each normalization is the normalized unnormalized level *)
Lemma poisson_main dt n nph backrate norm : 0 < dt -> (0 < n)%nat -> nph <> 0 -> 0 <= backrate ->
  nph / (INR n * dt) <> backrate -> norm <> OtherNorm ->
  let unnorm_level := nph in
  let meanrate := nph / (INR n * dt) in
  exists l, poisson_level norm (Some meanrate) (Some nph) backrate = Ok l /\
    normalize Rmult unnorm_level dt n (Some (nph / INR n)) (Some nph) None (backrate * dt) norm = Ok l.
Proof.
  intros Hdt' Hn Hph Hb0 Hb Hno ul mr. assert (Hdt : dt <> 0) by lra. assert (Hn' : INR n <> 0) by (apply not_0_INR; lia).
  destruct norm; try (now destruct Hno); cbn [poisson_level normalize]; eexists; (split; [reflexivity|]).
  - assert (Hm : nph - backrate * (INR n * dt) <> 0).
    { intros E. apply Hb. apply Rminus_diag_uniq.
      replace (nph / (INR n * dt) - backrate) with ((nph - backrate * (INR n * dt)) / (INR n * dt)) by (field; split; assumption).
      rewrite E. unfold Rdiv. ring. }
    assert (E1 : mr - backrate = (nph - backrate * (INR n * dt)) / (INR n * dt)) by (unfold mr; field; split; assumption).
    rewrite E1. unfold mr, ul.
    unfold normalize_frac. destruct (Rlt_dec 0 (backrate * dt)) as [B|B].
    + assert (E2 : nph / INR n - backrate * dt = (nph - backrate * (INR n * dt)) / INR n) by (field; assumption).
      rewrite E2. f_equal. field. repeat split; assumption.
    + assert (backrate = 0) by nra. subst backrate. f_equal. field. repeat split; try assumption.
  - unfold normalize_abs, ul, mr. f_equal. field. split; assumption.
  - unfold normalize_leahy_poisson, ul. f_equal. field. assumption.
  - reflexivity.
Qed.

(* a negative background rate is used by poisson_level but ignored by normalize_frac *)
Lemma poisson_negative_background :
  exists dt n nph backrate l l', 0 < dt /\ (0 < n)%nat /\ 0 < nph /\ backrate < 0 /\
    poisson_level Frac (Some (nph / (INR n * dt))) (Some nph) backrate = Ok l /\
    normalize Rmult nph dt n (Some (nph / INR n)) (Some nph) None (backrate * dt) Frac = Ok l' /\ l <> l'.
Proof.
  exists 1, 1%nat, 1, (-1). do 2 eexists.
  repeat split; try lra; try lia; cbn [poisson_level normalize]; try reflexivity.
  unfold normalize_frac. destruct (Rlt_dec 0 (-1 * 1)); [lra|]. cbn [INR]. intros E. field_simplify in E. lra.
Qed.

(* missing arguments *)
Lemma poisson_missing :
  (forall n_ph b, poisson_level Frac None n_ph b = Err ValueError) /\
  (forall n_ph b, poisson_level AbsNorm None n_ph b = Err ValueError) /\
  (forall mr b, poisson_level NoNorm mr None b = Err ValueError) /\
  (forall mr n_ph b, poisson_level OtherNorm mr n_ph b = Err ValueError).
Proof. repeat split; intros; try reflexivity; destruct mr; reflexivity. Qed.
