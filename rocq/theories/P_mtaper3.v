(* P_mtaper3.v: jackknife variances, tapered transforms and light curves of multitaper.py. *)
From Verif Require Import Np S_gti M_gti M_utils M_base M_lc Cplx M_fourier M_exvar M_mtaper S_fourier S_mtaper P_exvar P_dft P_timmer P_spec P_mtaper P_mtaper2.
From Coq Require Import Reals List Arith ZArith Bool Lia Lra.
Import ListNotations.
Open Scope R_scope.

(* ---- jackknife ---- *)
Lemma jackknife_single x e : jackknife [x] [e] = None.
Proof.
  unfold jackknife. cbn [length seq map without]. rewrite psd_nan by (intros y []). reflexivity.
Qed.
Lemma without_len {A} i (l : list A) : (i < length l)%nat -> length (without i l) = (length l - 1)%nat.
Proof. revert i. induction l as [|a l IH]; intros [|i] H; cbn [without length] in *; try lia. rewrite IH by lia. lia. Qed.
Lemma without_in {A} i (l : list A) x : In x (without i l) -> In x l.
Proof. revert i. induction l as [|a l IH]; intros [|i] H; cbn [without] in H; [destruct H|destruct H|now right|]. destruct H as [->|H]; [now left|right; now apply (IH i)]. Qed.
Lemma without_map {A B} (f : A -> B) i l : without i (map f l) = map f (without i l).
Proof. revert i. induction l as [|a l IH]; intros [|i]; try reflexivity. cbn [map without]. now rewrite IH. Qed.
Lemma leave_one col eig i : length col = length eig -> (2 <= length eig)%nat -> (forall e, In e eig -> 0 < e) -> (forall x, In x col -> 0 < cnorm2 x) -> (i < length eig)%nat ->
  exists p, psd_from_freq_response (without i col) (map sqrt (without i eig)) = Some p /\ sound (without i col) p.
Proof.
  intros L K E C Hi. apply psd_sound.
  - rewrite map_length, !without_len by lia. lia.
  - assert (N : (0 < length (without i col))%nat) by (rewrite without_len; lia). exists 0%nat. split; [exact N|]. apply C, (without_in i), nth_In, N.
  - intros x I. apply in_map_iff in I. destruct I as (e & <- & I). apply sqrt_lt_R0, E, (without_in i), I.
Qed.
Definition jack_factor (K : nat) : R := (INR K - 1) * (INR K - 1) / INR K / (INR K - 1 / 2).
Lemma all_some_seq {A} (f : nat -> option A) (g : nat -> A) a n : (forall i, (a <= i < a + n)%nat -> f i = Some (g i)) -> all_some (map f (seq a n)) = Some (map g (seq a n)).
Proof. intros H. rewrite <- all_some_map, map_map. f_equal. apply map_ext_in. intros i I. apply in_seq in I. now apply H. Qed.
Lemma jackknife_logs col eig (p : nat -> R) : (0 < length eig)%nat -> (forall i, (i < length eig)%nat -> psd_from_freq_response (without i col) (map sqrt (without i eig)) = Some (p i) /\ 0 < p i) ->
  let K := length eig in
  jackknife col eig = Some (rs K (fun i => (ln (p i) - rs K (fun j => ln (p j)) / INR K) * (ln (p i) - rs K (fun j => ln (p j)) / INR K)) * jack_factor K).
Proof.
  intros N H K. unfold jackknife. fold K. rewrite (all_some_seq _ (fun i => ln (p i))).
  2:{ intros i Hi. destruct (H i ltac:(unfold K in Hi; lia)) as [A B]. rewrite A. unfold flog. destruct (Rlt_dec 0 (p i)); [reflexivity|contradiction]. }
  cbv zeta. f_equal. unfold jack_factor. f_equal. rewrite map_map. reflexivity.
Qed.
Lemma factor_pos K : (1 <= K)%nat -> 0 <= jack_factor K.
Proof.
  intros H. assert (1 <= INR K) by (change 1 with (INR 1); now apply le_INR). unfold jack_factor. apply Rmult_le_pos; [apply Rmult_le_pos; [apply Rle_0_sqr|]|]; left; apply Rinv_0_lt_compat; lra.
Qed.
Lemma jackknife_ok col eig : length col = length eig -> (2 <= length eig)%nat -> (forall e, In e eig -> 0 < e) -> (forall x, In x col -> 0 < cnorm2 x) ->
  let K := length eig in
  exists p : nat -> R, (forall i, (i < K)%nat -> psd_from_freq_response (without i col) (map sqrt (without i eig)) = Some (p i) /\ 0 < p i) /\
    exists v, jackknife col eig = Some v /\ 0 <= v /\ v = rs K (fun i => (ln (p i) - rs K (fun j => ln (p j)) / INR K) * (ln (p i) - rs K (fun j => ln (p j)) / INR K)) * ((INR K - 1) * (INR K - 1) / INR K / (INR K - 1 / 2)).
Proof.
  intros L HK E C K. set (q := fun i => match psd_from_freq_response (without i col) (map sqrt (without i eig)) with Some p => p | None => 0 end). exists q.
  assert (Q : forall i, (i < K)%nat -> psd_from_freq_response (without i col) (map sqrt (without i eig)) = Some (q i) /\ 0 < q i).
  { intros i Hi. destruct (leave_one col eig i L HK E C Hi) as (p & A & P & _). unfold q. rewrite A. split; [reflexivity|exact P]. }
  split; [exact Q|]. eexists. split; [apply (jackknife_logs col eig q); [lia|exact Q]|]. split; [|reflexivity]. apply Rmult_le_pos; [apply rs_nonneg; intros; apply Rle_0_sqr|apply factor_pos; lia].
Qed.
Lemma jackknife_scaled col eig c : c <> 0 -> length col = length eig -> (2 <= length eig)%nat -> (forall e, In e eig -> 0 < e) -> (forall x, In x col -> 0 < cnorm2 x) ->
  jackknife (map (fun x => cscal x c) col) eig = jackknife col eig.
Proof.
  intros N L HK E C. destruct (jackknife_ok col eig L HK E C) as (p & Q & v & Jv & _ & Ev). rewrite Jv, Ev. set (K := length eig) in *. assert (CC : 0 < c * c) by nra.
  rewrite (jackknife_logs _ eig (fun i => c * c * p i)); [|unfold K in *; lia|].
  - fold K. f_equal. unfold jack_factor. f_equal. assert (NK : INR K <> 0) by (apply not_0_INR; lia).
    assert (M : rs K (fun j => ln (c * c * p j)) / INR K = ln (c * c) + rs K (fun j => ln (p j)) / INR K).
    { rewrite (rs_ext K _ (fun j => ln (c * c) + ln (p j))) by (intros j Hj; apply ln_mult; [exact CC|apply Q, Hj]). rewrite rs_plus, rs_const. field. exact NK. }
    rewrite M. apply rs_ext. intros i Hi. rewrite ln_mult by (try exact CC; apply Q, Hi). ring.
  - intros i Hi. destruct (Q i Hi) as [A B]. rewrite without_map, psd_data_scaled, A; [|rewrite map_length, !without_len by (fold K in L; lia); fold K in L; lia]. split; [reflexivity|now apply Rmult_lt_0_compat].
Qed.
Lemma jackknife_equal col eig r : 0 < r -> length col = length eig -> (2 <= length eig)%nat -> (forall e, In e eig -> 0 < e) -> (forall x, In x col -> cnorm2 x = r) ->
  jackknife col eig = Some 0.
Proof.
  intros Rp L HK E C. rewrite (jackknife_logs col eig (fun _ => 2 * r)); [|lia|].
  - f_equal. set (K := length eig). assert (NK : INR K <> 0) by (apply not_0_INR; lia). rewrite rs_zero; [ring|]. intros i Hi. rewrite rs_const. replace (INR K * ln (2 * r) / INR K) with (ln (2 * r)) by (field; exact NK). ring.
  - intros i Hi. assert (C' : forall x, In x col -> 0 < cnorm2 x) by (intros x I; rewrite (C x I); exact Rp). destruct (leave_one col eig i L HK E C' Hi) as (p & A & P & B).
    assert (X : 2 * r <= p <= 2 * r). { apply B. intros k Hk. rewrite (C (nth k (without i col) c0)); [lra|]. apply (without_in i), nth_In, Hk. }
    rewrite A. split; [f_equal; lra|lra].
Qed.

(* ---- tapered transforms ---- *)
Lemma tapered_len counts t : length t = length counts -> length (tapered counts t) = length counts.
Proof. intros H. unfold tapered. rewrite map_length, combine_length, map_length, H. lia. Qed.
Lemma tapered_at counts t j : length t = length counts -> (j < length counts)%nat -> val (tapered counts t) j = (val counts j - mean_of counts) * val t j.
Proof.
  intros L Hj. unfold tapered, val. rewrite (nth_map_lt2 _ _ _ (0, 0)) by (rewrite combine_length, map_length; lia). rewrite combine_nth by now rewrite map_length. cbn [fst snd]. f_equal. now rewrite (nth_map_lt2 _ _ _ 0) by lia.
Qed.
Lemma columns_at counts tapers i k j : (forall t, In t tapers -> length t = length counts) -> (i < length counts / 2 - 1)%nat -> (j < length tapers)%nat -> k = S i ->
  nth j (nth i (columns counts tapers) []) c0 = dft (tapered counts (nth j tapers [])) k.
Proof.
  intros T Hi Hj ->. unfold columns, used_bins. rewrite (nth_map_lt2 _ _ _ O) by (rewrite seq_length; exact Hi). rewrite seq_nth by exact Hi. rewrite (nth_map_lt2 _ _ _ []) by exact Hj.
  unfold response. change (rlsum counts / INR (length counts)) with (mean_of counts). fold (tapered counts (nth j tapers [])). rewrite fft_dft; [reflexivity|]. rewrite tapered_len by (apply T, nth_In, Hj). assert (2 * (length counts / 2) <= length counts)%nat by (apply Nat.mul_div_le; lia). lia.
Qed.
Lemma columns_len counts tapers : length (columns counts tapers) = (length counts / 2 - 1)%nat /\ forall c, In c (columns counts tapers) -> length c = length tapers.
Proof. unfold columns, used_bins. split; [now rewrite map_length, seq_length|]. intros c I. apply in_map_iff in I. destruct I as (k & <- & _). apply map_length. Qed.
Lemma mean_shift x c : x <> [] -> mean_of (map (fun y => y + c) x) = mean_of x + c.
Proof.
  intros N. unfold mean_of. rewrite map_length. assert (NN : INR (length x) <> 0) by (apply not_0_INR; destruct x; [congruence|cbn; lia]).
  assert (E : rlsum (map (fun y => y + c) x) = rlsum x + INR (length x) * c). { clear. induction x as [|y x IH]; [cbn; ring|]. cbn [map length]. change (rlsum (?q :: ?r)) with (q + rlsum r). rewrite IH, S_INR. change (rlsum (?q :: ?r)) with (q + rlsum r). ring. }
  rewrite E. field. exact NN.
Qed.
Lemma response_shift counts t c : counts <> [] -> response (map (fun y => y + c) counts) t = response counts t.
Proof.
  intros N. change (response ?a t) with (fft (map rtoc (tapered a t))). do 2 f_equal. unfold tapered. rewrite mean_shift by exact N. do 2 f_equal. rewrite map_map. apply map_ext. intros a. ring.
Qed.
Lemma columns_shift counts tapers c : counts <> [] -> columns (map (fun y => y + c) counts) tapers = columns counts tapers.
Proof.
  intros N. unfold columns. rewrite map_length. apply map_ext. intros k. apply map_ext. intros t. now rewrite response_shift.
Qed.
Lemma shift_invariant dpss counts dt NW lb c : counts <> [] -> fourier_multitaper dpss (map (fun y => y + c) counts) dt NW lb = fourier_multitaper dpss counts dt NW lb.
Proof. intros N. unfold fourier_multitaper. rewrite map_length. destruct (Rlt_dec NW (1 / 2)); [reflexivity|]. destruct (select_tapers _ _) as [te|e]; [|reflexivity]. cbn [bind]. now rewrite columns_shift. Qed.
Lemma mean_scale x c : mean_of (map (fun y => y * c) x) = mean_of x * c.
Proof. unfold mean_of. rewrite map_length. rewrite (rlsum_map_scal (fun y => y) c x), map_id. unfold Rdiv. ring. Qed.
Lemma tapered_scale counts t c : tapered (map (fun y => y * c) counts) t = map (fun y => y * c) (tapered counts t).
Proof.
  unfold tapered. rewrite mean_scale, !map_map. set (m := mean_of counts). clearbody m. revert t. induction counts as [|x l IH]; intros [|y t]; try reflexivity. cbn [map combine fst snd]. rewrite IH. f_equal. ring.
Qed.
Lemma dft_scale x c k : dft (map (fun y => y * c) x) k = cscal (dft x k) c.
Proof.
  unfold dft. rewrite map_length. cbv zeta. unfold cscal. cbn [re im fst snd]. f_equal.
  - rewrite <- rs_scal. apply rs_ext. intros i Hi. unfold val. rewrite (nth_map_lt2 _ _ _ 0) by exact Hi. ring.
  - rewrite Ropp_mult_distr_l_reverse. f_equal. rewrite <- rs_scal. apply rs_ext. intros i Hi. unfold val. rewrite (nth_map_lt2 _ _ _ 0) by exact Hi. ring.
Qed.
Lemma columns_scale counts tapers c : (forall t, In t tapers -> length t = length counts) -> columns (map (fun y => y * c) counts) tapers = map (map (fun x => cscal x c)) (columns counts tapers).
Proof.
  intros T. unfold columns. rewrite map_length, map_map. apply map_ext_in. intros k I. unfold used_bins in I. apply in_seq in I. rewrite map_map. apply map_ext_in. intros t It.
  assert (2 * (length counts / 2) <= length counts)%nat by (apply Nat.mul_div_le; lia).
  change (response (map (fun y => y * c) counts) t) with (fft (map rtoc (tapered (map (fun y => y * c) counts) t))). change (response counts t) with (fft (map rtoc (tapered counts t))).
  rewrite !fft_dft by (rewrite ?tapered_len by (rewrite ?map_length; now apply T); rewrite ?map_length; lia). now rewrite tapered_scale, dft_scale.
Qed.
Lemma frequencies_even n dt k : Nat.even n = true -> (0 < k)%nat -> (2 * k < n)%nat -> In (INR k / (INR n * dt)) (frequencies n dt).
Proof.
  intros E K H. unfold frequencies. apply in_map_iff. exists k. split; [reflexivity|]. unfold used_bins. apply in_seq. apply Nat.even_spec in E. destruct E as (m & ->). rewrite Nat.mul_comm, Nat.div_mul by lia. lia.
Qed.
Lemma frequencies_at n dt i : (i < n / 2 - 1)%nat -> nth i (frequencies n dt) 0 = INR (S i) / (INR n * dt).
Proof. intros H. unfold frequencies, used_bins. rewrite (nth_map_lt2 _ _ _ O) by (rewrite seq_length; exact H). rewrite seq_nth by exact H. reflexivity. Qed.
Lemma frequencies_odd m dt : (0 < m)%nat -> 0 < dt -> ~ In (INR m / (INR (2 * m + 1) * dt)) (frequencies (2 * m + 1) dt).
Proof.
  intros M D I. unfold frequencies in I. apply in_map_iff in I. destruct I as (k & E & I). unfold used_bins in I. apply in_seq in I. replace ((2 * m + 1) / 2)%nat with m in I by (apply Nat.div_unique with 1%nat; lia).
  assert (P : 0 < INR (2 * m + 1) * dt) by (apply Rmult_lt_0_compat; [apply lt_0_INR; lia|exact D]). assert (X : INR k = INR m).
  { apply (Rmult_eq_reg_r (/ (INR (2 * m + 1) * dt))); [exact E|]. apply Rinv_neq_0_compat. lra. }
  apply INR_eq in X. lia.
Qed.
Lemma half_bandwidth dpss counts dt NW lb : NW < 1 / 2 -> fourier_multitaper dpss counts dt NW lb = Err ValueError.
Proof. intros H. unfold fourier_multitaper. destruct (Rlt_dec NW (1 / 2)); [reflexivity|lra]. Qed.
Lemma kmax_one NW : 1 / 2 <= NW < 1 -> kmax NW = 1%Z.
Proof. intros H. unfold kmax, Int_part. rewrite <- (tech_up (2 * NW) 2); [reflexivity|lra|lra]. Qed.
Lemma jackknife_one dpss counts dt NW lb t e : 1 / 2 <= NW -> dpss (length counts) NW (kmax NW) = [(t, e)] -> exists psd,
  fourier_multitaper dpss counts dt NW lb = Ok (frequencies (length counts) dt, psd, repeat None (length counts / 2 - 1)).
Proof.
  intros H D. unfold fourier_multitaper. destruct (Rlt_dec NW (1 / 2)); [lra|]. rewrite D. assert (S1 : select_tapers lb [(t, e)] = Ok [(t, e)]).
  { unfold select_tapers. destruct lb; [|reflexivity]. cbn [filter snd]. destruct (above e); reflexivity. }
  rewrite S1. cbn [bind map fst snd]. eexists. do 2 f_equal. unfold columns, used_bins. rewrite map_map. cbn [map]. rewrite (map_ext (fun x => jackknife [nth x (response counts t) c0] [e]) (fun _ => None)) by (intros; apply jackknife_single).
  generalize (length counts / 2 - 1)%nat. intros q. generalize 1%nat. induction q as [|q IH]; intros a; [reflexivity|]. cbn [seq map repeat]. now rewrite IH.
Qed.

(* ---- white noise ---- *)
Lemma over_rs ens n (f : (nat -> R) -> nat -> R) : over ens (fun x => rs n (f x)) = rs n (fun i => over ens (fun x => f x i)).
Proof. unfold over. symmetry. apply rlsum_rs_swap. Qed.
Lemma over_scal ens (f : (nat -> R) -> R) c : over ens (fun x => f x * c) = over ens f * c.
Proof. apply rlsum_map_scal. Qed.
Lemma over_ext ens (f g : (nat -> R) -> R) : (forall x, In x ens -> f x = g x) -> over ens f = over ens g.
Proof. apply rlsum_map. Qed.
Lemma over_plus ens (f g : (nat -> R) -> R) : over ens (fun x => f x + g x) = over ens f + over ens g.
Proof. apply rlsum_map_plus. Qed.
Lemma quadratic ens n m s2 a : white_noise ens n m s2 -> over ens (fun x => rs n (fun j => (x j - m) * a j) * rs n (fun j => (x j - m) * a j)) = INR (length ens) * s2 * rs n (fun j => a j * a j).
Proof.
  intros [_ W]. rewrite (over_ext _ _ (fun x => rs n (fun i => rs n (fun j => (x i - m) * (x j - m) * (a i * a j))))).
  2:{ intros x _. rewrite rs_mult. apply rs_ext. intros i _. apply rs_ext. intros j _. ring. }
  rewrite over_rs, <- rs_scal_l. apply rs_ext. intros i Hi. rewrite over_rs. rewrite (rs_delta n i) by first [exact Hi|intros j Hj D; rewrite over_scal, W by assumption; destruct (Nat.eqb_spec i j); [congruence|ring]].
  rewrite over_scal, W by assumption. rewrite Nat.eqb_refl. reflexivity.
Qed.
Lemma series_len n x : length (series_of n x) = n.
Proof. unfold series_of. now rewrite map_length, seq_length. Qed.
Lemma series_at n x j : (j < n)%nat -> val (series_of n x) j = x j.
Proof. intros H. unfold val, series_of. rewrite (nth_map_lt2 _ _ _ O) by (rewrite seq_length; exact H). now rewrite seq_nth by exact H. Qed.
Lemma sum_demeaned n x m t (b : nat -> R) : (0 < n)%nat -> length t = n ->
  rs n (fun j => val (tapered (series_of n x) t) j * b j) = rs n (fun j => (x j - m) * (val t j * b j - rs n (fun i => val t i * b i) / INR n)).
Proof.
  intros N L. assert (NN : INR n <> 0) by (apply not_0_INR; lia). set (q := rs n (fun i => val t i * b i)).
  rewrite (rs_ext n _ (fun j => (x j - mean_of (series_of n x)) * (val t j * b j))).
  2:{ intros j Hj. rewrite tapered_at by (rewrite series_len; lia). rewrite series_at by exact Hj. ring. }
  assert (M : mean_of (series_of n x) = rs n x / INR n). { unfold mean_of. rewrite series_len, rlsum_rs, series_len. f_equal. apply rs_ext. intros j Hj. now apply (series_at n x). }
  rewrite M. rewrite (rs_ext n (fun j => (x j - rs n x / INR n) * (val t j * b j)) (fun j => (x j - m) * (val t j * b j) + (m - rs n x / INR n) * (val t j * b j))) by (intros; ring).
  rewrite (rs_ext n (fun j => (x j - m) * (val t j * b j - q / INR n)) (fun j => (x j - m) * (val t j * b j) + (x j - m) * (- (q / INR n)))) by (intros; ring).
  rewrite !rs_plus, rs_scal_l, rs_scal, rs_minus, rs_const. fold q. field. exact NN.
Qed.
Lemma sum_sq_demeaned n (a : nat -> R) : (0 < n)%nat -> rs n (fun j => (a j - rs n a / INR n) * (a j - rs n a / INR n)) = rs n (fun j => a j * a j) - rs n a * rs n a / INR n.
Proof.
  intros N. assert (NN : INR n <> 0) by (apply not_0_INR; lia). set (q := rs n a). rewrite (rs_ext n _ (fun j => a j * a j + (a j * (- 2 * (q / INR n)) + q / INR n * (q / INR n)))) by (intros; ring).
  rewrite !rs_plus, rs_scal, rs_const. fold q. field. exact NN.
Qed.
(* average over the ensemble of the power of one taper *)
Lemma white_taper ens n m s2 t k : (0 < n)%nat -> length t = n -> white_noise ens n m s2 ->
  over ens (fun x => cnorm2 (dft (tapered (series_of n x) t) k)) = INR (length ens) * s2 * (rs n (fun j => val t j * val t j) - power_at t k / INR n).
Proof.
  intros N L W. set (cc := fun j => cos (2 * PI * INR (j * k) / INR n)). set (ss := fun j => sin (2 * PI * INR (j * k) / INR n)).
  set (a := fun j => val t j * cc j - rs n (fun i => val t i * cc i) / INR n). set (b := fun j => val t j * ss j - rs n (fun i => val t i * ss i) / INR n).
  rewrite (over_ext _ _ (fun x => rs n (fun j => (x j - m) * a j) * rs n (fun j => (x j - m) * a j) + rs n (fun j => (x j - m) * b j) * rs n (fun j => (x j - m) * b j))).
  2:{ intros x _. unfold dft. rewrite tapered_len by (rewrite series_len; exact L). rewrite series_len. fold cc ss. unfold cnorm2. cbn [re im fst snd]. unfold a, b. rewrite <- !(sum_demeaned n x m t) by assumption. unfold cc, ss. ring. }
  rewrite over_plus, !(quadratic ens n m s2) by exact W. unfold a, b. rewrite (sum_sq_demeaned n (fun j => val t j * cc j)), (sum_sq_demeaned n (fun j => val t j * ss j)) by exact N.
  assert (P : power_at t k = rs n (fun j => val t j * cc j) * rs n (fun j => val t j * cc j) + rs n (fun j => val t j * ss j) * rs n (fun j => val t j * ss j)).
  { unfold power_at, dft. rewrite L. unfold cnorm2. cbn [re im fst snd]. unfold cc, ss. ring. }
  rewrite P. assert (Q : rs n (fun j => val t j * val t j) = rs n (fun j => val t j * cc j * (val t j * cc j)) + rs n (fun j => val t j * ss j * (val t j * ss j))).
  { rewrite <- rs_plus. apply rs_ext. intros j Hj. pose proof (sin2_cos2 (2 * PI * INR (j * k) / INR n)) as T. unfold Rsqr in T. unfold cc, ss. set (c := cos _) in *. set (s := sin _) in *. replace (val t j * c * (val t j * c) + val t j * s * (val t j * s)) with (val t j * val t j * (s * s + c * c)) by ring. rewrite T. ring. }
  rewrite Q. field. apply not_0_INR. lia.
Qed.
Lemma over_psd ens n m s2 tapers w (p : (nat -> R) -> R) i : (0 < n)%nat -> (forall t, In t tapers -> length t = n /\ rs n (fun j => val t j * val t j) = 1) -> white_noise ens n m s2 ->
  length w = length tapers -> (exists k, (k < length w)%nat /\ nth k w 0 <> 0) -> (i < n / 2 - 1)%nat ->
  (forall x, In x ens -> psd_from_freq_response (nth i (columns (series_of n x) tapers) []) w = Some (p x)) ->
  over ens p = INR (length ens) * (2 * s2 * weighted_mean (length w) (fun k => nth k w 0 * nth k w 0) (fun k => 1 - power_at (nth k tapers []) (S i) / INR n)).
Proof.
  intros N T W L Nz Hi P. pose proof (wsum_pos w Nz) as S0.
  rewrite (over_ext _ p (fun x => rs (length w) (fun k => cnorm2 (dft (tapered (series_of n x) (nth k tapers [])) (S i)) * (2 * (nth k w 0 * nth k w 0) / rs (length w) (fun k => nth k w 0 * nth k w 0))))).
  - rewrite over_rs. unfold weighted_mean. rewrite (rs_ext _ _ (fun k => nth k w 0 * nth k w 0 * (1 - power_at (nth k tapers []) (S i) / INR n) * (INR (length ens) * (2 * s2) / rs (length w) (fun k => nth k w 0 * nth k w 0)))).
    + rewrite rs_scal. field. lra.
    + intros k Hk. destruct (T (nth k tapers []) ltac:(apply nth_In; lia)) as [T1 T2]. rewrite over_scal, (white_taper ens n m s2) by assumption. rewrite T2. field. split; [lra|apply not_0_INR; lia].
  - intros x I. specialize (P x I). destruct (columns_len (series_of n x) tapers) as [C1 C2]. rewrite series_len in C1. assert (LC : length (nth i (columns (series_of n x) tapers) []) = length w) by (rewrite L; apply C2, nth_In; lia).
    rewrite psd_exact in P by (try exact LC; lra). injection P as <-. unfold weighted_mean. unfold Rdiv at 1. rewrite <- rs_scal. apply rs_ext. intros k Hk.
    rewrite (columns_at (series_of n x) tapers i (S i)) by (try reflexivity; rewrite ?series_len; try assumption; try lia; intros t It; apply T, It). field. lra.
Qed.
Lemma over_periodogram ens n m s2 k : (0 < n)%nat -> (0 < k < n)%nat -> white_noise ens n m s2 -> over ens (fun x => power_at (series_of n x) k) = INR (length ens) * (INR n * s2).
Proof.
  intros N K W. assert (NN : INR n <> 0) by (apply not_0_INR; lia). assert (L1 : length (repeat 1 n) = n) by apply repeat_length.
  assert (V1 : forall j, (j < n)%nat -> val (repeat 1 n) j = 1) by (intros j Hj; unfold val; rewrite (nth_indep _ 0 1) by (rewrite repeat_length; exact Hj); apply nth_repeat).
  assert (Z : dft (repeat 1 n) k = c0).
  { rewrite dft_cs. rewrite L1. rewrite (cs_ext _ _ (fun j => cis n (Z.of_nat j * - Z.of_nat k))).
    - apply cis_geom; [exact N|]. intros E. apply Z.mod_divide in E; [|lia]. destruct E as [q Hq]. assert (q = 0 \/ q <= -1 \/ 1 <= q)%Z by lia. nia.
    - intros j Hj. rewrite V1 by exact Hj. replace (- Z.of_nat (k * j))%Z with (Z.of_nat j * - Z.of_nat k)%Z by nia. apply cx_eq; cbn; ring. }
  set (cc := fun j => cos (2 * PI * INR (j * k) / INR n)). set (ss := fun j => sin (2 * PI * INR (j * k) / INR n)).
  assert (Zc : rs n cc = 0 /\ rs n ss = 0).
  { unfold dft in Z. rewrite L1 in Z. injection Z as Z1 Z2. rewrite (rs_ext n cc (fun j => val (repeat 1 n) j * cos (2 * PI * INR (j * k) / INR n))) by (intros j Hj; rewrite V1 by exact Hj; unfold cc; ring).
    rewrite (rs_ext n ss (fun j => val (repeat 1 n) j * sin (2 * PI * INR (j * k) / INR n))) by (intros j Hj; rewrite V1 by exact Hj; unfold ss; ring). split; [exact Z1|lra]. }
  destruct Zc as [Zc Zs]. rewrite (over_ext _ _ (fun x => rs n (fun j => (x j - m) * cc j) * rs n (fun j => (x j - m) * cc j) + rs n (fun j => (x j - m) * ss j) * rs n (fun j => (x j - m) * ss j))).
  - rewrite over_plus, !(quadratic ens n m s2) by exact W. rewrite <- Rmult_plus_distr_l, <- rs_plus. rewrite (rs_ext n _ (fun _ => 1)); [rewrite rs_const; ring|].
    intros j Hj. pose proof (sin2_cos2 (2 * PI * INR (j * k) / INR n)) as T. unfold Rsqr in T. unfold cc, ss. lra.
  - intros x _. unfold power_at, dft. rewrite series_len. unfold cnorm2. cbn [re im fst snd].
    assert (G : forall f, rs n f = 0 -> rs n (fun j => val (series_of n x) j * f j) = rs n (fun j => (x j - m) * f j)).
    { intros f F. rewrite (rs_ext n (fun j => val (series_of n x) j * f j) (fun j => (x j - m) * f j + m * f j)) by (intros j Hj; rewrite series_at by exact Hj; ring). rewrite rs_plus, rs_scal_l, F. ring. }
    pose proof (G cc Zc) as G1. pose proof (G ss Zs) as G2. unfold cc, ss in *. rewrite G1, G2. ring.
Qed.

(* ---- the light curve that is used ---- *)
Lemma light_curve_same numba srt g g' lc r r' : multitaper_light_curve numba srt (Some g) lc = Ok r -> multitaper_light_curve numba srt (Some g') lc = Ok r' -> snd r = snd r'.
Proof.
  unfold multitaper_light_curve. destruct (gti_of lc) as [own|]; [|discriminate]. cbn [bind].
  destruct (check_gtis g) as [[]|]; [|discriminate]. destruct (check_gtis g') as [[]|]; [|discriminate]. cbn [bind]. destruct (negb (Nat.eqb (length g) 1)); [discriminate|]. destruct (negb (Nat.eqb (length g') 1)); [discriminate|].
  destruct (split_by_gti numba lc None 2) as [[|p l]|]; cbn [bind]; [discriminate| |discriminate]. intros E E'. injection E as <-. injection E' as <-. reflexivity.
Qed.
Lemma light_curve_several numba srt g lc : (length g <> 1)%nat -> (exists own, gti_of lc = Some own) -> check_gtis g = Ok tt -> multitaper_light_curve numba srt (Some g) lc = Err TypeError.
Proof. intros L (own & O) C. unfold multitaper_light_curve. rewrite O. cbn [bind]. rewrite C. cbn [bind]. destruct (Nat.eqb_spec (length g) 1); [contradiction|reflexivity]. Qed.

(* ---- uneven data ---- *)
Lemma uneven_energy t counts s : length t = length counts -> rlsum (map (fun x => x * x) t) = s -> s <> 0 ->
  exists y, tapered_uneven t counts = map Some y /\ ((forall c, In c counts -> (c - mean_of counts) * (c - mean_of counts) = 1) -> rlsum (map (fun x => x * x) y) = INR (length counts) / s).
Proof.
  intros L S0 N. exists (map (fun p => fst p / s * sqrt (INR (length counts)) * (snd p - mean_of counts)) (combine t counts)). split.
  - unfold tapered_uneven. rewrite S0, map_map. cbv zeta. apply map_ext. intros p. rewrite fdiv_some by exact N. reflexivity.
  - intros D. rewrite map_map. set (q := sqrt (INR (length counts))). assert (Q : q * q = INR (length counts)) by (apply sqrt_sqrt, pos_INR). set (m := mean_of counts) in *. rewrite <- Q. clearbody q m. clear Q.
    assert (G : rlsum (map (fun p : R * R => fst p / s * q * (snd p - m) * (fst p / s * q * (snd p - m))) (combine t counts)) = rlsum (map (fun x => x * x) t) * (q * q / (s * s))).
    { clear S0. revert counts L D. induction t as [|x t IH]; intros [|c counts] L D; try discriminate; [cbn; ring|]. cbn [combine map fst snd]. change (rlsum (?a :: ?r)) with (a + rlsum r). rewrite IH; [|cbn in L; lia|intros; apply D; now right].
      pose proof (D c ltac:(now left)) as E. change (rlsum (?a :: ?r)) with (a + rlsum r). replace (x / s * q * (c - m) * (x / s * q * (c - m))) with (x * x * (q * q / (s * s)) * ((c - m) * (c - m))) by (field; exact N). rewrite E. ring. }
    rewrite G, S0. field. exact N.
Qed.
