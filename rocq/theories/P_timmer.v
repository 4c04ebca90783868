(* P_timmer.v: light curves simulated from a power spectrum. *)
From Verif Require Import Np Lib Cplx M_fourier M_corr S_fourier S_corr P_dft P_corr M_espec M_timmer S_timmer.
From Coq Require Import ZArith QArith Qreals Reals List Bool Arith Lra Lia.
Import ListNotations.
Open Scope R_scope.

Lemma herm_len f n : length (hermitian f n) = n. Proof. unfold hermitian. now rewrite map_length, seq_length. Qed.
Lemma nth_map_lt2 {A B} (f : A -> B) l i d d' : (i < length l)%nat -> nth i (map f l) d' = f (nth i l d).
Proof. intros H. rewrite (nth_indep _ d' (f d)) by (now rewrite map_length). apply map_nth. Qed.
Lemma herm_nth f n k : (k < n)%nat -> nth k (hermitian f n) c0 = (if Nat.eqb k 0 then rtoc (re (nth 0 f c0)) else if Nat.ltb (2 * k) n then nth k f c0 else if Nat.eqb (2 * k) n then rtoc (re (nth k f c0)) else cconj (nth (n - k) f c0)).
Proof. intros H. unfold hermitian. rewrite (nth_map_lt2 _ _ _ 0%nat) by (now rewrite seq_length). rewrite seq_nth by assumption. reflexivity. Qed.
Lemma herm_conj f n k : (0 < k < n)%nat -> nth (n - k) (hermitian f n) c0 = cconj (nth k (hermitian f n) c0).
Proof.
  intros H. rewrite !herm_nth by lia. destruct (Nat.eqb_spec k 0); [lia|]. destruct (Nat.eqb_spec (n - k) 0); [lia|].
  destruct (Nat.ltb_spec (2 * k) n), (Nat.ltb_spec (2 * (n - k)) n), (Nat.eqb_spec (2 * k) n), (Nat.eqb_spec (2 * (n - k)) n); try lia.
  all: try (rewrite conj_conj; reflexivity).
  all: try (replace (n - (n - k))%nat with k by lia; reflexivity).
  all: replace (n - k)%nat with k by lia; apply cx_eq; cbn; ring.
Qed.
Lemma rs_odd n g : g O = 0 -> (forall k, (0 < k < n)%nat -> g (n - k)%nat = - g k) -> rs n g = 0.
Proof.
  intros G0 G. destruct n as [|m]; [apply rs_0|]. rewrite rs_first, G0.
  assert (E : rs m (fun i => g (S i)) = - rs m (fun i => g (S i))).
  { rewrite rs_rev at 1. replace (- rs m (fun i => g (S i))) with (rs m (fun i => g (S i)) * (-1)) by ring. rewrite <- rs_scal. apply rs_ext. intros i Hi. replace (S (m - 1 - i)) with (S m - S i)%nat by lia. rewrite (G (S i)) by lia. ring. }
  lra.
Qed.
Lemma herm_real f n t : (0 < n)%nat -> im (inverse_at (hermitian f n) (Z.of_nat t)) = 0.
Proof.
  intros Hn. unfold inverse_at. rewrite herm_len. unfold cscal, im. cbn [snd]. fold (im (cs n (fun j => cmul (nth j (hermitian f n) c0) (cis n (Z.of_nat j * Z.of_nat t))))).
  rewrite im_cs, rs_odd; [ring| |].
  - rewrite herm_nth by lia. cbn [Nat.eqb]. change (Z.of_nat 0 * Z.of_nat t)%Z with 0%Z. rewrite cis_0. unfold cmul, rtoc, c1, re, im. cbn. ring.
  - intros k Hk. rewrite herm_conj by lia.
    assert (E : cis n (Z.of_nat (n - k) * Z.of_nat t) = cconj (cis n (Z.of_nat k * Z.of_nat t))).
    { rewrite cis_conj. apply cis_mod; [lia|]. replace (Z.of_nat (n - k) * Z.of_nat t)%Z with (- (Z.of_nat k * Z.of_nat t) + Z.of_nat t * Z.of_nat n)%Z by nia. apply Z_mod_plus_full. }
    rewrite E, <- conj_mul. reflexivity.
Qed.
Lemma irfft_len f n : length (irfft f n) = n.
Proof. unfold irfft, ifft. rewrite !map_length, seq_length. apply herm_len. Qed.
Lemma irfft_val f n t : (t < n)%nat -> rtoc (val (irfft f n) t) = inverse_at (hermitian f n) (Z.of_nat t).
Proof.
  intros H. assert (E := ifft_at (hermitian f n) t ltac:(rewrite herm_len; exact H)).
  unfold val, irfft. rewrite (nth_map_lt2 _ _ _ c0) by (unfold ifft; rewrite map_length, seq_length, herm_len; exact H). rewrite (nth_error_nth _ _ _ E).
  apply cx_eq; [reflexivity|]. rewrite herm_real by lia. reflexivity.
Qed.
(* The transform of the inverse transform. *)
Theorem dft_irfft f n k : (k < n)%nat -> dft (irfft f n) k = nth k (hermitian f n) c0.
Proof.
  intros H. rewrite dft_cs, irfft_len. assert (Hn : INR n <> 0) by (apply not_0_INR; lia). set (H0 := hermitian f n).
  transitivity (cs n (fun j => cmul (nth j H0 c0) (cscal (cs n (fun t => cis n (Z.of_nat t * (Z.of_nat j - Z.of_nat k)))) (/ INR n)))).
  - transitivity (cs n (fun t => cs n (fun j => cmul (nth j H0 c0) (cscal (cis n (Z.of_nat t * (Z.of_nat j - Z.of_nat k))) (/ INR n))))).
    + apply cs_ext. intros t Ht. rewrite irfft_val by exact Ht. unfold inverse_at. rewrite !herm_len. fold H0.
      assert (S : forall z r, cscal z r = cmul z (rtoc r)) by (intros; apply cx_eq; unfold cscal, cmul, rtoc, re, im; cbn; ring).
      rewrite S, <- !cs_mul. apply cs_ext. intros j Hj. rewrite S.
      replace (Z.of_nat t * (Z.of_nat j - Z.of_nat k))%Z with (Z.of_nat j * Z.of_nat t + - Z.of_nat (k * t))%Z by lia. rewrite cis_add. ring.
    + rewrite cs_swap. apply cs_ext. intros j Hj. rewrite cs_mul_l. f_equal. 
      assert (S : forall z r, cscal z r = cmul z (rtoc r)) by (intros; apply cx_eq; unfold cscal, cmul, rtoc, re, im; cbn; ring).
      rewrite S, <- cs_mul. apply cs_ext. intros t Ht. apply S.
  - rewrite (cs_delta n k); [|exact H|].
    + assert (E : cs n (fun t => cis n (Z.of_nat t * (Z.of_nat k - Z.of_nat k))) = rtoc (INR n)).
      { transitivity (cs n (fun _ => rtoc 1)).
        - apply cs_ext. intros t _. rewrite Z.sub_diag, Z.mul_0_r. apply cis_0.
        - apply cx_eq; [rewrite re_cs|rewrite im_cs]; cbn; rewrite rs_const; ring. }
      rewrite E. apply cx_eq; unfold cmul, cscal, rtoc, re, im; cbn [fst snd]; field; exact Hn.
    + intros j Hj Nj. rewrite cis_orth by (auto; lia). apply cx_eq; unfold cmul, cscal, c0, re, im; cbn [fst snd]; ring.
Qed.

Lemma zero_last_len l : length (zero_last l) = length l.
Proof. destruct l as [|a l]; [reflexivity|]. unfold zero_last. rewrite app_length. assert (E := app_removelast_last a (l := a :: l) ltac:(discriminate)). apply (f_equal (@length R)) in E. rewrite app_length in E. cbn [length] in *. lia. Qed.
Lemma zero_last_nth l i : nth i (zero_last l) 0 = if Nat.eqb (S i) (length l) then 0 else nth i l 0.
Proof.
  destruct l as [|a l]; [destruct i; reflexivity|]. unfold zero_last. assert (E := app_removelast_last a (l := a :: l) ltac:(discriminate)). set (r := removelast (a :: l)) in *. set (z := last (a :: l) a) in *. rewrite E. clearbody r z. clear E. rewrite app_length. cbn [length].
  destruct (Nat.eqb_spec (S i) (length r + 1)).
  - rewrite app_nth2 by lia. replace (i - length r)%nat with 0%nat by lia. reflexivity.
  - destruct (lt_dec i (length r)); [rewrite !app_nth1 by assumption; reflexivity|]. rewrite !nth_overflow by (rewrite app_length; cbn; lia). reflexivity.
Qed.
Lemma amp_nth g pds i : length g = length pds -> nth i (map (fun p => fst p * sqrt (1 / 2 * snd p)) (combine g pds)) 0 = nth i g 0 * sqrt (nth i pds 0 / 2).
Proof.
  intros L. destruct (lt_dec i (length pds)) as [H|H].
  - rewrite (nth_map_lt2 _ _ _ (0, 0)) by (rewrite combine_length; lia). rewrite combine_nth by exact L. cbn [fst snd]. f_equal. f_equal. field.
  - rewrite nth_overflow by (rewrite map_length, combine_length; lia). rewrite (nth_overflow g) by lia. ring.
Qed.
Definition amplitudes (m : R) (n red : nat) (pds g1 g2 : list R) : list cx :=
  rtoc (m * INR n * INR red) :: combine (map (fun p => fst p * sqrt (1 / 2 * snd p)) (combine g1 pds)) (zero_last (map (fun p => fst p * sqrt (1 / 2 * snd p)) (combine g2 pds))).
Lemma amplitudes_nth m n red pds g1 g2 k : length g1 = length pds -> length g2 = length pds -> (0 < k)%nat -> (k <= length pds)%nat ->
  nth k (amplitudes m n red pds g1 g2) c0 = (bin_of g1 k * sqrt (bin_of pds k / 2), if Nat.eqb k (length pds) then 0 else bin_of g2 k * sqrt (bin_of pds k / 2)).
Proof.
  intros L1 L2 K1 K2. destruct k as [|i]; [lia|]. unfold amplitudes, bin_of. cbn [nth]. replace (S i - 1)%nat with i by lia. change c0 with (0, 0).
  rewrite combine_nth by (rewrite zero_last_len, !map_length, !combine_length; lia). rewrite zero_last_nth, !amp_nth by assumption. rewrite map_length, combine_length, L2, Nat.min_id. reflexivity.
Qed.
Lemma amplitudes_over m n red pds g1 g2 k : length g1 = length pds -> length g2 = length pds -> (length pds < k)%nat -> nth k (amplitudes m n red pds g1 g2) c0 = c0.
Proof. intros L1 L2 K. apply nth_overflow. unfold amplitudes. cbn [length]. rewrite combine_length, zero_last_len, !map_length, !combine_length. lia. Qed.
Lemma inverse_spectrum m n red pds g1 g2 : length g1 = length pds -> length g2 = length pds -> (0 < n * red)%nat ->
  has_spectrum m (n * red) pds g1 g2 (irfft (amplitudes m n red pds g1 g2) (n * red)).
Proof.
  intros L1 L2 N. set (x := irfft _ _). assert (LX : length x = (n * red)%nat) by apply irfft_len. split; [exact LX|]. split; [|split; [|split]].
  - assert (E := f_equal re (dft_0 x)). cbn [re rtoc fst] in E. rewrite <- E. unfold x. rewrite dft_irfft, herm_nth by exact N. cbn [Nat.eqb]. unfold amplitudes. cbn [nth re rtoc fst]. rewrite mult_INR. ring.
  - intros k K1 K2 K3. unfold x. rewrite dft_irfft, herm_nth by lia. destruct (Nat.eqb_spec k 0); [lia|]. destruct (Nat.ltb_spec (2 * k) (n * red)); [|lia]. rewrite amplitudes_nth by (assumption || lia). destruct (Nat.eqb_spec k (length pds)); [lia|reflexivity].
  - intros k K1 K2 K3 D. unfold x. rewrite dft_irfft, herm_nth by lia. destruct (Nat.eqb_spec k 0); [lia|]. rewrite !amplitudes_nth by (assumption || lia).
    destruct (Nat.ltb_spec (2 * k) (n * red)).
    + destruct (Nat.eqb_spec k (length pds)); [reflexivity|lia].
    + destruct (Nat.eqb_spec (2 * k) (n * red)); [reflexivity|lia].
  - intros k K2 K3. unfold x. rewrite dft_irfft, herm_nth by lia. destruct (Nat.eqb_spec k 0); [lia|]. rewrite !amplitudes_over by (assumption || lia).
    destruct (Nat.ltb_spec (2 * k) (n * red)); [reflexivity|]. destruct (Nat.eqb_spec (2 * k) (n * red)); [apply cx_eq; reflexivity|lia].
Qed.
Lemma np_variance_ok x : np_variance x = variance x.
Proof. unfold np_variance, variance, mean, avg. rewrite map_length, map_id. f_equal. f_equal. apply map_ext. intros v. ring. Qed.
Lemma variance_nonneg x : 0 <= variance x.
Proof.
  unfold variance. destruct x as [|a x]; [cbn; unfold Rdiv; rewrite Rmult_0_l; lra|]. apply Rmult_le_pos; [|apply Rlt_le, Rinv_0_lt_compat, lt_0_INR; cbn; lia]. rewrite (rs_nth_seq _ 0). apply rs_nonneg. intros i _. apply Rle_0_sqr.
Qed.
Lemma std_zero x : np_std x = 0 <-> variance x = 0.
Proof. unfold np_std. rewrite np_variance_ok. split; intros H; [apply sqrt_eq_0; [apply variance_nonneg|exact H]|rewrite H; apply sqrt_0]. Qed.
Lemma affine_val a b x j : (j < length x)%nat -> val (map (fun v => a * v + b) x) j = a * val x j + b.
Proof. intros H. unfold val. exact (nth_map_lt2 _ _ _ 0 0 H). Qed.
Lemma affine_dft a b x k : (0 < k < length x)%nat -> dft (map (fun v => a * v + b) x) k = cscal (dft x k) a.
Proof.
  intros H. rewrite !dft_cs, map_length. set (n := length x) in *.
  transitivity (cadd (cmul (cs n (fun j => cmul (rtoc (val x j)) (cis n (- Z.of_nat (k * j))))) (rtoc a)) (cmul (cs n (fun j => cis n (- Z.of_nat (k * j)))) (rtoc b))).
  - rewrite <- !cs_mul, <- cs_plus. apply cs_ext. intros j Hj. rewrite affine_val by exact Hj. assert (E : rtoc (a * val x j + b) = cadd (cmul (rtoc a) (rtoc (val x j))) (rtoc b)) by (apply cx_eq; cbn; ring). rewrite E. ring.
  - assert (E : cs n (fun j => cis n (- Z.of_nat (k * j))) = c0).
    { rewrite <- (cis_orth n 0 k); [|lia|lia|lia]. apply cs_ext. intros j _. f_equal. lia. }
    rewrite E. apply cx_eq; unfold cadd, cmul, cscal, rtoc, c0, re, im; cbn [fst snd]; ring.
Qed.
Lemma affine_sum a b x : rlsum (map (fun v => a * v + b) x) = a * rlsum x + INR (length x) * b.
Proof. induction x as [|v x IH]; [cbn; ring|]. cbn [map length]. rewrite S_INR. change (rlsum (a * v + b :: map (fun v0 => a * v0 + b) x)) with (a * v + b + rlsum (map (fun v0 => a * v0 + b) x)). change (rlsum (v :: x)) with (v + rlsum x). rewrite IH. ring. Qed.
Lemma affine_avg a b x : x <> [] -> avg (fun y => y) (map (fun v => a * v + b) x) = a * avg (fun y => y) x + b.
Proof. intros N. unfold avg. rewrite !map_id, map_length, affine_sum. field. apply not_0_INR. destruct x; [congruence|cbn; lia]. Qed.
Lemma affine_variance a b x : x <> [] -> variance (map (fun v => a * v + b) x) = a * a * variance x.
Proof.
  intros N. unfold variance. rewrite affine_avg by exact N. rewrite map_map, map_length. unfold Rdiv. rewrite <- Rmult_assoc. f_equal. set (m := avg (fun y => y) x). clearbody m. clear N. induction x as [|v x IH]; [cbn; ring|]. cbn [map].
  change (rlsum ((a * v + b - (a * m + b)) * (a * v + b - (a * m + b)) :: map (fun x0 => (a * x0 + b - (a * m + b)) * (a * x0 + b - (a * m + b))) x)) with ((a * v + b - (a * m + b)) * (a * v + b - (a * m + b)) + rlsum (map (fun x0 => (a * x0 + b - (a * m + b)) * (a * x0 + b - (a * m + b))) x)).
  change (rlsum ((v - m) * (v - m) :: map (fun v0 => (v0 - m) * (v0 - m)) x)) with ((v - m) * (v - m) + rlsum (map (fun v0 => (v0 - m) * (v0 - m)) x)). rewrite IH. ring.
Qed.
(* Standard deviation of the result. *)
Definition target (m rms : R) : R := if Req_EM_T m 0 then rms else m * rms.
Lemma mean_avg x : mean x = avg (fun y => y) x.
Proof. unfold mean, avg. now rewrite map_id. Qed.
Lemma scale_map m rms std n red cut x : std <> 0 ->
  extract_and_scale m rms std n red cut x = map Some (map (fun v => target m rms / std * v + (m - target m rms / std * mean (if Nat.eqb red 1 then x else slice x cut (cut + n)))) (if Nat.eqb red 1 then x else slice x cut (cut + n))).
Proof.
  intros S. unfold extract_and_scale, target. rewrite map_map. apply map_ext. intros v. destruct (Req_EM_T std 0); [contradiction|]. f_equal. destruct (Req_EM_T m 0) as [->|]; field; exact S.
Qed.
Lemma tk_unfold m rms n red cut pds g1 g2 : pds <> [] -> (0 < n * red)%nat ->
  timmerkoenig m rms n red cut pds g1 g2 = Ok (extract_and_scale m rms (np_std (irfft (amplitudes m n red pds g1 g2) (n * red))) n red cut (irfft (amplitudes m n red pds g1 g2) (n * red))).
Proof. intros P N. unfold timmerkoenig, find_inverse. destruct pds; [congruence|]. destruct (Nat.eqb_spec (n * red) 0); [lia|]. reflexivity. Qed.
Theorem tk_curve m rms n cut pds g1 g2 : (0 < n)%nat -> pds <> [] -> length g1 = length pds -> length g2 = length pds ->
  exists x, has_spectrum m n pds g1 g2 x /\
    (variance x = 0 -> timmerkoenig m rms n 1 cut pds g1 g2 = Ok (repeat None n)) /\
    (variance x <> 0 -> exists y, timmerkoenig m rms n 1 cut pds g1 g2 = Ok (map Some y) /\ rescaled m (if Req_EM_T m 0 then rms else m * rms) x y).
Proof.
  intros N P L1 L2. assert (N1 : (0 < n * 1)%nat) by lia. pose proof (inverse_spectrum m n 1 pds g1 g2 L1 L2 N1) as H. rewrite (tk_unfold m rms n 1 cut pds g1 g2 P N1). set (x := irfft (amplitudes m n 1 pds g1 g2) (n * 1)) in *. clearbody x. rewrite Nat.mul_1_r in H. exists x.
  assert (LX : length x = n) by apply H. assert (XN : x <> []) by (intros ->; cbn in LX; lia). split; [exact H|]. split.
  - intros V. apply std_zero in V. unfold extract_and_scale. rewrite V. change (Nat.eqb 1 1) with true. cbn iota. f_equal. rewrite <- LX. clear. generalize (mean x). intros q. induction x as [|a x IH]; [reflexivity|]. cbn [map length repeat]. destruct (Req_EM_T 0 0); [|congruence]. f_equal. exact IH.
  - intros V. assert (S : np_std x <> 0) by (intros C; apply V, std_zero, C). rewrite (scale_map _ _ _ _ _ _ _ S). change (Nat.eqb 1 1) with true. cbn iota. eexists. split; [reflexivity|].
    fold (target m rms). assert (IN : INR n <> 0) by (apply not_0_INR; lia). set (a := target m rms / np_std x). split; [now rewrite map_length|]. split; [|split].
    + rewrite affine_sum, mean_avg. unfold avg. rewrite map_id, LX. field. exact IN.
    + rewrite affine_variance by exact XN. unfold a. assert (E : np_std x * np_std x = variance x) by (unfold np_std; rewrite np_variance_ok; apply sqrt_sqrt, variance_nonneg). rewrite <- E. field. exact S.
    + intros k Hk. rewrite affine_dft by exact Hk. unfold a, np_std. rewrite np_variance_ok. reflexivity.
Qed.
(* A piece of a longer light curve. *)
Theorem tk_long m rms n red cut pds g1 g2 : (0 < n)%nat -> (2 <= red)%nat -> (n - 1 <= cut)%nat -> (cut <= red * n - n)%nat -> pds <> [] -> length g1 = length pds -> length g2 = length pds ->
  exists x, has_spectrum m (n * red) pds g1 g2 x /\
    (variance x <> 0 -> exists y, timmerkoenig m rms n red cut pds g1 g2 = Ok (map Some y) /\ length y = n /\ rlsum y = INR n * m /\
       forall i j, (i < n)%nat -> (j < n)%nat -> val y i - val y j = (val x (cut + i) - val x (cut + j)) * ((if Req_EM_T m 0 then rms else m * rms) / sqrt (variance x))).
Proof.
  intros N R C1 C2 P L1 L2. assert (N1 : (0 < n * red)%nat) by (apply Nat.mul_pos_pos; lia). pose proof (inverse_spectrum m n red pds g1 g2 L1 L2 N1) as H. rewrite (tk_unfold m rms n red cut pds g1 g2 P N1). set (x := irfft (amplitudes m n red pds g1 g2) (n * red)) in *. clearbody x. exists x.
  assert (LX : length x = (n * red)%nat) by apply H. split; [exact H|]. intros V. assert (S : np_std x <> 0) by (intros C; apply V, std_zero, C). rewrite (scale_map _ _ _ _ _ _ _ S). destruct (Nat.eqb_spec red 1); [lia|]. eexists. split; [reflexivity|].
  fold (target m rms). assert (IN : INR n <> 0) by (apply not_0_INR; lia). assert (LS : length (slice x cut (cut + n)) = n) by (unfold slice; rewrite firstn_length, skipn_length, LX; assert (n * 1 <= n * red)%nat by (apply Nat.mul_le_mono_l; lia); rewrite (Nat.mul_comm red n) in C2; lia). set (a := target m rms / np_std x). split; [now rewrite map_length|]. split.
  - rewrite affine_sum, mean_avg. unfold avg. rewrite map_id, LS. field. exact IN.
  - intros i j Hi Hj. rewrite !affine_val by (rewrite LS; assumption). assert (G : forall k, (k < n)%nat -> val (slice x cut (cut + n)) k = val x (cut + k)).
    { intros k Hk. unfold val, slice. assert (X : nth_error (firstn (cut + n - cut) (skipn cut x)) k = nth_error x (cut + k)).
      { clear - Hk. replace (cut + n - cut)%nat with n by lia. revert x. induction cut as [|c IH]; intros x.
        - cbn [skipn Nat.add]. revert k x Hk. induction n as [|n IHn]; intros k x Hk; [lia|]. destruct x as [|v x]; [destruct k; reflexivity|]. destruct k; [reflexivity|]. cbn. apply IHn. lia.
        - destruct x as [|v x]; [cbn; destruct n; destruct k; reflexivity|]. cbn [skipn Nat.add nth_error]. apply IH. }
      rewrite <- !(nth_default_eq). unfold nth_default. rewrite X. reflexivity. }
    rewrite !G by assumption. unfold a, np_std. rewrite np_variance_ok. unfold target. ring.
Qed.
(* The spectra of the models and of power laws: bin k at the frequency k / (n dt). *)
Lemma model_bin (model : R -> R) n d k : (0 < k)%nat -> (k <= n / 2)%nat -> bin_of (map model (rfftfreq_pos n d)) k = model (INR k / (INR n * d)).
Proof.
  intros K1 K2. unfold bin_of, rfftfreq_pos. rewrite map_map. rewrite (nth_map_lt2 _ _ _ 0%nat) by (rewrite seq_length; lia). rewrite seq_nth by lia. replace (1 + (k - 1))%nat with k by lia. reflexivity.
Qed.
Lemma model_size (model : R -> R) n d : length (map model (rfftfreq_pos n d)) = (n / 2)%nat.
Proof. unfold rfftfreq_pos. now rewrite !map_length, seq_length. Qed.
Theorem model_curve m rms dt n cut model g1 g2 : (2 <= n)%nat -> length g1 = (n / 2)%nat -> length g2 = (n / 2)%nat ->
  exists x, length x = n /\ rlsum x = INR n * m /\
    (forall k, (0 < k < n / 2)%nat -> dft x k = (bin_of g1 k * sqrt (model (INR k / (INR n * dt)) / 2), bin_of g2 k * sqrt (model (INR k / (INR n * dt)) / 2))) /\
    dft x (n / 2) = (bin_of g1 (n / 2) * sqrt (model (INR (n / 2) / (INR n * dt)) / 2), 0) /\
    (variance x <> 0 -> exists y, simulate_model m rms dt n 1 cut model g1 g2 = Ok (map Some y) /\ rescaled m (if Req_EM_T m 0 then rms else m * rms) x y).
Proof.
  intros N L1 L2. assert (H2 : (1 <= n / 2)%nat) by (apply Nat.div_le_lower_bound; lia). pose proof (Nat.mul_div_le n 2 ltac:(lia)) as H3. unfold simulate_model. rewrite Nat.mul_1_l. set (pds := map model (rfftfreq_pos n dt)).
  assert (LP : length pds = (n / 2)%nat) by apply model_size.
  destruct (tk_curve m rms n cut pds g1 g2) as (x & (X1 & X2 & X3 & X4 & X5) & _ & Y); [lia|intros E; rewrite E in LP; cbn [length] in LP; lia|lia|lia|].
  exists x. split; [exact X1|]. split; [exact X2|]. split; [|split; [|exact Y]].
  - intros k Hk. unfold pds in X3. rewrite X3 by (fold pds; lia). rewrite !model_bin by lia. reflexivity.
  - unfold pds in X4. rewrite X4 by (fold pds; lia). rewrite !model_bin by lia. reflexivity.
Qed.
Theorem power_law_model m rms dt n red cut b g1 g2 : simulate_power_law m rms dt n red cut b g1 g2 = simulate_model m rms dt n red cut (fun w => Rpower (1 / w) b) g1 g2.
Proof. reflexivity. Qed.
(* The spectrum given by the user: bin k at the frequency k / (red n dt). *)
Lemma spectrum_bin s red k : (0 < k)%nat -> bin_of (s ++ repeat 0 (length s * red - length s)) k = bin_of s k.
Proof.
  intros K. unfold bin_of. destruct (lt_dec (k - 1) (length s)); [apply app_nth1; assumption|]. rewrite app_nth2 by lia. rewrite nth_repeat, nth_overflow by lia. reflexivity.
Qed.
(* An odd number of bins: the highest frequency is not the Nyquist frequency, but its phase is not free. *)
Theorem odd_phase : exists m rms n cut model g1 g2 y, n = 3%nat /\ g1 = [1] /\ g2 = [1] /\ (forall w, model w = 2) /\ simulate_model m rms 1 n 1 cut model g1 g2 = Ok (map Some y) /\ 2 * 1 < INR n /\ re (dft y 1) <> 0 /\ im (dft y 1) = 0.
Proof.
  destruct (model_curve 1 1 1 3 0 (fun _ => 2) [1] [1]) as (x & L & _ & _ & E & Y); [lia|reflexivity|reflexivity|].
  change (3 / 2)%nat with 1%nat in E. unfold bin_of in E. cbn [Nat.sub nth] in E. replace (2 / 2) with 1 in E by field. rewrite sqrt_1 in E.
  assert (V : variance x <> 0).
  { intros C. assert (XN : x <> []) by (intros ->; discriminate). pose proof (parseval_pos x XN) as PP. rewrite C, L in PP. change (Nat.even 3) with false in PP. change (n_pos 3) with 1%nat in PP. cbn iota in PP. unfold rs in PP. cbn [seq map rlsum fold_right] in PP. rewrite power_at_norm, E in PP. unfold cnorm2, re, im in PP. cbn [fst snd] in PP. lra. }
  destruct (Y V) as (y & Ey & R1 & R2 & R3 & R4). exists 1, 1, 3%nat, 0%nat, (fun _ => 2), [1], [1], y. do 3 (split; [reflexivity|]). split; [reflexivity|]. split; [exact Ey|]. split; [cbn; lra|].
  rewrite R4 by (rewrite L; lia). rewrite E. destruct (Req_EM_T 1 0); [lra|]. unfold cscal, re, im. cbn [fst snd]. assert (0 < sqrt (variance x)) by (apply sqrt_lt_R0; pose proof (variance_nonneg x); lra). split; [|ring].
  intros C. apply (f_equal (fun q => q * sqrt (variance x))) in C. field_simplify in C; lra.
Qed.
Theorem spectrum_curve m rms n cut s g1 g2 : simulate_power_spectrum m rms n 1 cut s g1 g2 = timmerkoenig m rms n 1 cut s g1 g2.
Proof. unfold simulate_power_spectrum. rewrite Nat.mul_1_r, Nat.sub_diag. cbn [repeat]. now rewrite app_nil_r. Qed.
(* With red noise, bin k of the spectrum is bin k of the light curve red times longer. *)
Theorem spectrum_long m rms n red cut s g1 g2 : (0 < n)%nat -> (2 <= red)%nat -> (n - 1 <= cut)%nat -> (cut <= red * n - n)%nat -> s <> [] -> length g1 = (length s * red)%nat -> length g2 = (length s * red)%nat ->
  exists x, length x = (n * red)%nat /\ rlsum x = INR (n * red) * m /\
    (forall k, (0 < k)%nat -> (2 * k < n * red)%nat -> (k <= length s)%nat -> dft x k = (bin_of g1 k * sqrt (bin_of s k / 2), bin_of g2 k * sqrt (bin_of s k / 2))) /\
    (forall k, (2 * k <= n * red)%nat -> (length s < k)%nat -> dft x k = c0) /\
    (variance x <> 0 -> exists y, simulate_power_spectrum m rms n red cut s g1 g2 = Ok (map Some y) /\ length y = n /\ rlsum y = INR n * m /\
       forall i j, (i < n)%nat -> (j < n)%nat -> val y i - val y j = (val x (cut + i) - val x (cut + j)) * ((if Req_EM_T m 0 then rms else m * rms) / sqrt (variance x))).
Proof.
  intros N R C1 C2 P L1 L2. unfold simulate_power_spectrum. set (pds := s ++ repeat 0 (length s * red - length s)). assert (LS : (0 < length s)%nat) by (destruct s; [congruence|cbn; lia]).
  assert (LE : (length s * 2 <= length s * red)%nat) by (apply Nat.mul_le_mono_l; exact R). assert (LP : length pds = (length s * red)%nat) by (unfold pds; rewrite app_length, repeat_length; lia).
  destruct (tk_long m rms n red cut pds g1 g2) as (x & (X1 & X2 & X3 & X4 & X5) & Y); try assumption; try congruence; [intros E; rewrite E in LP; cbn [length] in LP; lia|].
  exists x. split; [exact X1|]. split; [exact X2|]. split; [|split; [|exact Y]].
  - intros k K1 K2 K3. rewrite X3 by lia. unfold pds. rewrite spectrum_bin by exact K1. reflexivity.
  - intros k K2 K3. destruct (le_lt_dec k (length pds)) as [K4|K4]; [|apply X5; assumption].
    assert (Z : bin_of pds k = 0) by (unfold pds; rewrite spectrum_bin by lia; unfold bin_of; apply nth_overflow; lia).
    destruct (Nat.eq_dec k (length pds)) as [E|E]; [rewrite X4 by (try lia; now left)|destruct (Nat.eq_dec (2 * k) (n * red)) as [E2|E2]; [rewrite X4 by (try lia; now right)|rewrite X3 by lia]];
      rewrite Z; replace (0 / 2) with 0 by field; rewrite sqrt_0, ?Rmult_0_r; reflexivity.
Qed.
