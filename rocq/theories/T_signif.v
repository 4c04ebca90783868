(* T_signif.v: property theorems about significances, upper limits and coherences of spectrum objects (C84-C87, C82). *)
From Verif Require Import Np Cplx S_stats S_fourier S_signif M_fourier M_stats M_zn M_signif P_pval P_stats P_zn P_lag P_cserr P_signif P_signif2 P_signif3.
From Coq Require Import Reals Lra Lia.
Open Scope R_scope.

(* ---------- C84: significances of powers ---------- *)
Theorem C84_exact : forall sf power m t tc,
  (match m with MEach l => length l = length power | _ => True end) ->
  exists l, ps_significances sf true power m t tc = Ok l /\ ascending (map snd l) /\
    forall p i, In (p, i) l <-> exists P k, nth_error power i = Some P /\ m_at m i = Some k /\
      p = p_multitrial (sf (P * INR k) (2 * k)%nat) (if tc then length power else 1%nat) /\ p < t.
Proof. exact ps_sig_main. Qed.
Print Assumptions C84_exact.
Theorem C84_norm_error : forall sf power m t tc,
  ps_significances sf false power m t tc = Err ValueError.
Proof. exact ps_sig_norm. Qed.
Print Assumptions C84_norm_error.
Theorem C84_correction : forall sf isf power m t,
  survival sf isf -> good_powers power m ->
  exists l1 ln, ps_significances sf true power m t false = Ok l1 /\ ps_significances sf true power m t true = Ok ln /\
    (forall p i, In (p, i) ln -> exists q, In (q, i) l1 /\ q <= p) /\
    (forall q i, In (q, i) l1 -> q < t / INR (length power) -> exists p, In (p, i) ln /\ p <= q * INR (length power)).
Proof. exact ps_sig_corrected. Qed.
Print Assumptions C84_correction.
Theorem C84_all_above_zero : forall sf isf power m,
  survival sf isf -> good_powers power m -> (forall P, In P power -> 0 < P) ->
  exists l, ps_significances sf true power m 1 false = Ok l /\ forall i, (i < length power)%nat -> exists p, In (p, i) l.
Proof. exact ps_sig_all. Qed.
Print Assumptions C84_all_above_zero.
(* With the default threshold 1, "all p-values will be reported": the p-value of a power 0 is not. *)
Theorem C84_all_refuted : 
  exists sf power m, (forall x k, (0 < k)%nat -> sf x (2 * k)%nat = chi2_even_sf x k) /\ good_powers power m /\ (0 < length power)%nat /\
  ps_significances sf true power m 1 false = Ok [].
Proof. exact ps_sig_zero. Qed.
Print Assumptions C84_all_refuted.

Definition ex_sf (x : R) (d : nat) : R := exp (- x).
Lemma ex_survival : survival ex_sf (fun e _ => - ln e).
Proof.
  split; [|split].
  - intros x d _ H. unfold ex_sf. split; [apply exp_pos|]. destruct H as [H|<-]; [|rewrite Ropp_0, exp_0; lra]. rewrite <- exp_0. left. apply exp_increasing. lra.
  - intros x y d _ _ H. apply exp_increasing. lra.
  - intros e d _ H. unfold ex_sf. rewrite Ropp_involutive, exp_ln by lra. split; [|reflexivity]. assert (ln e < ln 1) by (apply ln_increasing; lra). rewrite ln_1 in *. lra.
Qed.
Example C84_nonvacuous : survival ex_sf (fun e _ => - ln e) /\ good_powers [1; 2] (MEach [1; 3]%nat) /\ (forall P, In P [1; 2] -> 0 < P) /\
  m_at (MEach [1; 3]%nat) 1 = Some 3%nat.
Proof.
  split; [exact ex_survival|]. split; [|split; [intros P [<-|[<-|[]]]; lra|reflexivity]].
  split; [reflexivity|]. split; [intros P [<-|[<-|[]]]; lra|]. intros [|[|i]] k H; cbn in H; [injection H as <-; lia|injection H as <-; lia|destruct i; discriminate].
Qed.

(* ---------- C85: p-values of cospectra ---------- *)
Theorem C85_pvalue : forall g lap nsf n,
  is_gammaincc g -> (forall x, lap x = laplace_tail x) -> (forall sigma, 0 < sigma -> symmetric_sf (nsf sigma)) ->
  (0 < n)%nat ->
  exists p, (forall x, cospectra_pvalue g lap nsf (fun v => v) x n = Ok (p x)) /\ symmetric_sf p.
Proof. exact pvalue_main. Qed.
Print Assumptions C85_pvalue.
(* The law: T 1 is the Laplace law and each T (n+1) is the law of the sum with one more Laplace variable. *)
Theorem C85_law : forall g lap nsf,
  is_gammaincc g -> (forall x, lap x = laplace_tail x) ->
  exists T : nat -> R -> R, (forall s, 0 <= s -> T 1%nat s = laplace_tail s) /\ (forall n, (0 < n)%nat -> add_laplace (T n) (T (S n))) /\
    forall n x, (0 < n <= 50)%nat -> 0 <= x -> cospectra_pvalue g lap nsf (fun v => v) x n = Ok (T n (INR n * x)).
Proof. exact pvalue_law. Qed.
Print Assumptions C85_law.
Theorem C85_law_unique : forall F G H,
  add_laplace F G -> add_laplace F H -> forall s, 0 <= s -> G s = H s.
Proof. exact law_unique. Qed.
Print Assumptions C85_law_unique.
Theorem C85_report : forall g lap nsf power m t tc,
  (match m with MEach l => length l = length power | _ => True end) -> is_gammaincc g ->
  (forall x, lap x = laplace_tail x) -> (forall sigma, 0 < sigma -> symmetric_sf (nsf sigma)) -> (forall i k, m_at m i = Some k -> (0 < k)%nat) ->
  exists l, cs_significances g lap nsf true power m t tc = Ok l /\ ascending (map snd l) /\
    (forall p i, In (p, i) l <-> exists P k, nth_error power i = Some P /\ m_at m i = Some k /\
      cospectra_pvalue g lap nsf (fun v => v) P k = Ok p /\ p < (if tc then t / INR (length power) else t)) /\
    (tc = false -> 1 <= t -> map snd l = seq 0 (length power)).
Proof. exact cs_sig_main. Qed.
Print Assumptions C85_report.
Theorem C85_norm_error : forall g lap nsf power m t tc,
  cs_significances g lap nsf false power m t tc = Err ValueError.
Proof. exact cs_sig_norm. Qed.
Print Assumptions C85_norm_error.
Theorem C85_zero_error : forall g lap nsf cast x,
  cospectra_pvalue g lap nsf cast x 0 = Err ValueError.
Proof. exact pvalue_zero. Qed.
Print Assumptions C85_zero_error.
(* A power given as an integer: the sums are kept in an array of integers and the p-value of every power is 1. *)
Theorem C85_integer_refuted : exists (x : Z) n p, (2 <= n <= 50)%nat /\ forall g lap nsf, is_gammaincc g ->
  (forall trunc, (forall v, 0 <= v < 1 -> trunc v = 0) -> cospectra_pvalue g lap nsf trunc (IZR x) n = Ok 1) /\
  cospectra_pvalue g lap nsf (fun v => v) (IZR x) n = Ok p /\ p <= 1 / 2.
Proof.
  exists 1%Z, 2%nat, (tail 2 (INR 2 * 1)). split; [lia|]. intros g lap nsf Hg. split; [intros trunc Ht; apply pvalue_integer; [assumption|assumption|lia]|]. split.
  - unfold cospectra_pvalue. cbn [Nat.ltb Nat.leb Nat.eqb]. rewrite (cdf_value g 1 2 Hg) by lia. f_equal. destruct (Rle_dec 0 1); [ring|lra].
  - apply tail_half; [lia|]. cbn. lra.
Qed.
Print Assumptions C85_integer_refuted.

Example C85_nonvacuous : is_gammaincc upper_gamma /\ symmetric_sf laplace_tail /\ add_laplace (tail 1) (tail 2) /\
  cospectra_pvalue upper_gamma laplace_tail (fun _ => laplace_tail) (fun v => v) 0 2 = Ok (1 / 2).
Proof.
  split; [intros a x _ _; reflexivity|]. split; [exact laplace_sym|]. split; [apply tail_law; lia|].
  unfold cospectra_pvalue. cbn [Nat.ltb Nat.leb Nat.eqb]. rewrite (cdf_value upper_gamma 0 2) by (try lia; intros a x _ _; reflexivity). f_equal.
  destruct (Rle_dec 0 0); [|lra]. rewrite Rmult_0_r, tail_0 by lia. field.
Qed.

(* ---------- C86: coherence of cross spectrum objects ---------- *)
Theorem C86_averaged_partial : forall z p q n1 n2 n m,
  0 < p -> 0 < q -> (0 < n)%nat -> 0 < m -> 0 <= n1 <= p -> 0 <= n2 <= q -> cnorm2 z <= p * q ->
  let r := acs_coherence z p q n1 n2 n m in
  0 <= fst r <= 1 /\ snd r = sqrt 2 * (1 - fst r) * sqrt (fst r) / sqrt m /\ 0 <= snd r /\ (fst r = 1 -> snd r = 0).
Proof. exact acs_main. Qed.
Print Assumptions C86_averaged_partial.
(* The bias is subtracted for as many averages as a segment has bins. *)
Theorem C86_bias_refuted : 
  exists z p q n1 n2 n m, 0 < p /\ 0 < q /\ 0 <= n1 <= p /\ 0 <= n2 <= q /\ cnorm2 z <= p * q /\ (0 < m)%nat /\ (0 < n)%nat /\
  expected_bias p q n1 n2 m 1 < cnorm2 z /\
  fst (acs_coherence z p q n1 n2 n (INR m)) <> (cnorm2 z - expected_bias p q n1 n2 m 1) / (p * q).
Proof. exact acs_bias. Qed.
Print Assumptions C86_bias_refuted.
Theorem C86_single : forall x y k n,
  0 < power_at x k -> 0 < power_at y k ->
  cs_coherence (cross_at x y k) (power_at x k) (power_at y k) n = 1.
Proof. exact single_coherence. Qed.
Print Assumptions C86_single.

Example C86_nonvacuous : (0 < power_at [1; 2; 4] 0 /\ 0 < power_at [1; 1; 3] 0) /\ 0 < fst (acs_coherence (1, 0) 2 2 1 1 1000 10) < 1.
Proof.
  assert (Z : forall x y w, power_at [x; y; w] 0 = (x + y + w) * (x + y + w)).
  { intros x y w. unfold power_at, dft, cnorm2. unfold cs, csum, val. cbn. unfold cis. cbn. replace (2 * PI * 0 / (1 + 1 + 1)) with 0 by field. rewrite ?Ropp_0, cos_0, sin_0. cbn. ring. }
  rewrite !Z. split; [lra|]. unfold acs_coherence, raw_coherence, bias_term. cbn [fst]. replace (Nat.ltb 500 1000) with true by (symmetry; apply Nat.ltb_lt; lia).
  unfold cmul, cconj, re, im. cbn [fst snd]. destruct (Rlt_dec _ _); lra.
Qed.

(* ---------- C87: upper limits on modulations ---------- *)
Theorem C87_limit : forall ul freq power m nphots fmin fmax c,
  length power = length freq -> 0 < nphots -> (forall p k, 0 <= ul p k c) ->
  (exists f, In f freq /\ searched fmin fmax f) ->
  exists f p a fn, modulation_upper_limit ul freq power m nphots fmin fmax c = Ok a /\ In (f, p) (combine freq power) /\ searched fmin fmax f /\
    (forall f' p', In (f', p') (combine freq power) -> searched fmin fmax f' -> p' <= p) /\
    In fn freq /\ (forall f', In f' freq -> f' <= fn) /\
    a * bin_response (f / fn) * sqrt (773 / 1000) = sqrt (2 * ul (p * INR m) m c / nphots) /\ 0 < bin_response (f / fn) < 1 /\
    sqrt (2 * ul (p * INR m) m c / nphots) <= a.
Proof. exact upper_limit_main. Qed.
Print Assumptions C87_limit.
Theorem C87_amplitude : forall ul pmeas counts n c fft r,
  0 < counts -> 0 <= ul pmeas n c -> 0 < r <= 1 ->
  amplitude_upper_limit ul pmeas counts n c fft r * bin_response r * (if fft then sqrt (773 / 1000) else 1) = sqrt (2 * ul pmeas n c / counts).
Proof. exact amplitude_value. Qed.
Print Assumptions C87_amplitude.
Theorem C87_fraction : forall ul pmeas counts n c fft r,
  let a := amplitude_upper_limit ul pmeas counts n c fft r in
  0 <= a -> 0 <= pf_upper_limit ul pmeas counts n c fft r < 2 /\ a_from_pf (pf_upper_limit ul pmeas counts n c fft r) = a.
Proof. exact pf_limit. Qed.
Print Assumptions C87_fraction.
Theorem C87_empty_error : forall ul freq power m nphots fmin fmax c,
  (forall f, In f freq -> ~ searched fmin fmax f) ->
  modulation_upper_limit ul freq power m nphots fmin fmax c = Err ValueError.
Proof. exact upper_limit_empty. Qed.
Print Assumptions C87_empty_error.

Example C87_nonvacuous : (exists f, In f [0; 1; 2] /\ searched (Some 1) None f) /\ ~ searched (Some 1) None 0 /\
  exists f p a fn, modulation_upper_limit (fun _ _ _ => 1) [0; 1; 2] [9; 3; 5] 1 2 (Some 1) None (1 / 2) = Ok a /\ In (f, p) [(0, 9); (1, 3); (2, 5)] /\ p = 5 /\ fn = 2.
Proof.
  assert (H : exists f, In f [0; 1; 2] /\ searched (Some 1) None f) by (exists 2; split; [right; right; now left|split; [lra|split; [intros a [= <-]; lra|discriminate]]]).
  split; [exact H|]. split; [intros (K & _); lra|].
  destruct (upper_limit_main (fun _ _ _ => 1) [0; 1; 2] [9; 3; 5] 1 2 (Some 1) None (1 / 2)) as (f & p & a & fn & E & I & S & M & F & Mf & _); [reflexivity|lra|intros; lra|exact H|].
  exists f, p, a, fn. split; [exact E|]. cbn [combine] in *. split; [exact I|]. destruct S as (S0 & S1 & S2). split.
  - assert (5 <= p) by (apply (M 2 5); [right; right; now left|split; [lra|split; [intros b [= <-]; lra|discriminate]]]). destruct I as [[= <- <-]|[[= <- <-]|[[= <- <-]|[]]]]; lra.
  - assert (2 <= fn) by (apply Mf; right; right; now left). destruct F as [<-|[<-|[<-|[]]]]; lra.
Qed.

(* ---------- C82: the error of the rms from single powers ---------- *)
Theorem C82_private_error : forall powers nphots m,
  (0 < m)%nat -> 0 < nphots -> 0 < rlsum powers ->
  rms_error powers nphots m = 4 / nphots * sqrt (rlsum (map (fun p => p * p) powers)) / (2 * sqrt (rlsum powers / nphots)).
Proof. exact rms_error_value. Qed.
Print Assumptions C82_private_error.
Theorem C82_private_error_refuted : 
  exists powers nphots, 0 < nphots /\ 0 < rlsum powers /\ 0 < rms_error powers nphots 1 /\ rms_error powers nphots 100 = rms_error powers nphots 1.
Proof. exact rms_error_averaged. Qed.
Print Assumptions C82_private_error_refuted.

