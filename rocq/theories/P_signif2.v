(* P_signif2.v: p-values of cospectra, reports of significances, upper limits, coherences. *)
From Verif Require Import Np Cplx S_stats S_fourier S_signif M_fourier M_stats M_zn M_signif P_pval P_stats P_zn P_lag P_cserr P_signif.
From Coq Require Import Reals Lra Lia.
Open Scope R_scope.

Lemma prefac_wgt n j : (j < n)%nat ->
  INR (fact (n - 1 + j)) / (INR (fact (n - 1)) * (INR (fact (n - 1 - j)) * INR (fact j)) * 2 ^ (n + j)) * INR (fact (n - j - 1)) = wgt n j.
Proof.
  intros H. unfold wgt, Binomial.C. replace (n - 1 + j - j)%nat with (n - 1)%nat by lia. replace (n - j - 1)%nat with (n - 1 - j)%nat by lia.
  pose proof (fact_pos (n - 1)). pose proof (fact_pos j). pose proof (fact_pos (n - 1 - j)). assert (0 < 2 ^ (n + j)) by (apply pow_lt; lra). field. repeat split; lra.
Qed.
Lemma term_value g x n j : is_gammaincc g -> (j < n)%nat ->
  cospectra_term g x n j = wgt n j * (if Rle_dec 0 x then 2 - upper_gamma (n - j) (INR n * x) else upper_gamma (n - j) (INR n * - x)).
Proof.
  intros Hg Hj. unfold cospectra_term. rewrite <- (prefac_wgt n j Hj). cbv zeta. assert (0 <= INR n) by apply pos_INR.
  destruct (Rle_dec 0 x) as [P|P].
  - rewrite Hg; [|lia|now apply Rmult_le_pos]. ring.
  - rewrite Hg; [|lia|replace (- INR n * x) with (INR n * - x) by ring; apply Rmult_le_pos; lra]. replace (- INR n * x) with (INR n * - x) by ring. ring.
Qed.
Lemma cdf_fold g x n k : fold_left (fun cdf j => cdf + cospectra_term g x n j) (seq 0 k) 0 = wsum (fun _ => 1) (cospectra_term g x n) k.
Proof. induction k as [|k IH]; [reflexivity|]. rewrite seq_S, fold_left_app, IH. cbn. ring. Qed.
Lemma cdf_value g x n : is_gammaincc g -> (0 < n)%nat ->
  cospectra_cdf g (fun v => v) x n = if Rle_dec 0 x then 1 - tail n (INR n * x) else tail n (INR n * - x).
Proof.
  intros Hg Hn. unfold cospectra_cdf. rewrite cdf_fold.
  assert (E : forall f k, (forall j, (j < k)%nat -> cospectra_term g x n j = wgt n j * f j) -> wsum (fun _ => 1) (cospectra_term g x n) k = wsum (wgt n) f k).
  { intros f k. induction k as [|k IH]; intros H; cbn; [reflexivity|]. rewrite IH, (H k) by (intros; try apply H; lia). ring. }
  destruct (Rle_dec 0 x) as [P|P].
  - rewrite (E (fun j => 2 * 1 + (-1) * upper_gamma (n - j) (INR n * x))).
    + rewrite wsum_lin, wsum_one by assumption. unfold tail. field.
    + intros j Hj. rewrite (term_value g x n j Hg Hj). destruct (Rle_dec 0 x); [ring|contradiction].
  - rewrite (E (fun j => upper_gamma (n - j) (INR n * - x))).
    + reflexivity.
    + intros j Hj. rewrite (term_value g x n j Hg Hj). destruct (Rle_dec 0 x); [contradiction|ring].
Qed.
(* survival function on the whole line *)
Definition sf_all (n : nat) (x : R) : R := if Rle_dec 0 x then tail n (INR n * x) else 1 - tail n (INR n * - x).
Lemma sf_sym n : (0 < n)%nat -> symmetric_sf (sf_all n).
Proof.
  intros Hn. assert (N : 0 < INR n) by (apply lt_0_INR; lia). unfold sf_all. split; [|split].
  - intros x. destruct (Rle_dec 0 x) as [P|P].
    + pose proof (tail_pos n (INR n * x) Hn ltac:(apply Rmult_le_pos; lra)). pose proof (tail_half n (INR n * x) Hn ltac:(apply Rmult_le_pos; lra)). lra.
    + pose proof (tail_pos n (INR n * - x) Hn ltac:(apply Rmult_le_pos; lra)). pose proof (tail_half n (INR n * - x) Hn ltac:(apply Rmult_le_pos; lra)). lra.
  - intros x y H. destruct (Rle_dec 0 x) as [P|P]; destruct (Rle_dec 0 y) as [Q|Q]; try lra.
    + apply tail_decr; [assumption|apply Rmult_le_pos; lra|apply Rmult_lt_compat_l; lra].
    + pose proof (tail_half n (INR n * y) Hn ltac:(apply Rmult_le_pos; lra)).
      assert (tail n (INR n * - x) < 1 / 2). { rewrite <- (tail_0 n Hn). apply tail_decr; [assumption|lra|apply Rmult_lt_0_compat; lra]. } lra.
    + assert (tail n (INR n * - x) < tail n (INR n * - y)) by (apply tail_decr; [assumption|apply Rmult_le_pos; lra|apply Rmult_lt_compat_l; lra]). lra.
  - intros x. destruct (Rle_dec 0 x) as [P|P]; destruct (Rle_dec 0 (- x)) as [Q|Q]; try lra.
    + replace x with 0 by lra. rewrite Ropp_0, Rmult_0_r, tail_0 by assumption. lra.
    + rewrite Ropp_involutive. lra.
Qed.
Lemma laplace_sym : symmetric_sf laplace_tail.
Proof.
  assert (H : forall x, laplace_tail x = sf_all 1 x).
  { intros x. unfold sf_all, laplace_tail. cbn [INR]. rewrite !Rmult_1_l. destruct (Rle_dec 0 x) as [P|P].
    - rewrite tail_1 by assumption. unfold laplace_tail. destruct (Rle_dec 0 x); [reflexivity|contradiction].
    - rewrite tail_1 by lra. unfold laplace_tail. destruct (Rle_dec 0 (- x)); [rewrite Ropp_involutive; reflexivity|lra]. }
  destruct (sf_sym 1 ltac:(lia)) as (A & B & C). split; [|split]; intros; rewrite !H; auto.
Qed.
Lemma pvalue_main g lap nsf n : is_gammaincc g -> (forall x, lap x = laplace_tail x) -> (forall sigma, 0 < sigma -> symmetric_sf (nsf sigma)) ->
  (0 < n)%nat ->
  exists p, (forall x, cospectra_pvalue g lap nsf (fun v => v) x n = Ok (p x)) /\ symmetric_sf p.
Proof.
  intros Hg Hl Hn N. unfold cospectra_pvalue. destruct (Nat.ltb_spec n 1); [lia|]. destruct (Nat.eqb_spec n 1) as [->|N1].
  { exists lap. split; [reflexivity|]. destruct laplace_sym as (A & B & C). split; [|split]; intros; rewrite !Hl; auto. }
  destruct (Nat.ltb_spec 50 n).
  { exists (nsf (sqrt 2 / sqrt (INR n))). split; [reflexivity|]. apply Hn. apply Rdiv_lt_0_compat; apply sqrt_lt_R0; [lra|apply lt_0_INR; lia]. }
  exists (sf_all n). split; [|now apply sf_sym]. intros x. rewrite (cdf_value g x n Hg N). unfold sf_all. f_equal. destruct (Rle_dec 0 x); ring.
Qed.
(* the law: T 1 is the Laplace law, T (n + 1) is the law of one more Laplace variable added; the p-value of the mean x of n values is that of the sum n x *)
Lemma pvalue_law g lap nsf : is_gammaincc g -> (forall x, lap x = laplace_tail x) ->
  exists T : nat -> R -> R, (forall s, 0 <= s -> T 1%nat s = laplace_tail s) /\ (forall n, (0 < n)%nat -> add_laplace (T n) (T (S n))) /\
    forall n x, (0 < n <= 50)%nat -> 0 <= x -> cospectra_pvalue g lap nsf (fun v => v) x n = Ok (T n (INR n * x)).
Proof.
  intros Hg Hl. exists tail. split; [exact tail_1|]. split; [exact tail_law|]. intros n x N Hx. unfold cospectra_pvalue.
  destruct (Nat.ltb_spec n 1); [lia|]. destruct (Nat.eqb_spec n 1) as [->|N1].
  { rewrite Hl. cbn [INR]. rewrite Rmult_1_l. now rewrite tail_1. }
  destruct (Nat.ltb_spec 50 n); [lia|]. rewrite (cdf_value g x n Hg) by lia. f_equal. destruct (Rle_dec 0 x); [ring|contradiction].
Qed.
Lemma pvalue_zero g lap nsf cast x : cospectra_pvalue g lap nsf cast x 0 = Err ValueError.
Proof. reflexivity. Qed.
Lemma wgt_sum n m j : (j < m)%nat -> wgt n j <= wsum (wgt n) (fun _ => 1) m.
Proof.
  assert (P : forall m, 0 <= wsum (wgt n) (fun _ => 1) m) by (intros k; induction k as [|k IHk]; cbn; [lra|pose proof (wgt_pos n k); lra]).
  induction m as [|m IH]; [lia|]. intros Hj. cbn. specialize (P m). destruct (Nat.eq_dec j m) as [->|D]; [lra|]. pose proof (wgt_pos n m). specialize (IH ltac:(lia)). lra.
Qed.
(* An integer power: every partial sum, below 1, is truncated to 0. *)
Lemma pvalue_integer g lap nsf (trunc : R -> R) n (x : Z) : is_gammaincc g -> (forall v, 0 <= v < 1 -> trunc v = 0) -> (2 <= n <= 50)%nat ->
  cospectra_pvalue g lap nsf trunc (IZR x) n = Ok 1.
Proof.
  intros Hg Ht Hn. unfold cospectra_pvalue. destruct (Nat.ltb_spec n 1); [lia|]. destruct (Nat.eqb_spec n 1) as [->|N1]; [lia|].
  destruct (Nat.ltb_spec 50 n); [lia|]. f_equal. enough (E : cospectra_cdf g trunc (IZR x) n = 0) by (rewrite E; ring).
  assert (B : forall j, (j < n)%nat -> 0 <= cospectra_term g (IZR x) n j < 1).
  { intros j Hj. rewrite (term_value g _ n j Hg Hj). assert (NN : 0 <= INR n) by apply pos_INR.
    set (u := if Rle_dec 0 (IZR x) then _ else _). assert (U : 0 < u < 2).
    { unfold u. destruct (Rle_dec 0 (IZR x)) as [P|P].
      - pose proof (ug_pos (n - j) (INR n * IZR x) ltac:(lia) ltac:(now apply Rmult_le_pos)). pose proof (ug_le1 (n - j) (INR n * IZR x) ltac:(lia) ltac:(now apply Rmult_le_pos)). lra.
      - pose proof (ug_pos (n - j) (INR n * - IZR x) ltac:(lia) ltac:(apply Rmult_le_pos; lra)). pose proof (ug_le1 (n - j) (INR n * - IZR x) ltac:(lia) ltac:(apply Rmult_le_pos; lra)). lra. }
    assert (W : 0 < wgt n j <= 1 / 2).
    { split; [apply wgt_pos|]. rewrite <- (wsum_one n) by lia. apply wgt_sum. lia. }
    split; [apply Rmult_le_pos; lra|]. apply Rlt_le_trans with (wgt n j * 2); [apply Rmult_lt_compat_l; lra|lra]. }
  unfold cospectra_cdf. assert (F : forall k, (k <= n)%nat -> fold_left (fun cdf j => trunc (cdf + cospectra_term g (IZR x) n j)) (seq 0 k) 0 = 0).
  { induction k as [|k IH]; intros Hk; [reflexivity|]. rewrite seq_S, fold_left_app, IH by lia. cbn. rewrite Rplus_0_l. apply Ht, B. lia. }
  now apply F.
Qed.

(* reports *)
Lemma report_in pv t p i : In (p, i) (report pv t) <-> nth_error pv i = Some p /\ p < t.
Proof.
  unfold report. rewrite filter_In. cbn [fst].
  assert (K : forall (l : list R) st, In (p, i) (combine l (seq st (length l))) <-> (st <= i)%nat /\ nth_error l (i - st) = Some p).
  { induction l as [|a l IH]; intros st; cbn [length seq combine In].
    - split; [contradiction|]. intros (_ & H). destruct (i - st)%nat; discriminate.
    - rewrite IH. split.
      + intros [E|(H & E)]; [injection E as -> ->; split; [lia|]; rewrite Nat.sub_diag; reflexivity|]. split; [lia|]. replace (i - st)%nat with (S (i - S st)) by lia. exact E.
      + intros (H & E). destruct (Nat.eq_dec st i) as [->|D]; [left; rewrite Nat.sub_diag in E; injection E as ->; reflexivity|right].
        split; [lia|]. replace (i - st)%nat with (S (i - S st)) in E by lia. exact E. }
  rewrite (K pv 0%nat). rewrite Nat.sub_0_r. unfold Rltb. destruct (Rlt_dec p t); intuition (try discriminate; try lia; try contradiction).
Qed.
Lemma report_asc pv t : ascending (map snd (report pv t)).
Proof.
  unfold report. assert (K : forall (l : list R) st, ascending (map snd (filter (fun p => Rltb (fst p) t) (combine l (seq st (length l))))) /\
     forall i, In i (map snd (filter (fun p => Rltb (fst p) t) (combine l (seq st (length l))))) -> (st <= i)%nat).
  { induction l as [|a l IH]; intros st; cbn [length seq combine filter fst]; [split; [exact Logic.I|intros i []]|].
    destruct (IH (S st)) as (A & B). destruct (Rltb a t).
    - cbn [map snd]. split.
      + destruct (map snd _) as [|b r] eqn:E; [exact Logic.I|]. split; [|exact A]. specialize (B b (or_introl eq_refl)). lia.
      + intros i [<-|H]; [lia|]. specialize (B i H). lia.
    - split; [exact A|]. intros i H. specialize (B i H). lia. }
  apply (K pv 0%nat).
Qed.

(* single-trial p-value of a power averaged over m spectra *)
Definition m_at (m : mattr) (i : nat) : option nat := match m with MOne m => Some m | MEach l => nth_error l i end.
Lemma nth_map_power {B} (f : R -> nat -> B) power m i :
  (match m with MEach l => length l = length power | _ => True end) ->
  nth_error (match m with MOne m => map (fun p => f p m) power | MEach ms => map (fun pm => f (fst pm) (snd pm)) (combine power ms) end) i =
  match nth_error power i, m_at m i with Some p, Some k => Some (f p k) | _, _ => None end.
Proof.
  intros H. destruct m as [m|ms]; cbn [m_at].
  - rewrite nth_error_map. destruct (nth_error power i); reflexivity.
  - rewrite nth_error_map. revert ms i H. induction power as [|a l IH]; intros [|b ms] i H; try discriminate; destruct i as [|i]; try reflexivity. cbn. apply IH. now injection H.
Qed.
Lemma ps_sig_main sf power m t tc : (match m with MEach l => length l = length power | _ => True end) ->
  exists l, ps_significances sf true power m t tc = Ok l /\ ascending (map snd l) /\
    forall p i, In (p, i) l <-> exists P k, nth_error power i = Some P /\ m_at m i = Some k /\
      p = p_multitrial (sf (P * INR k) (2 * k)%nat) (if tc then length power else 1%nat) /\ p < t.
Proof.
  intros Hm. unfold ps_significances. eexists. split; [reflexivity|]. split; [apply report_asc|]. intros p i. rewrite report_in.
  rewrite (nth_map_power (fun p k => pds_probability sf p (if tc then length power else 1%nat) k 1) power m i Hm).
  unfold pds_probability. change (INR 1) with 1.
  destruct (nth_error power i) as [P|]; [|split; [intros (? & _); discriminate|intros (? & ? & ? & _); discriminate]].
  destruct (m_at m i) as [k|]; [|split; [intros (? & _); discriminate|intros (? & ? & _ & ? & _); discriminate]].
  rewrite Rmult_1_r, Nat.mul_1_r. split.
  - intros (E & L). exists P, k. split; [reflexivity|]. split; [reflexivity|]. split; [congruence|assumption].
  - intros (P0 & k0 & E1 & E2 & E3 & L). injection E1 as <-. injection E2 as <-. split; [congruence|assumption].
Qed.
Lemma ps_sig_norm sf power m t tc : ps_significances sf false power m t tc = Err ValueError.
Proof. reflexivity. Qed.
Definition good_powers (power : list R) (m : mattr) : Prop :=
  (match m with MEach l => length l = length power | _ => True end) /\ (forall P, In P power -> 0 <= P) /\ forall i k, m_at m i = Some k -> (0 < k)%nat.
Lemma multi_one p : 0 < p <= 1 -> p_multitrial p 1 = p.
Proof. intros H. rewrite multi_value by (try assumption; lia). unfold at_least_one. cbn. destruct (Rlt_dec _ _); ring. Qed.
Lemma ps_sig_corrected sf isf power m t : survival sf isf -> good_powers power m ->
  exists l1 ln, ps_significances sf true power m t false = Ok l1 /\ ps_significances sf true power m t true = Ok ln /\
    (forall p i, In (p, i) ln -> exists q, In (q, i) l1 /\ q <= p) /\
    (forall q i, In (q, i) l1 -> q < t / INR (length power) -> exists p, In (p, i) ln /\ p <= q * INR (length power)).
Proof.
  intros (S1 & S2 & _) (Hm & Hp & Hk). destruct (ps_sig_main sf power m t false Hm) as (l1 & E1 & _ & M1). destruct (ps_sig_main sf power m t true Hm) as (ln & E2 & _ & M2).
  exists l1, ln. split; [exact E1|]. split; [exact E2|].
  assert (B : forall P i k, nth_error power i = Some P -> m_at m i = Some k -> 0 < sf (P * INR k) (2 * k)%nat <= 1 /\ (0 < length power)%nat).
  { intros P i k EP Ek. pose proof (Hk _ _ Ek) as K. split; [apply S1; [lia|apply Rmult_le_pos; [apply Hp; eapply nth_error_In; eassumption|apply pos_INR]]|].
    assert (nth_error power i <> None) by congruence. apply nth_error_Some in H. lia. }
  split.
  - intros p i H. apply M2 in H. destruct H as (P & k & EP & Ek & Ev & L). destruct (B P i k EP Ek) as (B1 & B2).
    destruct (multi_bounds _ _ B1 B2) as ((U & _) & _). exists (sf (P * INR k) (2 * k)%nat). split; [|rewrite Ev; exact U]. apply M1. exists P, k.
    split; [assumption|]. split; [assumption|]. split; [now rewrite multi_one|]. lra.
  - intros q i H L. apply M1 in H. destruct H as (P & k & EP & Ek & Ev & L'). destruct (B P i k EP Ek) as (B1 & B2). rewrite multi_one in Ev by assumption.
    destruct (multi_bounds _ _ B1 B2) as ((_ & U) & _). rewrite <- Ev in U. exists (p_multitrial q (length power)). split; [|assumption]. apply M2. exists P, k.
    split; [assumption|]. split; [assumption|]. split; [now rewrite Ev|]. assert (0 < INR (length power)) by (apply lt_0_INR; lia).
    apply Rle_lt_trans with (1 := U). apply Rmult_lt_reg_r with (/ INR (length power)); [now apply Rinv_0_lt_compat|]. rewrite Rmult_assoc, Rinv_r, Rmult_1_r by lra. exact L.
Qed.
(* threshold 1, single trial: everything above power 0 is reported *)
Lemma ps_sig_all sf isf power m : survival sf isf -> good_powers power m -> (forall P, In P power -> 0 < P) ->
  exists l, ps_significances sf true power m 1 false = Ok l /\ forall i, (i < length power)%nat -> exists p, In (p, i) l.
Proof.
  intros (S1 & S2 & _) (Hm & Hp & Hk) Hpos. destruct (ps_sig_main sf power m 1 false Hm) as (l & E & _ & M). exists l. split; [exact E|]. intros i Hi.
  destruct (nth_error power i) as [P|] eqn:EP; [|apply nth_error_None in EP; lia].
  assert (exists k, m_at m i = Some k) as (k & Ek).
  { destruct m as [m|ms]; cbn; [now exists m|]. destruct (nth_error ms i) as [k|] eqn:Ek; [now exists k|]. apply nth_error_None in Ek. lia. }
  eexists. apply M. exists P, k. split; [assumption|]. split; [assumption|]. split; [reflexivity|]. pose proof (Hk _ _ Ek) as K.
  assert (0 < P * INR k) by (apply Rmult_lt_0_compat; [apply Hpos; eapply nth_error_In; eassumption|apply lt_0_INR; lia]).
  assert (B : 0 < sf (P * INR k) (2 * k)%nat <= 1) by (apply S1; [lia|lra]). rewrite multi_one by assumption.
  apply Rlt_le_trans with (sf 0 (2 * k)%nat); [apply S2; [lia|lra|assumption]|apply S1; [lia|lra]].
Qed.
(* a power of 0 is not reported with the default threshold *)
Lemma ps_sig_zero : exists sf power m, (forall x k, (0 < k)%nat -> sf x (2 * k)%nat = chi2_even_sf x k) /\ good_powers power m /\ (0 < length power)%nat /\
  ps_significances sf true power m 1 false = Ok [].
Proof.
  exists (fun x d => chi2_even_sf x (d / 2)), [0], (MOne 1). split; [intros x k H; f_equal; rewrite Nat.mul_comm, Nat.div_mul; lia|].
  split; [split; [exact Logic.I|split; [intros P [<-|[]]; lra|intros i k [= <-]; lia]]|]. split; [cbn; lia|].
  unfold ps_significances, report. cbn [negb map length seq combine filter fst]. unfold pds_probability. change (2 * 1 * 1 / 2)%nat with 1%nat.
  assert (E : chi2_even_sf (0 * INR 1 * INR 1) 1 = 1). { unfold chi2_even_sf. rewrite !Rmult_0_l. unfold Rdiv. rewrite Rmult_0_l, Ropp_0, exp_0. cbn. field. }
  rewrite E, multi_one by lra. unfold Rltb. destruct (Rlt_dec 1 1); [lra|reflexivity].
Qed.

Lemma mapr_all {A B} (f : A -> result B) (g : A -> B) l : (forall a, In a l -> f a = Ok (g a)) -> mapr f l = Ok (map g l).
Proof. induction l as [|a l IH]; intros H; [reflexivity|]. cbn [mapr map]. rewrite (H a) by (now left). cbn [bind]. rewrite IH by (intros; apply H; now right). reflexivity. Qed.
Lemma cs_sig_main g lap nsf power m t tc : (match m with MEach l => length l = length power | _ => True end) -> is_gammaincc g ->
  (forall x, lap x = laplace_tail x) -> (forall sigma, 0 < sigma -> symmetric_sf (nsf sigma)) -> (forall i k, m_at m i = Some k -> (0 < k)%nat) ->
  exists l, cs_significances g lap nsf true power m t tc = Ok l /\ ascending (map snd l) /\
    (forall p i, In (p, i) l <-> exists P k, nth_error power i = Some P /\ m_at m i = Some k /\
      cospectra_pvalue g lap nsf (fun v => v) P k = Ok p /\ p < (if tc then t / INR (length power) else t)) /\
    (tc = false -> 1 <= t -> map snd l = seq 0 (length power)).
Proof.
  intros Hm Hg Hl Hs Hk.
  assert (V : forall P k, (0 < k)%nat -> exists p, cospectra_pvalue g lap nsf (fun v => v) P k = Ok p /\ 0 < p < 1).
  { intros P k K. destruct (pvalue_main g lap nsf k Hg Hl Hs K) as (p & E & (B & _)). exists (p P). split; [apply E|apply B]. }
  set (val := fun P k => match cospectra_pvalue g lap nsf (fun v => v) P k with Ok p => p | Err _ => 0 end).
  assert (VE : forall P k, (0 < k)%nat -> cospectra_pvalue g lap nsf (fun v => v) P k = Ok (val P k) /\ 0 < val P k < 1).
  { intros P k K. unfold val. destruct (V P k K) as (p & -> & B). now split. }
  set (pv := match m with MOne m => map (fun p => val p m) power | MEach ms => map (fun pm => val (fst pm) (snd pm)) (combine power ms) end).
  assert (EP : match m with
               | MOne m => mapr (fun p => cospectra_pvalue g lap nsf (fun v => v) p m) power
               | MEach ms => mapr (fun pm => cospectra_pvalue g lap nsf (fun v => v) (fst pm) (snd pm)) (combine power ms)
               end = Ok pv).
  { unfold pv. destruct m as [m|ms].
    - apply (mapr_all _ (fun p => val p m)). intros a _. apply VE. apply (Hk 0%nat). reflexivity.
    - apply (mapr_all _ (fun pm => val (fst pm) (snd pm))). intros (a, k) Ha. apply VE. cbn. apply in_combine_r in Ha. apply In_nth_error in Ha. destruct Ha as (i & Hi). now apply (Hk i). }
  unfold cs_significances. cbn [negb]. rewrite EP. cbn [bind]. eexists. split; [reflexivity|]. split; [apply report_asc|].
  assert (NV : forall i, nth_error pv i = match nth_error power i, m_at m i with Some p, Some k => Some (val p k) | _, _ => None end) by (intros i; now apply (nth_map_power val)).
  split.
  - intros p i. rewrite report_in. rewrite NV.
    destruct (nth_error power i) as [P|]; [|split; [intros (? & _); discriminate|intros (? & ? & ? & _); discriminate]].
    destruct (m_at m i) as [k|] eqn:Ek; [|split; [intros (? & _); discriminate|intros (? & ? & _ & ? & _); discriminate]].
    destruct (VE P k (Hk _ _ Ek)) as (E & _). split.
    + intros ([= <-] & L). exists P, k. repeat split; assumption.
    + intros (P0 & k0 & [= <-] & [= <-] & E0 & L). split; [congruence|assumption].
  - intros -> Ht. assert (LP : length pv = length power). { unfold pv. destruct m as [m|ms]; [apply map_length|]. rewrite map_length, combine_length. lia. }
    assert (A : forall v, In v pv -> v < 1).
    { intros v Hv. apply In_nth_error in Hv. destruct Hv as (i & Hi). rewrite NV in Hi. destruct (nth_error power i); [|discriminate]. destruct (m_at m i) as [k|] eqn:Ek; [|discriminate].
      injection Hi as <-. apply VE. eauto. }
    rewrite <- LP. unfold report. clear -A Ht. generalize 0%nat. induction pv as [|a l IH]; intros st; [reflexivity|]. cbn [length seq combine filter fst].
    unfold Rltb at 1. destruct (Rlt_dec a t) as [_|N]; [|exfalso; apply N; specialize (A a (or_introl eq_refl)); lra]. cbn [map snd]. rewrite IH; [reflexivity|intros; apply A; now right].
Qed.
Lemma cs_sig_norm g lap nsf power m t tc : cs_significances g lap nsf false power m t tc = Err ValueError.
Proof. reflexivity. Qed.
