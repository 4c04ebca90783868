(* P_pval.v: classical p-values (C62), detection levels (C63) *)
From Verif Require Import Np M_stats S_stats P_stats.
From Coq Require Import Reals Lra Lia.
Open Scope R_scope.

(* ---------- terms of the Poisson sum ---------- *)
Lemma fold_add (l : list nat) (f : nat -> R) : forall a, fold_left (fun s i => s + f i) l a = a + fold_left (fun s i => s + f i) l 0.
Proof.
  induction l as [|x l IH]; intros a; cbn [fold_left]; [ring|].
  rewrite (IH (a + f x)), (IH (0 + f x)). ring.
Qed.
Lemma fold_seq_shift (f : nat -> R) k : forall b a, fold_left (fun s i => s + f i) (seq (S b) k) a = fold_left (fun s i => s + f (S i)) (seq b k) a.
Proof. induction k as [|k IH]; intros b a; cbn [seq fold_left]; [reflexivity|]. apply IH. Qed.

Lemma logfact_S m : (1 <= m)%nat -> logfact (S m) = ln (INR (S m)) + logfact m.
Proof.
  intros H. unfold logfact. replace (S m - 1)%nat with (S (m - 1)) by lia. cbn [seq fold_left].
  rewrite fold_seq_shift, fold_add. replace (S m - 0)%nat with (S m) by lia. cbn [Nat.sub]. ring.
Qed.
Lemma logfact_fact m : logfact m = ln (INR (fact m)).
Proof.
  induction m as [|m IH]; [cbn; now rewrite ln_1|].
  destruct m as [|m]; [cbn; now rewrite ln_1|].
  rewrite logfact_S, IH by lia. change (fact (S (S m))) with ((S (S m)) * fact (S m))%nat.
  rewrite mult_INR, ln_mult; [reflexivity| |]; [apply lt_0_INR; lia|apply INR_fact_lt_0].
Qed.

Definition tm (x : R) (m : nat) : R := exp (- x) * (x ^ m / INR (fact m)).
Lemma term_eq x m : 0 < x ->
  fexp (fminus (fminus (fscale (INR m) (flog x)) x) (logfact m)) = Fin (tm x m).
Proof.
  intros Hx. unfold flog. destruct (Req_EM_T x 0); [lra|]. cbn [fscale fminus fexp]. f_equal.
  rewrite logfact_fact. unfold Rminus. rewrite !exp_plus. rewrite (exp_Ropp (ln (INR (fact m)))), exp_ln by apply INR_fact_lt_0.
  fold (Rpower x (INR m)). rewrite Rpower_pow by assumption. unfold tm, Rdiv. ring.
Qed.
Lemma tm_pos x m : 0 < x -> 0 < tm x m.
Proof.
  intros H. unfold tm. apply Rmult_lt_0_compat; [apply exp_pos|]. apply Rmult_lt_0_compat; [now apply pow_lt|].
  apply Rinv_0_lt_compat, INR_fact_lt_0.
Qed.
Lemma tm_S x m : tm x (S m) * INR (S m) = tm x m * x.
Proof.
  unfold tm. change (fact (S m)) with ((S m) * fact m)%nat. rewrite mult_INR. cbn [pow].
  assert (INR (fact m) <> 0) by apply INR_fact_neq_0. assert (INR (S m) <> 0) by (apply not_0_INR; lia).
  field. split; assumption.
Qed.
Lemma tm_up x m : 0 < x -> INR m <= x -> forall j, (j <= m)%nat -> tm x j <= tm x m.
Proof.
  intros Hx. induction m as [|m IH]; intros Hm j Hj; [replace j with 0%nat by lia; lra|].
  destruct (Nat.eq_dec j (S m)) as [->|N]; [lra|].
  assert (INR m <= x) by (rewrite S_INR in Hm; lra).
  apply Rle_trans with (tm x m); [apply IH; [assumption|lia]|].
  pose proof (tm_S x m) as E. pose proof (tm_pos x m Hx). pose proof (tm_pos x (S m) Hx). nra.
Qed.
Lemma tm_down x m : 0 < x -> x <= INR m -> forall j, (m <= j)%nat -> tm x j <= tm x m.
Proof.
  intros Hx Hm j Hj. induction Hj as [|j Hj IH]; [lra|].
  apply Rle_trans with (tm x j); [|exact IH].
  assert (x <= INR (S j)) by (apply Rle_trans with (INR m); [assumption|apply le_INR; lia]).
  pose proof (tm_S x j) as E. pose proof (tm_pos x j Hx). pose proof (tm_pos x (S j) Hx). nra.
Qed.

(* sum of the terms below k *)
Definition tsum (x : R) (k : nat) : R := exp (- x) * poisson_sum k x.
Lemma tsum_S x k : tsum x (S k) = tsum x k + tm x k.
Proof. unfold tsum, tm. cbn [poisson_sum]. ring. Qed.
Lemma tsum_nonneg x k : 0 < x -> 0 <= tsum x k.
Proof. intros H. induction k as [|k IH]; [unfold tsum; cbn; lra|]. rewrite tsum_S. pose proof (tm_pos x k H). lra. Qed.
Lemma tsum_bound x k b : 0 < x -> (forall j, (j < k)%nat -> tm x j <= b) -> tsum x k <= INR k * b.
Proof.
  intros Hx. induction k as [|k IH]; intros H; [unfold tsum; cbn; lra|].
  rewrite tsum_S, S_INR. pose proof (IH ltac:(intros; apply H; lia)). pose proof (H k ltac:(lia)). nra.
Qed.
Lemma tsum_diff x k n b : 0 < x -> (k <= n)%nat -> (forall j, (k <= j < n)%nat -> tm x j <= b) ->
  tsum x n - tsum x k <= INR (n - k) * b.
Proof.
  intros Hx Hk. induction Hk as [|n Hk IH]; intros H; [rewrite Nat.sub_diag; cbn; lra|].
  rewrite tsum_S. replace (S n - k)%nat with (S (n - k)) by lia. rewrite S_INR.
  pose proof (IH ltac:(intros; apply H; lia)). pose proof (H n ltac:(lia)). nra.
Qed.

Lemma loop_main x n : 0 < x -> INR n <= 10 ^ 15 -> forall k, (k <= n)%nat ->
  exists r, pavnosig_loop k (2 * x) (Fin (tsum x n - tsum x k)) = Fin r /\
    r <= tsum x n <= r * (1 + INR n / 10 ^ 15).
Proof.
  intros Hx Hn. set (T := 10 ^ 15) in *. assert (HT : 0 < T) by (unfold T; apply pow_lt; lra).
  assert (N0 := pos_INR n). assert (IT : 0 <= INR n / T) by (apply Rmult_le_pos; [assumption|left; now apply Rinv_0_lt_compat]).
  induction k as [|m IH]; intros Hk.
  - exists (tsum x n). cbn [pavnosig_loop]. replace (tsum x n - tsum x 0) with (tsum x n) by (unfold tsum; cbn [poisson_sum]; ring).
    split; [reflexivity|]. pose proof (tsum_nonneg x n Hx). split; [lra|nra].
  - cbn [pavnosig_loop]. replace (2 * x / 2) with x by field. rewrite term_eq by assumption. cbn [fratio_gt].
    assert (P := tm_pos x m Hx). destruct (Req_EM_T (tm x m) 0); [lra|]. fold T.
    set (a := tsum x n - tsum x (S m)).
    destruct (Rlt_dec T (a / tm x m)) as [G|G].
    + exists a. split; [reflexivity|]. pose proof (tsum_nonneg x (S m) Hx). split; [unfold a; lra|].
      assert (A : T * tm x m < a).
      { apply (Rmult_lt_compat_r (tm x m)) in G; [|assumption]. replace (a / tm x m * tm x m) with a in G by (field; lra). lra. }
      destruct (Rle_dec (INR m) x) as [L|L].
      * assert (B := tsum_bound x (S m) (tm x m) Hx ltac:(intros j Hj; apply tm_up; [assumption|assumption|lia])).
        assert (SM : INR (S m) <= INR n) by (apply le_INR; lia).
        assert (C : tsum x (S m) <= INR n * tm x m) by (pose proof (pos_INR (S m)); nra).
        assert (D : INR n * tm x m <= INR n / T * a).
        { replace (INR n * tm x m) with (INR n / T * (T * tm x m)) by (field; lra). apply Rmult_le_compat_l; lra. }
        replace (a * (1 + INR n / T)) with (a + INR n / T * a) by ring. unfold a in *. lra.
      * exfalso. assert (B := tsum_diff x (S m) n (tm x m) Hx Hk ltac:(intros j Hj; apply tm_down; [assumption|lra|lia])).
        fold a in B. assert (INR (n - S m) <= INR n) by (apply le_INR; lia). nra.
    + cbn [fadd]. replace (a + tm x m) with (tsum x n - tsum x m) by (unfold a; rewrite tsum_S; ring). apply IH. lia.
Qed.

Lemma pavnosig_main power n : 0 < power -> (0 < n)%nat -> INR n <= 10 ^ 15 -> power * INR n <= 30000 ->
  exists p, classical_pvalue power n = Ok (Fin p) /\
    p <= chi2_even_sf (power * INR n) n <= p * (1 + INR n / 10 ^ 15).
Proof.
  intros Hp Hn N15 N3. unfold classical_pvalue. destruct (Rlt_dec power 0); [lra|].
  destruct (Nat.ltb_spec n 1); [lia|]. destruct (Rlt_dec 30000 (power * INR n)); [lra|].
  set (x := power * INR n / 2).
  assert (Hx : 0 < x) by (unfold x; assert (0 < INR n) by (now apply lt_0_INR); nra).
  destruct (loop_main x n Hx N15 n (le_n n)) as (r & E & B).
  exists r. unfold pavnosigfun. replace (power * INR n) with (2 * x) by (unfold x; field).
  replace (Fin 0) with (Fin (tsum x n - tsum x n)) by (f_equal; ring). rewrite E. split; [reflexivity|].
  unfold chi2_even_sf. replace (2 * x / 2) with x by field. exact B.
Qed.

Lemma pavnosig_zero n : (0 < n)%nat -> classical_pvalue 0 n = Ok NaN.
Proof.
  intros Hn. unfold classical_pvalue. destruct (Rlt_dec 0 0); [lra|]. destruct (Nat.ltb_spec n 1); [lia|].
  rewrite Rmult_0_l. destruct (Rlt_dec 30000 0); [lra|]. f_equal. unfold pavnosigfun. rewrite Rmult_0_l.
  destruct n as [|m]; [lia|]. clear. assert (Z : flog (0 / 2) = MInf).
  { unfold flog. destruct (Req_EM_T (0 / 2) 0) as [_|N]; [reflexivity|]. elim N. field. }
  induction m as [|m IH].
  - cbn [pavnosig_loop]. rewrite Z. cbn [fscale INR]. destruct (Req_EM_T 0 0); [|lra]. reflexivity.
  - change (pavnosig_loop (S (S m)) 0 (Fin 0)) with
      (let term := fexp (fminus (fminus (fscale (INR (S m)) (flog (0 / 2))) (0 / 2)) (logfact (S m))) in
       if fratio_gt (Fin 0) term (10 ^ 15) then Fin 0 else pavnosig_loop (S m) 0 (fadd (Fin 0) term)).
    cbv zeta. rewrite Z. unfold fscale. destruct (Req_EM_T (INR (S m)) 0) as [E|_]; [pose proof (not_0_INR (S m) ltac:(lia)); contradiction|].
    cbn [fminus fexp fratio_gt]. destruct (Req_EM_T 0 0); [|lra]. cbn [fadd]. rewrite Rplus_0_l. exact IH.
Qed.

(* ---------- the value 0 for large products ---------- *)
Lemma poisson_mono x n k : 0 <= x -> poisson_sum n x <= poisson_sum (n + k) x.
Proof.
  intros H. induction k as [|k IH]; [rewrite Nat.add_0_r; lra|]. rewrite Nat.add_succ_r. cbn [poisson_sum].
  assert (0 <= x ^ (n + k) / INR (fact (n + k))); [|lra].
  apply Rmult_le_pos; [now apply pow_le|]. left. apply Rinv_0_lt_compat, INR_fact_lt_0.
Qed.
Lemma poisson_nonneg x n : 0 <= x -> 0 <= poisson_sum n x.
Proof. intros H. exact (poisson_mono x 0 n H). Qed.

Lemma markov x n k : 0 <= x -> (0 < n)%nat ->
  INR n * (poisson_sum (n + k) x - poisson_sum n x) <= x * poisson_sum (n + k) x.
Proof.
  intros H Hn. induction k as [|k IH].
  - rewrite !Nat.add_0_r, Rminus_diag_eq, Rmult_0_r by reflexivity. apply Rmult_le_pos; [assumption|]. now apply poisson_nonneg.
  - rewrite Nat.add_succ_r. destruct n as [|n']; [lia|].
    assert (G : forall k, INR (S n') * (poisson_sum (S n' + k) x - poisson_sum (S n') x) <= x * poisson_sum (n' + k) x).
    { clear IH k. intros k. induction k as [|k IH].
      - rewrite !Nat.add_0_r, Rminus_diag_eq, Rmult_0_r by reflexivity. apply Rmult_le_pos; [assumption|]. now apply poisson_nonneg.
      - rewrite !Nat.add_succ_r. cbn [poisson_sum].
        set (m := (n' + k)%nat) in *. replace (S n' + k)%nat with (S m) in * by (unfold m; lia).
        assert (F : INR (S m) * (x ^ S m / INR (fact (S m))) = x * (x ^ m / INR (fact m))).
        { change (fact (S m)) with ((S m) * fact m)%nat. rewrite mult_INR. cbn [pow].
          assert (INR (fact m) <> 0) by apply INR_fact_neq_0. assert (INR (S m) <> 0) by (apply not_0_INR; lia).
          field. split; assumption. }
        assert (NN : 0 <= x ^ S m / INR (fact (S m))) by (apply Rmult_le_pos; [now apply pow_le|left; apply Rinv_0_lt_compat, INR_fact_lt_0]).
        assert (LE : INR (S n') <= INR (S m)) by (apply le_INR; unfold m; lia).
        assert (INR (S n') * (x ^ S m / INR (fact (S m))) <= x * (x ^ m / INR (fact m))) by (rewrite <- F; apply Rmult_le_compat_r; assumption).
        change (poisson_sum n' x + x ^ n' / INR (fact n')) with (poisson_sum (S n') x).
        change (poisson_sum m x + x ^ m / INR (fact m)) with (poisson_sum (S m) x).
        assert (PS : poisson_sum (S m) x = poisson_sum m x + x ^ m / INR (fact m)) by reflexivity.
        set (t := x ^ S m / INR (fact (S m))) in *. set (u := x ^ m / INR (fact m)) in *.
        set (a := INR (S n')) in *. set (b := poisson_sum (S n') x) in *. set (c := poisson_sum (S m) x) in *.
        set (w := poisson_sum m x) in *. replace (x * c) with (x * w + x * u) by (rewrite PS; ring).
        replace (a * (c + t - b)) with (a * (c - b) + a * t) by ring. lra. }
    specialize (G (S k)). rewrite Nat.add_succ_r in G.
    apply Rle_trans with (1 := G). apply Rmult_le_compat_l; [assumption|].
    replace (S (S n' + k))%nat with ((n' + S k) + 1)%nat by lia. now apply poisson_mono.
Qed.

Lemma poisson_partial x N : poisson_sum (S N) x = sum_f_R0 (fun i => / INR (fact i) * x ^ i) N.
Proof.
  induction N as [|N IH]; [cbn; field|]. change (poisson_sum (S (S N)) x) with (poisson_sum (S N) x + x ^ S N / INR (fact (S N))).
  rewrite IH. cbn [sum_f_R0]. unfold Rdiv. ring.
Qed.

Lemma exp_markov x n : 0 <= x -> (0 < n)%nat -> INR n * (exp x - poisson_sum n x) <= x * exp x.
Proof.
  intros H Hn. assert (L : Un_cv (fun N => sum_f_R0 (fun i => / INR (fact i) * x ^ i) N) (exp x)).
  { unfold exp. destruct (exist_exp x) as [l Hl]. exact Hl. }
  apply Rnot_lt_le. intros C. set (d := INR n * (exp x - poisson_sum n x) - x * exp x) in *.
  assert (D : 0 < d) by (unfold d; lra). assert (NN := pos_INR n).
  destruct (L (d / (2 * (INR n + x + 1)))) as [N0 HN].
  { apply Rmult_lt_0_compat; [assumption|]. apply Rinv_0_lt_compat. lra. }
  specialize (HN (n + N0)%nat ltac:(lia)). rewrite <- poisson_partial in HN. unfold R_dist in HN.
  assert (M := markov x n (S N0) H Hn). rewrite Nat.add_succ_r in M.
  set (s := poisson_sum (S (n + N0)) x) in *.
  set (e := d / (2 * (INR n + x + 1))) in *.
  assert (E : e * (2 * (INR n + x + 1)) = d) by (unfold e; field; lra).
  assert (P : 0 < e) by (unfold e; apply Rmult_lt_0_compat; [assumption|apply Rinv_0_lt_compat; lra]).
  apply Rabs_def2 in HN. destruct HN as [H1 H2].
  assert (INR n * (exp x - s) <= INR n * e) by (apply Rmult_le_compat_l; lra).
  assert (x * (s - exp x) <= x * e) by (apply Rmult_le_compat_l; lra).
  unfold d in *. nra.
Qed.

Lemma classical_zero n : 30000 < INR n ->
  classical_pvalue 1 n = Ok (Fin 0) /\ 1 / 2 <= chi2_even_sf (1 * INR n) n.
Proof.
  intros H. assert (Hn : (0 < n)%nat) by (apply INR_lt; cbn; lra). split.
  - unfold classical_pvalue. destruct (Rlt_dec 1 0); [lra|]. destruct (Nat.ltb_spec n 1); [lia|].
    destruct (Rlt_dec 30000 (1 * INR n)); [reflexivity|lra].
  - unfold chi2_even_sf. rewrite Rmult_1_l. assert (M := exp_markov (INR n / 2) n ltac:(lra) Hn).
    set (x := INR n / 2) in *. assert (E := exp_pos x).
    assert (Q : exp x / 2 <= poisson_sum n x).
    { assert (INR n * (exp x - poisson_sum n x) <= INR n * (exp x / 2)) by (unfold x at 3 in M; unfold Rdiv in *; nra).
      apply Rmult_le_reg_l in H0; [lra|lra]. }
    rewrite exp_Ropp. apply (Rmult_le_reg_l (exp x)); [assumption|].
    replace (exp x * (/ exp x * poisson_sum n x)) with (poisson_sum n x) by (field; lra). lra.
Qed.
Lemma classical_zero_refuted : exists power n, 0 < power /\ (0 < n)%nat /\
  classical_pvalue power n = Ok (Fin 0) /\ 1 / 2 <= chi2_even_sf (power * INR n) n.
Proof.
  exists 1, (Z.to_nat 30001).
  assert (N : INR (Z.to_nat 30001) = 30001) by (rewrite INR_IZR_INZ, Z2Nat.id by lia; reflexivity).
  split; [lra|]. split; [lia|]. apply classical_zero. rewrite N. lra.
Qed.

(* ---------- detection levels ---------- *)
Lemma level_core sf isf d eps n e : survival sf isf -> (0 < d)%nat -> 0 < eps < 1 -> (0 < n)%nat ->
  p_single_trial eps n = Some e ->
  p_multitrial (sf (isf e d) d) n = eps /\
  (forall x, isf e d < x -> p_multitrial (sf x d) n < eps) /\
  (forall x, 0 <= x -> x < isf e d -> exp (-7) <= eps \/ sf x d * INR n < exp (-7) -> eps < p_multitrial (sf x d) n).
Proof.
  intros (S1 & S2 & S3) Hd He Hn E. destruct (multi_of_single eps n e He Hn E) as [B M].
  destruct (S3 e d Hd B) as [I0 I1]. rewrite I1. split; [exact M|].
  assert (N : 1 <= INR n) by (change 1 with (INR 1); apply le_INR; lia).
  assert (AL : exp (-7) <= eps -> at_least_one e n = eps /\ exp (-7) <= e * INR n).
  { intros L. pose proof (multi_bounds e n ltac:(lra) Hn) as (MB & _). rewrite M in MB. split; [|lra].
    rewrite multi_value in M by (try assumption; lra). destruct (Rlt_dec (e * INR n) (exp (-7))); [lra|exact M]. }
  assert (BO : eps < exp (-7) -> e * INR n = eps).
  { intros L. rewrite single_value in E by assumption. destruct (Rlt_dec eps (exp (-7))); [|lra].
    injection E as <-. field. lra. }
  split.
  - intros x Hx. assert (P := S1 x d Hd ltac:(lra)). assert (Q := S2 (isf e d) x d Hd I0 Hx). rewrite I1 in Q.
    set (p := sf x d) in *. rewrite multi_value by (try assumption; lra).
    destruct (Rlt_dec (p * INR n) (exp (-7))) as [L|L].
    + destruct (Rlt_dec eps (exp (-7))) as [L2|L2]; [rewrite <- (BO L2); nra|lra].
    + destruct (Rlt_dec eps (exp (-7))) as [L2|L2]; [specialize (BO L2); nra|].
      destruct (AL ltac:(lra)) as [A _]. rewrite <- A. unfold at_least_one.
      destruct n as [|n]; [lia|]. cbn [pow].
      assert ((1 - e) ^ n <= (1 - p) ^ n) by (apply pow_incr; lra).
      assert (0 < (1 - e) ^ n) by (apply pow_lt; lra). nra.
  - intros x H0 Hx C. assert (P := S1 x d Hd H0). assert (Q := S2 x (isf e d) d Hd H0 Hx). rewrite I1 in Q.
    set (p := sf x d) in *. rewrite multi_value by (try assumption; lra).
    destruct (Rlt_dec (p * INR n) (exp (-7))) as [L|L].
    + destruct (Rlt_dec eps (exp (-7))) as [L2|L2]; [rewrite <- (BO L2); nra|].
      destruct (AL ltac:(lra)) as [_ A]. nra.
    + destruct C as [C|C]; [|lra]. destruct (AL C) as [A _]. rewrite <- A. unfold at_least_one.
      destruct n as [|n]; [lia|]. cbn [pow].
      assert ((1 - p) ^ n <= (1 - e) ^ n) by (apply pow_incr; lra).
      assert (0 < (1 - e) ^ n) by (apply pow_lt; lra).
      assert (0 <= (1 - p) ^ n) by (apply pow_le; lra). nra.
Qed.

Lemma pds_level_main sf isf eps ntrial ns nr l : survival sf isf -> 0 < eps < 1 ->
  (0 < ntrial)%nat -> (0 < ns)%nat -> (0 < nr)%nat ->
  pds_detection_level isf eps ntrial ns nr = Some l ->
  pds_probability sf l ntrial ns nr = eps /\
  (forall x, l < x -> pds_probability sf x ntrial ns nr < eps) /\
  (forall x, 0 <= x -> x < l -> exp (-7) <= eps -> eps < pds_probability sf x ntrial ns nr).
Proof.
  intros S He Ht Hs Hr E. unfold pds_detection_level in E.
  destruct (p_single_trial eps ntrial) as [e|] eqn:Ee; [|discriminate]. apply (f_equal (fun o => match o with Some v => v | None => l end)) in E. cbv beta iota delta [option_map] in E. subst l.
  assert (A : 0 < INR ns) by now apply lt_0_INR. assert (B : 0 < INR nr) by now apply lt_0_INR.
  destruct (level_core sf isf (2 * ns * nr) eps ntrial e S ltac:(nia) He Ht Ee) as (C1 & C2 & C3).
  unfold pds_probability. set (d := (2 * ns * nr)%nat) in *. assert (AB : 0 < INR ns * INR nr) by now apply Rmult_lt_0_compat.
  assert (F : isf e d / (INR ns * INR nr) * INR ns * INR nr = isf e d) by (field; lra).
  split; [rewrite F; exact C1|]. split.
  - intros x Hx. apply C2. rewrite <- F. rewrite !Rmult_assoc. now apply Rmult_lt_compat_r.
  - intros x H0 Hx Hl. apply C3; [rewrite Rmult_assoc; apply Rmult_le_pos; lra| |now left].
    rewrite <- F. rewrite !Rmult_assoc. now apply Rmult_lt_compat_r.
Qed.
Lemma z2_level_main sf isf eps ntrial n ns l : survival sf isf -> 0 < eps < 1 ->
  (0 < ntrial)%nat -> (0 < n)%nat -> (0 < ns)%nat ->
  z2_n_detection_level isf n eps ntrial ns = Some l ->
  z2_n_probability sf l n ntrial ns = eps /\
  (forall x, l < x -> z2_n_probability sf x n ntrial ns < eps) /\
  (forall x, 0 <= x -> x < l -> exp (-7) <= eps -> eps < z2_n_probability sf x n ntrial ns).
Proof.
  intros S He Ht Hn Hs E. unfold z2_n_detection_level in E.
  destruct (p_single_trial eps ntrial) as [e|] eqn:Ee; [|discriminate]. apply (f_equal (fun o => match o with Some v => v | None => l end)) in E. cbv beta iota delta [option_map] in E. subst l.
  assert (A : 0 < INR ns) by now apply lt_0_INR.
  destruct (level_core sf isf (2 * ns * n) eps ntrial e S ltac:(nia) He Ht Ee) as (C1 & C2 & C3).
  unfold z2_n_probability. replace (2 * n * ns)%nat with (2 * ns * n)%nat by lia. set (d := (2 * ns * n)%nat) in *.
  assert (F : isf e d / INR ns * INR ns = isf e d) by (field; lra).
  split; [rewrite F; exact C1|]. split.
  - intros x Hx. apply C2. rewrite <- F. now apply Rmult_lt_compat_r.
  - intros x H0 Hx Hl. apply C3; [apply Rmult_le_pos; lra| |now left]. rewrite <- F. now apply Rmult_lt_compat_r.
Qed.
Lemma fold_level_main sf isf eps ntrial nbin l : survival sf isf -> 0 < eps < 1 ->
  (0 < ntrial)%nat -> (1 < nbin)%nat ->
  fold_detection_level isf nbin eps ntrial = Some l ->
  fold_profile_probability sf l nbin ntrial = eps /\
  (forall x, l < x -> fold_profile_probability sf x nbin ntrial < eps) /\
  (forall x, 0 <= x -> x < l -> exp (-7) <= eps -> eps < fold_profile_probability sf x nbin ntrial).
Proof.
  intros S He Ht Hn E. unfold fold_detection_level in E.
  destruct (p_single_trial eps ntrial) as [e|] eqn:Ee; [|discriminate]. apply (f_equal (fun o => match o with Some v => v | None => l end)) in E. cbv beta iota delta [option_map] in E. subst l.
  destruct (level_core sf isf (nbin - 1) eps ntrial e S ltac:(lia) He Ht Ee) as (C1 & C2 & C3).
  unfold fold_profile_probability. split; [exact C1|]. split; [exact C2|]. intros. apply C3; auto.
Qed.

(* a detection level exists unless the confidence is extreme *)
Lemma single_defined eps n : 0 < eps <= 1 - 1 / 10 ^ 12 -> (0 < n)%nat -> exists e, p_single_trial eps n = Some e.
Proof.
  intros He Hn. assert (0 < 1 / 10 ^ 12) by (apply Rmult_lt_0_compat; [lra|]; apply Rinv_0_lt_compat, pow_lt; lra).
  rewrite single_value by (try assumption; lra). destruct (Rlt_dec eps (exp (-7))); [eauto|].
  destruct (Rlt_dec (1 - eps) (1 / 10 ^ 15 * 1000)) as [C|_]; [|eauto]. exfalso. lra.
Qed.

(* below the level the probability can be smaller than epsilon *)
Definition toy_sf (x : R) (d : nat) : R := exp (- x).
Definition toy_isf (e : R) (d : nat) : R := - ln e.
Lemma toy_survival : survival toy_sf toy_isf.
Proof.
  unfold toy_sf, toy_isf. repeat split.
  - apply exp_pos.
  - rewrite <- exp_0. destruct H0 as [H0| <- ]; [left; apply exp_increasing; lra|rewrite Ropp_0; lra].
  - intros x y d _ _ H. apply exp_increasing. lra.
  - assert (ln e < 0) by (rewrite <- ln_1; apply ln_increasing; lra). lra.
  - rewrite Ropp_involutive. apply exp_ln. lra.
Qed.

Lemma below_level_refuted : exists sf isf eps ntrial l x, survival sf isf /\ 0 < eps < 1 /\ (0 < ntrial)%nat /\
  pds_detection_level isf eps ntrial 1 1 = Some l /\ 0 <= x /\ x < l /\ pds_probability sf x ntrial 1 1 < eps.
Proof.
  assert (B := exp7_bounds). set (y := exp (-7)) in *.
  (* two trials; single-trial probabilities y/2 (just above the switch) and slightly below it *)
  set (eps := y - y * y / 8). assert (He : 0 < eps < y) by (unfold eps; nra).
  exists toy_sf, toy_isf, eps, 2%nat, (- ln (eps / 2) / (INR 1 * INR 1)), (- ln (y / 2)).
  split; [exact toy_survival|]. split; [lra|]. split; [lia|]. split.
  { unfold pds_detection_level. rewrite single_value by (try lia; lra). fold y.
    destruct (Rlt_dec eps y); [|lra]. cbn [option_map INR]. reflexivity. }
  assert (L0 : ln (y / 2) < 0) by (rewrite <- ln_1; apply ln_increasing; lra).
  split; [lra|]. split.
  { cbn [INR]. replace (- ln (eps / 2) / (1 * 1)) with (- ln (eps / 2)) by field.
    apply Ropp_lt_contravar. apply ln_increasing; lra. }
  unfold pds_probability, toy_sf. cbn [INR].
  replace (- (- ln (y / 2) * 1 * 1)) with (ln (y / 2)) by ring. rewrite exp_ln by lra.
  rewrite multi_value by (try lia; lra). fold y. cbn [INR].
  destruct (Rlt_dec (y / 2 * (1 + 1)) y); [lra|]. unfold at_least_one, eps. cbn [pow]. nra.
Qed.
