(* P_bexvar.v: proofs about bexvar.py. *)
From Verif Require Import Np M_utils Cplx M_exvar M_espec M_bexvar S_chi2 S_bexvar P_exvar P_chi2 P_chi22 P_timmer.
From Coq Require Import Reals List Arith ZArith Bool Lia Lra.
Import ListNotations.
Open Scope R_scope.

(* ---- quantiles ---- *)
Lemma term_deriv n z : derivable_pt_lim (fun z => exp (- z) * (z ^ n / INR (fact n))) z (exp (- z) * ((match n with O => 0 | S m => z ^ m / INR (fact m) end) - z ^ n / INR (fact n))).
Proof.
  assert (F : INR (fact n) <> 0) by (apply not_0_INR, fact_neq_0).
  assert (E : derivable_pt_lim (fun z => exp (- z)) z (- exp (- z))).
  { replace (- exp (- z)) with (exp (- z) * - 1) by ring. apply (derivable_pt_lim_comp (fun z => - z) exp); [|apply derivable_pt_lim_exp]. apply derivable_pt_lim_opp, derivable_pt_lim_id. }
  assert (P : derivable_pt_lim (fun z => z ^ n / INR (fact n)) z (match n with O => 0 | S m => z ^ m / INR (fact m) end)).
  { pose proof (derivable_pt_lim_scal (fun z => z ^ n) (/ INR (fact n)) z _ (derivable_pt_lim_pow z n)) as D. destruct n as [|m].
    - replace 0 with (/ INR (fact 0) * (INR 0 * z ^ pred 0)) by (cbn [INR]; ring). intros eps He. destruct (D eps He) as [d Hd]. exists d. intros h H1 H2. specialize (Hd h H1 H2). unfold mult_real_fct, Rdiv in *. rewrite !(Rmult_comm (_ ^ _)). exact Hd.
    - replace (z ^ m / INR (fact m)) with (/ INR (fact (S m)) * (INR (S m) * z ^ pred (S m))).
      + intros eps He. destruct (D eps He) as [d Hd]. exists d. intros h H1 H2. specialize (Hd h H1 H2). unfold mult_real_fct, Rdiv in *. rewrite !(Rmult_comm (_ ^ _)). rewrite (Rmult_comm (_ ^ _) (/ _)) in Hd || idtac. exact Hd.
      + rewrite fact_simpl, mult_INR. cbn [pred]. field. split; [apply not_0_INR, fact_neq_0|apply not_0_INR; lia]. }
  replace (exp (- z) * ((match n with O => 0 | S m => z ^ m / INR (fact m) end) - z ^ n / INR (fact n))) with (- exp (- z) * (z ^ n / INR (fact n)) + exp (- z) * (match n with O => 0 | S m => z ^ m / INR (fact m) end)) by ring.
  apply (derivable_pt_lim_mult (fun z => exp (- z)) (fun z => z ^ n / INR (fact n))); assumption.
Qed.
Lemma erlang_S n z : erlang (S n) z = erlang n z + exp (- z) * (z ^ n / INR (fact n)).
Proof. unfold erlang. rewrite rs_S. ring. Qed.
Lemma erlang_deriv n z : derivable_pt_lim (erlang (S n)) z (- (exp (- z) * (z ^ n / INR (fact n)))).
Proof.
  induction n as [|n IH].
  - pose proof (term_deriv 0 z) as D. cbv iota in D. replace (- (exp (- z) * (z ^ 0 / INR (fact 0)))) with (exp (- z) * (0 - z ^ 0 / INR (fact 0))) by ring.
    intros eps He. destruct (D eps He) as [d Hd]. exists d. intros h H1 H2. rewrite !erlang_S. specialize (Hd h H1 H2). unfold erlang at 1 2. rewrite !rs_0. rewrite !Rmult_0_r, !Rplus_0_l. exact Hd.
  - pose proof (derivable_pt_lim_plus _ _ _ _ _ IH (term_deriv (S n) z)) as D. cbv iota in D.
    replace (- (exp (- z) * (z ^ n / INR (fact n))) + exp (- z) * (z ^ n / INR (fact n) - z ^ S n / INR (fact (S n)))) with (- (exp (- z) * (z ^ S n / INR (fact (S n))))) in D by ring.
    intros eps He. destruct (D eps He) as [d Hd]. exists d. intros h H1 H2. rewrite !(erlang_S (S n)). exact (Hd h H1 H2).
Qed.
Lemma erlang_down n a b : 0 <= a -> a < b -> erlang (S n) b <= erlang (S n) a.
Proof.
  intros A B. assert (N : (fun z => - erlang (S n) z) a <= (fun z => - erlang (S n) z) b); [|cbv beta in N; lra].
  apply (nondecreasing (fun z => - erlang (S n) z) (fun z => exp (- z) * (z ^ n / INR (fact n))) a b); [exact B| |].
  - intros c _. replace (exp (- c) * (c ^ n / INR (fact n))) with (- - (exp (- c) * (c ^ n / INR (fact n)))) by ring. apply derivable_pt_lim_opp, erlang_deriv.
  - intros c Hc. apply Rmult_le_pos; [left; apply exp_pos|]. apply Rmult_le_pos; [apply pow_le; lra|]. left. apply Rinv_0_lt_compat, lt_0_INR, lt_O_fact.
Qed.
Lemma quantile_below g n p z : quantile_function g -> 0 < p < 1 -> 0 <= z -> erlang (S n) z < 1 - p -> g (INR n + 1) p <= z.
Proof.
  intros G P Z E. destruct (G n p P) as [A B]. apply Rnot_lt_le. intros C. pose proof (erlang_down n z _ Z C). lra.
Qed.
Lemma quantile_increasing g n p q : quantile_function g -> 0 < p < 1 -> 0 < q < 1 -> p <= q -> g (INR n + 1) p <= g (INR n + 1) q.
Proof.
  intros G P Q L. destruct (G n p P) as [A B]. destruct (G n q Q) as [C D]. apply Rnot_lt_le. intros E. pose proof (erlang_down n _ _ (Rlt_le _ _ C) E) as F. rewrite B, D in F.
  assert (p = q) by lra. subst q. lra.
Qed.

(* ---- extremes of lists ---- *)
Lemma min_ok l : l <> [] -> exists m, rmin_list l = Ok m /\ least l m.
Proof.
  destruct l as [|x l]; [congruence|]. intros _. cbn [rmin_list]. exists (fold_left Rmin l x). split; [reflexivity|]. revert x.
  induction l as [|y l IH]; intros x; cbn [fold_left]; [split; [now left|intros z [<-|[]]; lra]|].
  destruct (IH (Rmin x y)) as [I M]. split.
  - destruct I as [I|I]; [|now right; right]. rewrite <- I. unfold Rmin. destruct (Rle_dec x y); [now left|right; now left].
  - intros z Z. assert (L : fold_left Rmin l (Rmin x y) <= Rmin x y) by (apply M; now left). destruct Z as [<-|[<-|Z]]; [pose proof (Rmin_l x y); lra|pose proof (Rmin_r x y); lra|apply M; now right].
Qed.
Lemma max_ok l : l <> [] -> exists m, rmax_list l = Ok m /\ greatest l m.
Proof.
  destruct l as [|x l]; [congruence|]. intros _. cbn [rmax_list]. exists (fold_left Rmax l x). split; [reflexivity|]. revert x.
  induction l as [|y l IH]; intros x; cbn [fold_left]; [split; [now left|intros z [<-|[]]; lra]|].
  destruct (IH (Rmax x y)) as [I M]. split.
  - destruct I as [I|I]; [|now right; right]. rewrite <- I. unfold Rmax. destruct (Rle_dec x y); [right; now left|now left].
  - intros z Z. assert (L : Rmax x y <= fold_left Rmax l (Rmax x y)) by (apply M; now left). destruct Z as [<-|[<-|Z]]; [pose proof (Rmax_l x y); lra|pose proof (Rmax_r x y); lra|apply M; now right].
Qed.
Lemma least_unique l a b : least l a -> least l b -> a = b.
Proof. intros [A B] [C D]. apply Rle_antisym; [now apply B|now apply D]. Qed.
Lemma greatest_unique l a b : greatest l a -> greatest l b -> a = b.
Proof. intros [A B] [C D]. apply Rle_antisym; [now apply D|now apply B]. Qed.

(* ---- ceiling and grids ---- *)
Lemma rceil_ok x : IZR (rceil x) - 1 < x <= IZR (rceil x).
Proof. unfold rceil. destruct (archimed (- x)) as [A B]. rewrite minus_IZR. split; lra. Qed.
Lemma grid_ok a b x : 0 < x -> exists n l, linspace a b (rceil x) = Ok l /\ (0 < n)%nat /\ INR n - 1 < x <= INR n /\ even_grid a b n l.
Proof.
  intros X. destruct (rceil_ok x) as [C1 C2]. assert (P : (0 < rceil x)%Z) by (apply lt_IZR; lra).
  exists (Z.to_nat (rceil x)). unfold linspace. replace (rceil x <? 0)%Z with false by (symmetry; apply Z.ltb_ge; lia). cbv zeta.
  set (n := Z.to_nat (rceil x)). assert (N : INR n = IZR (rceil x)) by (unfold n; rewrite INR_IZR_INZ, Z2Nat.id by lia; reflexivity).
  eexists. split; [reflexivity|]. split; [lia|]. split; [rewrite N; lra|]. split; [now rewrite map_length, seq_length|]. intros i Hi.
  rewrite (nth_map_lt2 _ _ _ O) by (rewrite seq_length; exact Hi). rewrite seq_nth by exact Hi. cbn [plus].
  destruct (Nat.ltb_spec 1 n) as [L|L]; cbn [andb].
  - assert (NN : INR (n - 1) <> 0) by (apply not_0_INR; lia). destruct (Nat.eqb_spec (i + 1) n) as [E|E].
    + replace (n - 1)%nat with i in * by lia. field. exact NN.
    + replace (Nat.eqb (n - 1) 0) with false by (symmetry; apply Nat.eqb_neq; lia). field. exact NN.
  - assert (i = 0)%nat by lia. subst i. replace (Nat.eqb (n - 1) 0) with true by (symmetry; apply Nat.eqb_eq; lia). cbn [INR]. unfold Rdiv. ring.
Qed.
Lemma grid_refused a b x : x <= -1 -> linspace a b (rceil x) = Err ValueError.
Proof. intros X. destruct (rceil_ok x) as [C1 C2]. unfold linspace. replace (rceil x <? 0)%Z with true; [reflexivity|]. symmetry. apply Z.ltb_lt. apply lt_IZR. lra. Qed.

(* ---- the grid of rates ---- *)
Definition low_rate (g : R -> R -> R) (b : bin) : R := g (b_src b + 1) (1 / 1000) / b_conv b - g (b_bkg b + 1) (999 / 1000) / (b_conv b * b_area b).
Definition high_rate (g : R -> R -> R) (b : bin) : R := g (b_src b + 1) (999 / 1000) / b_conv b.
Lemma diffs g bins : map (fun p => fst p - snd p) (combine (map (fun b => g (b_src b + 1) (1 / 1000) / b_conv b) bins) (map (fun b => g (b_bkg b + 1) (999 / 1000) / (b_conv b * b_area b)) bins)) = map (low_rate g) bins.
Proof. induction bins as [|b bins IH]; [reflexivity|]. cbn [map combine fst snd]. now rewrite IH. Qed.
Lemma lscg_unfold g bins d mn mx : least (map (low_rate g) bins) mn -> greatest (map (high_rate g) bins) mx ->
  lscg_gen g bins d = let m0 := if Rlt_dec 0 mn then log10 mn else -1 in let m1 := log10 mx in
    if Rlt_dec (m0 - 5 / 100 * (m1 - m0)) (-1) then linspace (-1) (m1 + 5 / 100 * (m1 - m0)) (rceil (d * (m1 + 5 / 100 * (m1 - m0) + 1)))
    else linspace (m0 - 5 / 100 * (m1 - m0)) (m1 + 5 / 100 * (m1 - m0)) (rceil (d * (105 / 100) * (m1 + 5 / 100 * (m1 - m0) - (m0 - 5 / 100 * (m1 - m0))))).
Proof.
  intros A B. unfold lscg_gen. rewrite diffs.
  destruct (min_ok (map (low_rate g) bins)) as (m & E & L); [intros C; rewrite C in A; destruct A as [[] _]|]. rewrite E. cbn [bind]. rewrite (least_unique _ _ _ L A).
  destruct (max_ok (map (high_rate g) bins)) as (t & F & G); [intros C; rewrite C in B; destruct B as [[] _]|]. change (map (fun b => g (b_src b + 1) (999 / 1000) / b_conv b) bins) with (map (high_rate g) bins). rewrite F. cbn [bind]. rewrite (greatest_unique _ _ _ G B). reflexivity.
Qed.
Lemma grid_main g bins d mn mx : 0 < d -> least (map (low_rate g) bins) mn -> greatest (map (high_rate g) bins) mx ->
  let m0 := if Rlt_dec 0 mn then log10 mn else -1 in let m1 := log10 mx in let pad := 5 / 100 * (m1 - m0) in
  m0 < m1 -> -1 < m1 + pad ->
  exists n l, lscg_gen g bins d = Ok l /\ (0 < n)%nat /\ even_grid (Rmax (-1) (m0 - pad)) (m1 + pad) n l /\
    INR n - 1 < d * (if Rlt_dec (m0 - pad) (-1) then m1 + pad + 1 else 105 / 100 * (m1 + pad - (m0 - pad))) <= INR n.
Proof.
  intros D A B m0 m1 pad L H. rewrite (lscg_unfold g bins d mn mx A B). fold m0 m1. cbv zeta. fold m0 m1. fold pad.
  destruct (Rlt_dec (m0 - pad) (-1)) as [C|C].
  - rewrite Rmax_left by lra. destruct (grid_ok (-1) (m1 + pad) (d * (m1 + pad + 1))) as (n & l & E & N & I & G); [apply Rmult_lt_0_compat; lra|]. exists n, l. repeat split; try assumption; try apply G; apply I.
  - rewrite Rmax_right by lra. assert (0 < pad) by (unfold pad; lra). destruct (grid_ok (m0 - pad) (m1 + pad) (d * (105 / 100) * (m1 + pad - (m0 - pad)))) as (n & l & E & N & I & G); [apply Rmult_lt_0_compat; lra|].
    exists n, l. rewrite E. repeat split; try assumption; try apply G; rewrite <- Rmult_assoc; apply I.
Qed.
Lemma log10_hundredth : log10 (1 / 100) = -2.
Proof. unfold log10. replace (1 / 100) with (/ (10 * 10)) by field. rewrite ln_Rinv, ln_mult by lra. field. assert (ln 1 < ln 10) by (apply ln_increasing; lra). rewrite ln_1 in *. lra. Qed.
Lemma log10_le a b : 0 < a -> a <= b -> log10 a <= log10 b.
Proof.
  intros A [L|E]; [|subst; lra]. unfold log10. assert (ln 1 < ln 10) by (apply ln_increasing; lra). rewrite ln_1 in *. unfold Rdiv. apply Rmult_le_compat_r; [left; now apply Rinv_0_lt_compat|]. left. now apply ln_increasing.
Qed.
Lemma grid_faint g bins mn mx : least (map (low_rate g) bins) mn -> greatest (map (high_rate g) bins) mx -> mn <= 0 -> 0 < mx <= 1 / 100 -> lscg_gen g bins 100 = Err ValueError.
Proof.
  intros A B M [X1 X2]. rewrite (lscg_unfold g bins 100 mn mx A B). destruct (Rlt_dec 0 mn) as [C|_]; [lra|]. cbv zeta.
  pose proof (log10_le mx (1 / 100) X1 X2) as L. rewrite log10_hundredth in L.
  destruct (Rlt_dec (-1 - 5 / 100 * (log10 mx - -1)) (-1)) as [C|C]; [lra|]. apply grid_refused. lra.
Qed.
Lemma grid_above g bins d mn mx l : least (map (low_rate g) bins) mn -> greatest (map (high_rate g) bins) mx -> mn <= mx -> 0 < mn -> mx < 1 / 10 -> 0 < d -> lscg_gen g bins d = Ok l ->
  forall x, In x l -> -1 <= x.
Proof.
  intros A B M P T D E. rewrite (lscg_unfold g bins d mn mx A B) in E. destruct (Rlt_dec 0 mn) as [_|C]; [|lra]. cbv zeta in E.
  assert (L1 : log10 mx < -1).
  { unfold log10. assert (ln 1 < ln 10) by (apply ln_increasing; lra). rewrite ln_1 in *. assert (X : ln mx < ln (/ 10)) by (apply ln_increasing; lra). rewrite ln_Rinv in X by lra.
    apply (Rmult_lt_reg_r (ln 10)); [assumption|]. unfold Rdiv. rewrite Rmult_assoc, Rinv_l by lra. lra. }
  pose proof (log10_le mn mx P M) as L0. destruct (Rlt_dec _ (-1)) as [_|C] in E; [|lra].
  set (hi := log10 mx + 5 / 100 * (log10 mx - log10 mn)) in *. destruct (Rlt_dec (-1) hi) as [H|H].
  - destruct (grid_ok (-1) hi (d * (hi + 1))) as (n & l' & E' & N & _ & [G1 G2]); [apply Rmult_lt_0_compat; lra|]. rewrite E in E'. injection E' as <-.
    intros x I. apply (In_nth _ _ 0) in I. destruct I as (i & Hi & <-). rewrite G2 by lia. assert (0 <= INR i / INR (n - 1)).
    { destruct (Nat.eq_dec (n - 1) 0) as [Z|Z]; [rewrite Z; unfold Rdiv; cbn [INR]; rewrite Rinv_0; lra|]. apply Rmult_le_pos; [apply pos_INR|]. left. apply Rinv_0_lt_compat, lt_0_INR. lia. }
    nra.
  - unfold linspace in E. destruct (rceil_ok (d * (hi + 1))) as [C1 C2]. assert (Z : (rceil (d * (hi + 1)) <= 0)%Z). { assert (rceil (d * (hi + 1)) < 1)%Z by (apply lt_IZR; nra). lia. }
    destruct (rceil (d * (hi + 1)) <? 0)%Z eqn:W; [discriminate|]. apply Z.ltb_ge in W. replace (rceil (d * (hi + 1))) with 0%Z in E by lia. cbn in E. injection E as <-. intros x [].
Qed.
Lemma grid_empty g d : lscg_gen g [] d = Err ValueError.
Proof. reflexivity. Qed.

(* ---- a faint source ---- *)
Lemma exp_quarters n : (125 / 100) ^ n <= exp (INR n / 4).
Proof.
  replace (exp (INR n / 4)) with (exp (1 / 4) ^ n).
  - apply pow_incr. split; [lra|]. pose proof (exp_ineq1_le (1 / 4)). lra.
  - induction n as [|n IH]; [cbn [INR pow]; unfold Rdiv; now rewrite Rmult_0_l, exp_0|]. cbn [pow]. rewrite IH, <- exp_plus. f_equal. rewrite S_INR. field.
Qed.
Lemma five_counts_high g : quantile_function g -> g (5 + 1) (999 / 1000) <= 20.
Proof.
  intros G. replace 5 with (INR 5) by (cbn [INR]; lra). apply quantile_below; [exact G|lra|lra|].
  unfold erlang. rewrite !rs_S, rs_0. cbn [fact INR pow Nat.mul Nat.add]. rewrite exp_Ropp.
  pose proof (exp_quarters 80) as E. replace (INR 80 / 4) with 20 in E by (rewrite INR_IZR_INZ; cbn [Z.of_nat Pos.of_succ_nat Pos.succ]; lra).
  assert (B : 5 * 10 ^ 7 <= (125 / 100) ^ 80).
  { change 80%nat with (8 * 10)%nat. rewrite pow_mult. apply (Rle_trans _ ((59 / 10) ^ 10)); [cbn [pow]; lra|]. apply pow_incr. split; [lra|]. cbn [pow]. lra. }
  assert (I : / exp 20 <= / (5 * 10 ^ 7)) by (apply Rinv_le_contravar; lra). assert (0 < / exp 20) by apply Rinv_0_lt_compat, exp_pos. lra.
Qed.
Lemma five_counts_low g : quantile_function g -> g (5 + 1) (1 / 1000) <= 6.
Proof.
  intros G. replace 5 with (INR 5) by (cbn [INR]; lra). apply quantile_below; [exact G|lra|lra|].
  unfold erlang. rewrite !rs_S, rs_0. cbn [fact INR pow Nat.mul Nat.add]. rewrite exp_Ropp.
  pose proof (exp_quarters 24) as E. replace (INR 24 / 4) with 6 in E by (rewrite INR_IZR_INZ; cbn [Z.of_nat Pos.of_succ_nat Pos.succ]; lra).
  assert (B : 200 <= (125 / 100) ^ 24) by (cbn [pow]; lra).
  assert (I : / exp 6 <= / 200) by (apply Rinv_le_contravar; lra). assert (0 < / exp 6) by apply Rinv_0_lt_compat, exp_pos. lra.
Qed.
Lemma no_counts_high g : quantile_function g -> 6 <= g (0 + 1) (999 / 1000).
Proof.
  intros G. destruct (G 0%nat (999 / 1000) ltac:(lra)) as [P E]. cbn [INR] in *. apply Rnot_lt_le. intros L. unfold erlang in E. rewrite rs_S, rs_0 in E. cbn [fact INR pow] in E.
  assert (X : exp (Ropp 6) < exp (- g (0 + 1) (999 / 1000))) by (apply exp_increasing; lra). rewrite (exp_Ropp 6) in X.
  assert (Y : exp 6 <= 3 ^ 6). { replace 6 with (1 + 1 + 1 + 1 + 1 + 1) at 1 by lra. rewrite !exp_plus. pose proof exp_le_3 as T. pose proof (exp_pos 1). cbn [pow]. set (e := exp 1) in *.
    assert (e * e <= 9) by nra. assert (e * e * e <= 27) by nra. assert (e * e * e * e <= 81) by nra. assert (e * e * e * e * e <= 243) by nra. nra. }
  assert (I : / 3 ^ 6 <= / exp 6) by (apply Rinv_le_contravar; [apply exp_pos|exact Y]). cbn [pow] in I. lra.
Qed.
Lemma faint_source g pmf : quantile_function g -> bexvar_input g pmf [2000] [5] None None None = Err ValueError.
Proof.
  intros G. unfold bexvar_input. assert (B : select_bins [2000] [5] None None None = [mkBin 5 0 1 2000]).
  { unfold select_bins, used, default_to. cbn [length repeat combine filter fst]. destruct (Rlt_dec (1 / 10) 1) as [_|N]; [|lra]. cbn [map snd bins_of]. f_equal. f_equal; field. }
  rewrite B. rewrite (grid_faint g _ (low_rate g (mkBin 5 0 1 2000)) (high_rate g (mkBin 5 0 1 2000))); [reflexivity| | | |].
  - split; [now left|]. intros x [<-|[]]. lra.
  - split; [now left|]. intros x [<-|[]]. lra.
  - unfold low_rate. cbn [b_src b_bkg b_area b_conv]. pose proof (five_counts_low g G). pose proof (no_counts_high g G). lra.
  - unfold high_rate. cbn [b_src b_bkg b_area b_conv]. pose proof (five_counts_high g G). destruct (G 5%nat (999 / 1000) ltac:(lra)) as [P _]. replace (INR 5) with 5 in P by (cbn [INR]; lra). lra.
Qed.

(* ---- weights of the bins ---- *)
Lemma sum_pos (l : list R) : (forall x, In x l -> 0 <= x) -> 0 <= rlsum l.
Proof. intros H. rewrite rlsum_rs. apply rs_nonneg. intros i Hi. apply H, nth_In, Hi. Qed.
Lemma sum_none (l : list R) : (forall x, In x l -> 0 <= x) -> (forall x, In x l -> x <= rlsum l).
Proof.
  induction l as [|a l IH]; intros H x I; [destruct I|]. change (rlsum (a :: l)) with (a + rlsum l).
  assert (A : 0 <= a) by (apply H; now left). assert (L : forall x, In x l -> 0 <= x) by (intros y Hy; apply H; now right). pose proof (sum_pos l L). destruct I as [<-|I]; [lra|]. specialize (IH L x I). lra.
Qed.
Lemma prob_pos g pmf b x : (forall k m, 0 <= pmf k m) -> 0 <= prob g pmf b x.
Proof.
  intros P. unfold prob. cbv zeta. unfold Rdiv. apply Rmult_le_pos; [|apply Rlt_le, Rinv_0_lt_compat, lt_0_INR; rewrite map_length; unfold quantiles; rewrite map_length, seq_length; lia].
  apply sum_pos. intros y I. apply in_map_iff in I. destruct I as (r & <- & _). apply P.
Qed.
Lemma prob_mean g pmf b x : prob g pmf b x = rs 998 (fun i => pmf (b_src b) (Rpower 10 x * b_conv b + g (b_bkg b + 1) (INR (S i) / 999) / b_area b)) / 998.
Proof.
  unfold prob. cbv zeta. rewrite rlsum_rs, !map_length. unfold quantiles at 1 3. rewrite !map_length, !seq_length.
  replace (INR 998) with 998 by (rewrite INR_IZR_INZ; reflexivity). apply (f_equal (fun z => z / 998)). apply rs_ext. intros i Hi. rewrite map_map. unfold quantiles. rewrite map_map.
  rewrite (nth_map_lt2 _ _ _ O) by (rewrite seq_length; exact Hi). rewrite seq_nth by exact Hi. reflexivity.
Qed.
Lemma weights_ok g pmf grid b : (forall k m, 0 <= pmf k m) -> (exists x, In x grid /\ 0 < prob g pmf b x) ->
  exists w, estimate_source_cr g pmf grid b = map Some w /\ length w = length grid /\ rlsum w = 1 /\ (forall y, In y w -> 0 <= y) /\
    exists s, 0 < s /\ forall i, (i < length grid)%nat -> nth i w 0 = prob g pmf b (nth i grid 0) / s.
Proof.
  intros P (x & I & X). set (s := rlsum (map (prob g pmf b) grid)).
  assert (N : forall y, In y (map (prob g pmf b) grid) -> 0 <= y) by (intros y Hy; apply in_map_iff in Hy; destruct Hy as (z & <- & _); now apply prob_pos).
  assert (S0 : 0 < s) by (pose proof (sum_none _ N (prob g pmf b x) ltac:(now apply in_map)); fold s in H; lra).
  exists (map (fun y => prob g pmf b y / s) grid). unfold estimate_source_cr. fold s. cbv zeta. split; [|split; [|split; [|split]]].
  - rewrite !map_map. apply map_ext. intros y. rewrite fdiv_some by lra. reflexivity.
  - now rewrite map_length.
  - unfold Rdiv. rewrite rlsum_map_scal. fold s. field. lra.
  - intros y Hy. apply in_map_iff in Hy. destruct Hy as (z & <- & _). apply Rmult_le_pos; [now apply prob_pos|]. left. now apply Rinv_0_lt_compat.
  - exists s. split; [exact S0|]. intros i Hi. now rewrite (nth_map_lt2 _ _ _ 0) by exact Hi.
Qed.
Lemma weights_zero g pmf grid b : (forall x, In x grid -> prob g pmf b x = 0) -> estimate_source_cr g pmf grid b = repeat None (length grid).
Proof.
  intros H. unfold estimate_source_cr. cbv zeta. replace (map (prob g pmf b) grid) with (repeat 0 (length grid)).
  - assert (Z : forall n, rlsum (repeat 0 n) = 0) by (intros n; induction n as [|n IH]; [reflexivity|]; change (rlsum (repeat 0 (S n))) with (0 + rlsum (repeat 0 n)); rewrite IH; ring).
    rewrite Z. clear. induction (length grid) as [|n IH]; [reflexivity|]. cbn [repeat map]. now rewrite IH, fdiv_none.
  - induction grid as [|x l IH]; [reflexivity|]. cbn [length repeat map]. rewrite H by now left. f_equal. apply IH. intros y Hy. apply H. now right.
Qed.

(* ---- the priors and the likelihood ---- *)
Lemma transform_ok grid u v : grid <> [] -> nth 0 grid 0 <= last grid 0 -> 0 <= u <= 1 -> 0 <= v <= 1 ->
  exists m s, transform grid (u, v) = Ok (m, s) /\ nth 0 grid 0 <= m <= last grid 0 /\ 1 / 100 <= s <= 100 /\
    (u = 0 -> m = nth 0 grid 0) /\ (u = 1 -> m = last grid 0) /\ (v = 0 -> s = 1 / 100) /\ (v = 1 / 2 -> s = 1) /\ (v = 1 -> s = 100).
Proof.
  intros N L U V. destruct grid as [|g0 r]; [congruence|]. unfold transform. cbn [fst snd nth] in *. set (h := last (g0 :: r) 0) in *. do 2 eexists. split; [reflexivity|].
  assert (P2 : Rpower 10 (0 * 4 - 2) = 1 / 100). { replace (0 * 4 - 2) with (Ropp (INR 2)) by (cbn [INR]; ring). rewrite Rpower_Ropp, Rpower_pow by lra. cbn [pow]. field. }
  assert (P3 : Rpower 10 (1 * 4 - 2) = 100). { replace (1 * 4 - 2) with (INR 2) by (cbn [INR]; ring). rewrite Rpower_pow by lra. cbn [pow]. ring. }
  split; [nra|]. split; [|repeat split].
  - split; [rewrite <- P2|rewrite <- P3]; apply Rle_Rpower; lra.
  - intros ->. ring.
  - intros ->. ring.
  - intros ->. exact P2.
  - intros ->. replace (1 / 2 * 4 - 2) with 0 by field. apply Rpower_O. lra.
  - intros ->. exact P3.
Qed.
Lemma transform_empty c : transform [] c = Err IndexError.
Proof. reflexivity. Qed.
Lemma loglike_exact npdf grid pdfs m s : (forall row, In row pdfs -> length row = length grid) ->
  loglike npdf grid pdfs (m, s) = rlsum (map (fun row => ln (rs (length grid) (fun i => npdf (nth i grid 0) m s * nth i row 0) / INR (length grid) + / 10 ^ 100)) pdfs).
Proof.
  intros H. unfold loglike. cbn [fst snd]. apply rlsum_map. intros row I. do 3 f_equal. specialize (H row I). clear I. revert row H. induction grid as [|x l IH]; intros row H; [reflexivity|].
  destruct row as [|y row]; [discriminate|]. cbn [length] in *. rewrite rs_first. cbn [map combine]. change (rlsum (?a :: ?q)) with (a + rlsum q). cbn [fst snd nth]. f_equal. rewrite (IH row) by lia. reflexivity.
Qed.
Lemma loglike_low npdf grid pdfs m s : (forall x, 0 <= npdf x m s) -> grid <> [] -> (forall row, In row pdfs -> length row = length grid /\ forall y, In y row -> 0 <= y) ->
  INR (length pdfs) * ln (/ 10 ^ 100) <= loglike npdf grid pdfs (m, s).
Proof.
  intros P N H. rewrite loglike_exact by (intros row I; apply H, I). assert (T : 0 < / 10 ^ 100) by (apply Rinv_0_lt_compat, pow_lt; lra).
  induction pdfs as [|row l IH]; [cbn [length INR map]; change (rlsum []) with 0; lra|]. cbn [length map]. rewrite S_INR. change (rlsum (?a :: ?q)) with (a + rlsum q).
  assert (L : ln (/ 10 ^ 100) <= ln (rs (length grid) (fun i => npdf (nth i grid 0) m s * nth i row 0) / INR (length grid) + / 10 ^ 100)).
  { destruct (H row ltac:(now left)) as [H1 H2]. assert (Q : 0 <= rs (length grid) (fun i => npdf (nth i grid 0) m s * nth i row 0) / INR (length grid)).
    { apply Rmult_le_pos; [|left; apply Rinv_0_lt_compat, lt_0_INR; destruct grid; [congruence|cbn; lia]]. apply rs_nonneg. intros i Hi. apply Rmult_le_pos; [apply P|]. apply H2, nth_In. lia. }
    destruct Q as [Q|Q]; [left; apply ln_increasing; lra|rewrite <- Q, Rplus_0_l; lra]. }
  assert (R1 : INR (length l) * ln (/ 10 ^ 100) <= rlsum (map (fun row => ln (rs (length grid) (fun i => npdf (nth i grid 0) m s * nth i row 0) / INR (length grid) + / 10 ^ 100)) l)) by (apply IH; intros r I; apply H; now right).
  lra.
Qed.

(* ---- the bins that are used ---- *)
Definition keep (r : row) : bool := if Rlt_dec (1 / 10) (r_frac r) then true else false.
Lemma select_rows rows : select_bins (map r_len rows) (map r_src rows) (Some (map r_bkg rows)) (Some (map r_ratio rows)) (Some (map r_frac rows)) =
  map (fun r => mkBin (r_src r) (r_bkg r) (1 / r_ratio r) (r_frac r * r_len r)) (filter keep rows).
Proof.
  unfold select_bins, default_to. induction rows as [|r l IH]; [reflexivity|]. cbn [filter]. unfold keep at 1. unfold used in *. cbn [map combine filter fst]. destruct (Rlt_dec (1 / 10) (r_frac r)) as [K|K]; [|exact IH].
  cbn [map snd bins_of]. now rewrite IH.
Qed.
Lemma select_default_bkg t s ra fr : select_bins t s None ra fr = select_bins t s (Some (repeat 0 (length s))) ra fr.
Proof. reflexivity. Qed.
Lemma select_default_ratio t s b fr : select_bins t s b None fr = select_bins t s b (Some (repeat 1 (length s))) fr.
Proof. reflexivity. Qed.
Lemma select_default_frac t s b ra : select_bins t s b ra None = select_bins t s b ra (Some (repeat 1 (length s))).
Proof. reflexivity. Qed.
Lemma input_ok g pmf t s b ra fr grid : lscg_gen g (select_bins t s b ra fr) 100 = Ok grid -> bexvar_input g pmf t s b ra fr = Ok (grid, map (estimate_source_cr g pmf grid) (select_bins t s b ra fr)).
Proof. intros E. unfold bexvar_input. now rewrite E. Qed.
