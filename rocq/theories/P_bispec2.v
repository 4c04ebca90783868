(* P_bispec2.v: windows, transform and the whole bispectrum *)
From Verif Require Import Np Lib M_utils Cplx M_fourier M_corr M_window S_corr S_window S_bispec M_bispec P_segan P_corr P_lag P_window P_bispec.
From Coq Require Import Lra Lia.
Open Scope R_scope.

(* ---- windows ---- *)
Lemma window_reals_ok l N v : window_is l N v -> window_reals l = Some (map v (seq 0 N)).
Proof.
  intros [HL H].
  assert (E : l = map (fun n => Some (v n)) (seq 0 N)).
  { apply (nth_ext _ _ None None); [now rewrite map_length, seq_length|]. intros n Hn. rewrite HL in Hn. rewrite map_seq_nth by exact Hn.
    apply nth_error_nth. now apply H. }
  rewrite E. clear. induction (seq 0 N) as [|a s IH]; [reflexivity|]. cbn [map window_reals fold_right].
  unfold window_reals in IH. now rewrite IH.
Qed.
(* the values of the two-dimensional window *)
Lemma window_table L v : table_is (bispec_window L (map v (seq 0 (2 * L + 1)))) (2 * L + 1)
  (fun i j => (let d := Z.abs_nat (Z.of_nat i + Z.of_nat j - 2 * Z.of_nat L) in if Nat.ltb d L then v (L + d)%nat else 0) * v j * v i).
Proof.
  unfold bispec_window. cbv zeta. set (we := map v (seq 0 (2 * L + 1))).
  set (w := firstn L (skipn L we ++ repeat 0 L) ++ repeat 0 (2 * L + 1 - L)).
  assert (Lwe : length we = (2 * L + 1)%nat) by (unfold we; now rewrite map_length, seq_length).
  assert (Lf : length (firstn L (skipn L we ++ repeat 0 L)) = L) by (rewrite firstn_length, app_length, skipn_length, repeat_length; lia).
  assert (Lw : length w = (2 * L + 1)%nat) by (unfold w; rewrite app_length, Lf, repeat_length; lia).
  assert (Wn : forall d, nth d w 0 = if Nat.ltb d L then v (L + d)%nat else 0).
  { intros d. unfold w. destruct (Nat.ltb_spec d L) as [H|H].
    - rewrite app_nth1 by lia. rewrite <- (firstn_skipn L (skipn L we ++ repeat 0 L)) in Lf |- *.
      assert (E : nth d (firstn L (skipn L we ++ repeat 0 L)) 0 = nth d (skipn L we ++ repeat 0 L) 0).
      { rewrite <- (firstn_skipn L (skipn L we ++ repeat 0 L)) at 2. rewrite app_nth1; [reflexivity|]. rewrite firstn_length, app_length, skipn_length. lia. }
      rewrite firstn_skipn, E, app_nth1 by (rewrite skipn_length; lia).
      assert (E2 : nth d (skipn L we) 0 = nth (L + d) we 0).
      { rewrite <- (firstn_skipn L we) at 2. rewrite app_nth2 by (rewrite firstn_length; lia). f_equal. rewrite firstn_length. lia. }
      rewrite E2. unfold we. now rewrite map_seq_nth by lia.
    - rewrite app_nth2 by lia. apply nth_repeat. }
  clearbody w. set (row := nth 0 w 0 :: repeat 0 (2 * L)).
  assert (Lr : length row = (2 * L + 1)%nat) by (unfold row; cbn [length]; rewrite repeat_length; lia).
  assert (T : forall i j, (i < 2 * L + 1)%nat -> (j < 2 * L + 1)%nat -> at2 0 (toeplitz 0 w row) i j = if Nat.leb j i then nth (i - j) w 0 else 0).
  { intros i j Hi Hj. unfold toeplitz. rewrite Lw, Lr, at2_mat by assumption. destruct (Nat.leb_spec j i); [reflexivity|].
    unfold row. replace (j - i)%nat with (S (j - i - 1)) by lia. cbn [nth]. apply nth_repeat. }
  assert (W2 : forall i j, (i < 2 * L + 1)%nat -> (j < 2 * L + 1)%nat -> at2 0 (repeat we (2 * L + 1)) i j = v j).
  { intros i j Hi Hj. unfold at2. rewrite (nth_indep _ [] we) by (now rewrite repeat_length). rewrite nth_repeat. unfold we. now apply map_seq_nth. }
  eapply table_ext; [apply mat_table|]. intros i j Hi Hj. cbv beta. rewrite !W2 by assumption. f_equal. f_equal.
  rewrite at2_mat by lia. cbv zeta. set (j' := (2 * L + 1 - 1 - j)%nat). assert (Hj' : (j' < 2 * L + 1)%nat) by (unfold j'; lia).
  rewrite T by assumption. destruct (Nat.ltb_spec i j') as [H|H].
  - rewrite T by assumption. destruct (Nat.leb_spec j' i); [lia|]. destruct (Nat.leb_spec i j'); [|lia]. rewrite Wn, Rplus_0_l.
    replace (Z.abs_nat (Z.of_nat i + Z.of_nat j - 2 * Z.of_nat L)) with (j' - i)%nat by (unfold j'; lia). reflexivity.
  - destruct (Nat.leb_spec j' i); [|lia]. rewrite Wn, Rplus_0_r.
    replace (Z.abs_nat (Z.of_nat i + Z.of_nat j - 2 * Z.of_nat L)) with (i - j')%nat by (unfold j'; lia). reflexivity.
Qed.

(* ---- the transform ---- *)
Lemma half_odd L : ((2 * L + 1) / 2 = L)%nat.
Proof. rewrite Nat.mul_comm, Nat.div_add_l by lia. cbn. lia. Qed.
Lemma mod_of_nat a n : (0 < n)%nat -> Z.of_nat (a mod n) = (Z.of_nat a mod Z.of_nat n)%Z.
Proof. intros H. apply Nat2Z.inj_mod. Qed.
Lemma cis_cong n a b q : (0 < n)%nat -> (a = b + q * Z.of_nat n)%Z -> cis n a = cis n b.
Proof. intros Hn ->. apply cis_mod; [exact Hn|]. apply Z_mod_plus_full. Qed.
(* a sum over positions moved by L, with the phase of a lag *)
Lemma unshift_sum L (f : nat -> cx) (k : Z) k' q : (k' = k + q * Z.of_nat (2 * L + 1))%Z -> let N := (2 * L + 1)%nat in
  cs N (fun u => cmul (f ((u + L) mod N)%nat) (cis N (- (k' * Z.of_nat u)))) = cs N (fun i => cmul (f i) (cis N (- (k * (Z.of_nat i - Z.of_nat L))))).
Proof.
  intros Hk N. assert (HN : (0 < N)%nat) by (unfold N; lia).
  set (g := fun j : nat => cmul (f (j mod N)%nat) (cis N (- (k * (Z.of_nat j - Z.of_nat L))))).
  transitivity (cs N (fun u => g (u + L)%nat)).
  { apply cs_ext. intros u Hu. unfold g. f_equal. apply (cis_cong _ _ _ (- (q * Z.of_nat u))); [exact HN|]. rewrite Hk. unfold N. nia. }
  rewrite cs_shift.
  - apply cs_ext. intros i Hi. unfold g. now rewrite Nat.mod_small by exact Hi.
  - intros j. unfold g. f_equal.
    + f_equal. rewrite <- (Nat.mul_1_l N) at 1. apply Nat.mod_add. lia.
    + apply (cis_cong _ _ _ (- k)); [exact HN|]. lia.
Qed.
Lemma shifted_phase L a : (a < 2 * L + 1)%nat -> let N := (2 * L + 1)%nat in (shifted N a < N)%nat /\
  exists q, (Z.of_nat (shifted N a) = (Z.of_nat a - Z.of_nat L) + q * Z.of_nat N)%Z.
Proof.
  intros Ha N. unfold shifted. split; [apply Nat.mod_upper_bound; unfold N; lia|].
  unfold N. rewrite half_odd. replace (2 * L + 1 - L)%nat with (S L) by lia.
  destruct (Nat.lt_ge_cases (a + S L) (2 * L + 1)) as [H|H].
  - rewrite Nat.mod_small by exact H. exists 1%Z. lia.
  - exists 0%Z. replace (a + S L)%nat with ((a - L) + 1 * (2 * L + 1))%nat by lia. rewrite Nat.mod_add, Nat.mod_small by lia. lia.
Qed.
Lemma rtoc_scal r z : cmul (rtoc r) z = cscal z r.
Proof. unfold cmul, rtoc, cscal. apply cx_eq; cbn; ring. Qed.
Lemma transform_table L m f : table_is m (2 * L + 1) f ->
  let lag i := (Z.of_nat i - Z.of_nat L)%Z in forall c, (forall i j, (i < 2 * L + 1)%nat -> (j < 2 * L + 1)%nat -> f i j = c (lag i) (lag j)) ->
  table_is (centred_fft2 (2 * L + 1) m) (2 * L + 1) (fun a b => transform2 L c (lag a) (lag b)).
Proof.
  intros T lag c Hc. unfold centred_fft2. cbv zeta. eapply table_ext; [apply mat_table|]. intros a b Ha Hb. cbv beta.
  destruct (shifted_phase L a Ha) as [Ka [qa Ea]]. destruct (shifted_phase L b Hb) as [Kb [qb Eb]].
  set (N := (2 * L + 1)%nat) in *. assert (HN : (0 < N)%nat) by (unfold N; lia). rewrite at2_mat by assumption.
  set (a' := shifted N a) in *. set (b' := shifted N b) in *.
  transitivity (cs N (fun u => cmul (cs N (fun v => cmul (rtoc (at2 0 m ((u + L) mod N) ((v + L) mod N))) (cis N (- (Z.of_nat b' * Z.of_nat v))))) (cis N (- (Z.of_nat a' * Z.of_nat u))))).
  { apply cs_ext. intros u Hu. rewrite <- cs_mul. apply cs_ext. intros v Hv. rewrite at2_mat by assumption. unfold unshifted, N. rewrite half_odd. fold N.
    rewrite !Nat2Z.inj_mul. generalize (cis N (- (Z.of_nat a' * Z.of_nat u))), (cis N (- (Z.of_nat b' * Z.of_nat v))). intros z1 z2.
    apply cx_eq; cbn; ring. }
  transitivity (cs N (fun u => cmul (cs N (fun v => cmul (rtoc (at2 0 m ((u + L) mod N) v)) (cis N (- (lag b * (Z.of_nat v - Z.of_nat L)))))) (cis N (- (Z.of_nat a' * Z.of_nat u))))).
  { apply cs_ext. intros u Hu. f_equal. exact (unshift_sum L (fun v => rtoc (at2 0 m ((u + L) mod N) v)) (lag b) (Z.of_nat b') qb Eb). }
  pose proof (unshift_sum L (fun i => cs N (fun v => cmul (rtoc (at2 0 m i v)) (cis N (- (lag b * (Z.of_nat v - Z.of_nat L)))))) (lag a) (Z.of_nat a') qa Ea) as U.
  cbv zeta in U. fold N in U. rewrite U. clear U.
  unfold transform2. cbv zeta. fold N. apply cs_ext. intros i Hi. rewrite <- cs_mul. apply cs_ext. intros j Hj.
  rewrite (at2_table 0 m N f) by assumption. rewrite Hc by assumption.
  replace (- (lag a * (Z.of_nat i - Z.of_nat L) + lag b * (Z.of_nat j - Z.of_nat L)))%Z with
          (- (lag a * (Z.of_nat i - Z.of_nat L)) + - (lag b * (Z.of_nat j - Z.of_nat L)))%Z by lia.
  rewrite cis_add. generalize (cis N (- (lag a * (Z.of_nat i - Z.of_nat L)))), (cis N (- (lag b * (Z.of_nat j - Z.of_nat L)))). intros z1 z2.
  fold (lag i) (lag j). generalize (c (lag i) (lag j)). intros r. apply cx_eq; cbn; ring.
Qed.
Lemma conj_scal z r : cconj (cscal z r) = cscal (cconj z) r.
Proof. apply cx_eq; cbn; ring. Qed.
Lemma cs_conj n f : cconj (cs n f) = cs n (fun i => cconj (f i)).
Proof.
  induction n as [|n IH]; [rewrite !cs_0; apply cx_eq; cbn; ring|]. rewrite !cs_S, <- IH. apply cx_eq; cbn; ring.
Qed.
Lemma transform_conj L c k1 k2 : transform2 L c (- k1) (- k2) = cconj (transform2 L c k1 k2).
Proof.
  unfold transform2. rewrite cs_conj. apply cs_ext. intros i Hi. rewrite cs_conj. apply cs_ext. intros j Hj. rewrite conj_scal, cis_conj. f_equal. f_equal. lia.
Qed.
Lemma transform_swap L c k1 k2 : (forall a b, c a b = c b a) -> transform2 L c k1 k2 = transform2 L c k2 k1.
Proof.
  intros H. unfold transform2. rewrite cs_swap. apply cs_ext. intros i Hi. apply cs_ext. intros j Hj. rewrite H. f_equal. f_equal. lia.
Qed.

(* ---- everything together ---- *)
Lemma bispectrum_parts counts dt maxlag biased : let n := length counts in let L := lag_limit n maxlag in (L < n)%nat ->
  exists b, make_bispectrum counts dt maxlag None biased = Ok b /\ bi_maxlag b = L /\
  table_is (bi_cum3 b) (2 * L + 1) (fun i j => third_sum counts (Z.of_nat i - Z.of_nat L) (Z.of_nat j - Z.of_nat L) /
     divisor biased n (Z.of_nat i - Z.of_nat L) (Z.of_nat j - Z.of_nat L)) /\
  table_is (bi_bispec b) (2 * L + 1) (fun i j => transform2 L (fun a b => third_sum counts a b / divisor biased n a b)
     (Z.of_nat i - Z.of_nat L) (Z.of_nat j - Z.of_nat L)) /\
  bi_lags b = map (fun i => (INR i - INR L) * dt) (seq 0 (2 * L + 1)) /\
  (dt <> 0 -> (0 < L)%nat -> bi_freq b = map (fun i => Some ((INR i - INR L) / (2 * INR L * dt))) (seq 0 (2 * L + 1))).
Proof.
  intros n L HL. unfold make_bispectrum. fold (lag_limit (length counts) maxlag). fold n. fold L. cbn [bind].
  change (map (fun c => c - rlsum counts / INR n) counts) with (signal_of counts). destruct (cumulant_table counts L HL) as (m & Em & Tm). cbv zeta. rewrite Em. cbn [bind].
  pose proof (normalized biased n L m _ HL Tm) as Tn. eexists. split; [reflexivity|]. cbn [bi_maxlag bi_cum3 bi_bispec bi_lags bi_freq].
  split; [reflexivity|]. split; [exact Tn|]. split; [|split].
  - eapply table_ext; [eapply (transform_table L _ _ Tn (fun a b => third_sum counts a b / divisor biased n a b)); intros; reflexivity|]. reflexivity.
  - unfold zrange. rewrite map_map. replace (Z.to_nat (Z.of_nat L + 1 - - Z.of_nat L)) with (2 * L + 1)%nat by lia. apply map_ext. intros i.
    rewrite plus_IZR, opp_IZR, <- !INR_IZR_INZ. ring.
  - intros Hdt HL0. unfold zrange. rewrite !map_map. replace (Z.to_nat (Z.of_nat L + 1 - - Z.of_nat L)) with (2 * L + 1)%nat by lia. apply map_ext. intros i.
    destruct (Nat.eqb_spec L 0); [lia|]. f_equal. rewrite plus_IZR, opp_IZR, <- !INR_IZR_INZ. field. split; [exact Hdt|apply not_0_INR; lia].
Qed.

Lemma windowed_parts counts dt maxlag w biased l v : let n := length counts in let L := lag_limit n maxlag in (L < n)%nat ->
  create_window (Z.of_nat (2 * L + 1)) w = Ok l -> window_is l (2 * L + 1) v -> symmetric (2 * L + 1) v ->
  exists b b0, make_bispectrum counts dt maxlag (Some w) biased = Ok b /\ make_bispectrum counts dt maxlag None biased = Ok b0 /\
  bi_maxlag b = bi_maxlag b0 /\ bi_cum3 b = bi_cum3 b0 /\ bi_lags b = bi_lags b0 /\ bi_freq b = bi_freq b0 /\
  table_is (bi_bispec b) (2 * L + 1) (fun i j => transform2 L (fun t1 t2 => third_sum counts t1 t2 / divisor biased n t1 t2 *
     ((if Z.ltb (Z.abs (t1 + t2)) (Z.of_nat L) then v (Z.to_nat (Z.of_nat L + (t1 + t2))) else 0) *
       v (Z.to_nat (Z.of_nat L + t2)) * v (Z.to_nat (Z.of_nat L + t1)))) (Z.of_nat i - Z.of_nat L) (Z.of_nat j - Z.of_nat L)).
Proof.
  intros n L HL Ew Hw Sv. destruct (bispectrum_parts counts dt maxlag biased HL) as (b0 & E0 & P1 & P2 & _ & _ & _).
  unfold make_bispectrum in E0 |- *. fold (lag_limit (length counts) maxlag) in E0 |- *. fold n in E0, P2 |- *. fold L in E0, P1, P2 |- *.
  cbv zeta in E0 |- *. rewrite Ew. cbn [bind] in E0 |- *. rewrite (window_reals_ok _ _ _ Hw). cbn [bind] in E0 |- *. change (map (fun c => c - rlsum counts / INR n) counts) with (signal_of counts) in E0 |- *.
  destruct (cumulant3 (signal_of counts) L) as [m|e]; [|discriminate]. cbn [bind] in E0 |- *. injection E0 as <-.
  cbn [bi_maxlag bi_cum3 bi_bispec bi_lags bi_freq] in P2 |- *.
  eexists. eexists. split; [reflexivity|]. split; [reflexivity|]. cbn [bi_maxlag bi_cum3 bi_bispec bi_lags bi_freq].
  split; [reflexivity|]. split; [reflexivity|]. split; [reflexivity|]. split; [reflexivity|].
  set (N := (2 * L + 1)%nat) in *.
  eapply transform_table; [apply mat_table|]. intros i j Hi Hj. cbv beta. rewrite (at2_table 0 _ _ _ i j P2) by assumption.
  pose proof (window_table L v) as WT. fold N in WT. rewrite (at2_table 0 _ _ _ i j WT) by assumption. cbv zeta. f_equal.
  replace (Z.to_nat (Z.of_nat L + (Z.of_nat j - Z.of_nat L))) with j by lia.
  replace (Z.to_nat (Z.of_nat L + (Z.of_nat i - Z.of_nat L))) with i by lia. f_equal. f_equal.
  set (d := Z.abs_nat (Z.of_nat i + Z.of_nat j - 2 * Z.of_nat L)).
  destruct (Nat.ltb_spec d L) as [H|H]; destruct (Z.ltb_spec (Z.abs (Z.of_nat i - Z.of_nat L + (Z.of_nat j - Z.of_nat L))) (Z.of_nat L)) as [H'|H'];
    try (unfold d in *; lia); [|reflexivity].
  destruct (Z_le_gt_dec 0 (Z.of_nat i - Z.of_nat L + (Z.of_nat j - Z.of_nat L))) as [G|G].
  - f_equal. unfold d. lia.
  - rewrite Sv by lia. f_equal. unfold d, N. lia.
Qed.
