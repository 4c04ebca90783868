(* P_bispec.v: the third-order cumulant *)
From Verif Require Import Np Lib M_utils Cplx M_fourier M_corr M_window S_corr S_bispec M_bispec P_segan P_corr.
From Coq Require Import Lra Lia.
Open Scope R_scope.

(* ---- tables ---- *)
Lemma mat_table {A} n (f : nat -> nat -> A) : table_is (mat n n f) n f.
Proof.
  split; [unfold mat; now rewrite map_length, seq_length|]. intros i Hi. exists (map (f i) (seq 0 n)). split.
  - unfold mat. rewrite nth_error_map, (nth_error_nth' _ 0%nat) by (now rewrite seq_length). now rewrite seq_nth by exact Hi.
  - split; [now rewrite map_length, seq_length|]. intros j Hj.
    rewrite nth_error_map, (nth_error_nth' _ 0%nat) by (now rewrite seq_length). now rewrite seq_nth by exact Hj.
Qed.
Lemma table_ext {A} (m : list (list A)) n f g : table_is m n f -> (forall i j, (i < n)%nat -> (j < n)%nat -> f i j = g i j) -> table_is m n g.
Proof.
  intros [HL H] E. split; [exact HL|]. intros i Hi. destruct (H i Hi) as (row & H1 & H2 & H3). exists row. split; [exact H1|]. split; [exact H2|].
  intros j Hj. rewrite (H3 j Hj). now rewrite E.
Qed.
Lemma at2_mat {A} (d : A) r c f i j : (i < r)%nat -> (j < c)%nat -> at2 d (mat r c f) i j = f i j.
Proof.
  intros Hi Hj. unfold at2, mat. rewrite (nth_indep _ [] (map (f 0%nat) (seq 0 c))) by (now rewrite map_length, seq_length).
  rewrite (map_nth (fun i => map (f i) (seq 0 c)) (seq 0 r) 0%nat), seq_nth by exact Hi. cbn [Nat.add].
  rewrite (nth_indep _ d (f i 0%nat)) by (now rewrite map_length, seq_length). now rewrite (map_nth (f i)), seq_nth by exact Hj.
Qed.
Lemma at2_table {A} (d : A) m n f i j : table_is m n f -> (i < n)%nat -> (j < n)%nat -> at2 d m i j = f i j.
Proof.
  intros [_ H] Hi Hj. destruct (H i Hi) as (row & H1 & H2 & H3). unfold at2. rewrite (nth_error_nth m i [] H1).
  now apply nth_error_nth, H3.
Qed.
Lemma map_map_table {A B} (g : A -> B) m n f : table_is m n f -> table_is (map (map g) m) n (fun i j => g (f i j)).
Proof.
  intros [HL H]. split; [now rewrite map_length|]. intros i Hi. destruct (H i Hi) as (row & H1 & H2 & H3). exists (map g row).
  split; [rewrite nth_error_map, H1; reflexivity|]. split; [now rewrite map_length|]. intros j Hj. now rewrite nth_error_map, (H3 j Hj).
Qed.

(* ---- the signal ---- *)
Definition signal_of (x : list R) : list R := map (fun c => c - rlsum x / INR (length x)) x.
Lemma signal_len x : length (signal_of x) = length x.
Proof. unfold signal_of. apply map_length. Qed.
Lemma signal_nth x t : (t < length x)%nat -> nth t (signal_of x) 0 = deviation x (Z.of_nat t).
Proof.
  intros H. unfold deviation. replace ((0 <=? Z.of_nat t) && (Z.of_nat t <? Z.of_nat (length x)))%Z%bool with true.
  - rewrite Nat2Z.id. unfold signal_of. rewrite (nth_indep _ 0 (0 - rlsum x / INR (length x))) by (now rewrite map_length).
    now rewrite (map_nth (fun c => c - rlsum x / INR (length x))).
  - symmetry. apply andb_true_intro. split; [apply Z.leb_le|apply Z.ltb_lt]; lia.
Qed.
Lemma deviation_out x t : (t < 0 \/ Z.of_nat (length x) <= t)%Z -> deviation x t = 0.
Proof.
  intros H. unfold deviation. destruct (Z.leb_spec 0 t); [|reflexivity]. destruct (Z.ltb_spec t (Z.of_nat (length x))); [lia|reflexivity].
Qed.

Lemma index_ok (l : list R) z : (0 <= z < Z.of_nat (length l))%Z -> np_index l z = Ok (nth (Z.to_nat z) l 0).
Proof.
  intros H. unfold np_index. destruct (Z.leb_spec 0 z); [|lia]. unfold get. now rewrite (nth_error_nth' l 0) by lia.
Qed.
Lemma index_range (l : list R) lo hi : (0 <= lo)%Z -> (hi <= Z.of_nat (length l))%Z ->
  map_result (np_index l) (zrange lo hi) = Ok (map (fun i => nth (Z.to_nat lo + i) l 0) (seq 0 (Z.to_nat (hi - lo)))).
Proof.
  intros H1 H2. unfold zrange. rewrite (map_result_total _ (fun z => nth (Z.to_nat z) l 0)).
  - f_equal. rewrite map_map. apply map_ext. intros i. f_equal. lia.
  - intros z Hz. apply in_map_iff in Hz. destruct Hz as (i & <- & Hi). apply in_seq in Hi. apply index_ok. lia.
Qed.
Lemma nth_padded (f : nat -> R) k z i : nth i (map f (seq 0 k) ++ repeat 0 z) 0 = if Nat.ltb i k then f i else 0.
Proof.
  destruct (Nat.ltb_spec i k) as [H|H].
  - rewrite app_nth1 by (now rewrite map_length, seq_length). rewrite (nth_indep _ 0 (f 0%nat)) by (now rewrite map_length, seq_length).
    now rewrite (map_nth f), seq_nth by exact H.
  - rewrite app_nth2 by (now rewrite map_length, seq_length). apply nth_repeat.
Qed.

(* the entries of the Toeplitz matrix *)
Lemma cumulant_table x L : (L < length x)%nat -> exists m, cumulant3 (signal_of x) L = Ok m /\
  table_is m (2 * L + 1) (fun i k => third_sum x (Z.of_nat i - Z.of_nat L) (Z.of_nat k - Z.of_nat L)).
Proof.
  intros HL. unfold cumulant3. set (s := signal_of x). set (n := length x) in *. assert (Ls : length s = n) by apply signal_len. rewrite Ls.
  rewrite index_range by lia. cbn [bind]. rewrite index_range by (rewrite ?rev_length; lia). cbn [bind].
  replace (Z.to_nat (Z.of_nat n - (Z.of_nat n - Z.of_nat L - 1))) with (S L) by lia.
  replace (Z.to_nat (Z.of_nat n - Z.of_nat L - 1)) with (n - L - 1)%nat by lia.
  replace (Z.to_nat (Z.of_nat n - Z.of_nat L)) with (n - L)%nat by lia. rewrite Nat2Z.id. cbv zeta.
  set (col := map _ (seq 0 (S L)) ++ _). set (row := map _ (seq 0 (n - L)) ++ _).
  assert (Lc : length col = (2 * L + 1)%nat) by (subst col; rewrite app_length, map_length, seq_length, repeat_length; lia).
  assert (Lr : length row = n) by (subst row; rewrite app_length, map_length, seq_length, repeat_length; lia).
  rewrite Lr, Nat.eqb_refl. cbn [negb].
  assert (T : forall i j, (i < 2 * L + 1)%nat -> (j < n)%nat ->
            at2 0 (toeplitz 0 col row) i j = deviation x (Z.of_nat (n - 1 - j) + (Z.of_nat i - Z.of_nat L))).
  { intros i j Hi Hj. unfold toeplitz. rewrite Lc, Lr, at2_mat by assumption. destruct (Nat.leb_spec j i) as [H|H].
    - unfold col. rewrite (nth_padded (fun i => nth (n - L - 1 + i) s 0)). destruct (Nat.ltb_spec (i - j) (S L)).
      + unfold s. rewrite signal_nth by (fold n; lia). f_equal. lia.
      + rewrite deviation_out; [reflexivity|]. fold n. lia.
    - unfold row. rewrite (nth_padded (fun i => nth (L + i) (rev s) 0)). destruct (Nat.ltb_spec (j - i) (n - L)).
      + rewrite rev_nth by (rewrite Ls; lia). rewrite Ls. unfold s. rewrite signal_nth by (fold n; lia). f_equal. lia.
      + rewrite deviation_out; [reflexivity|]. fold n. lia. }
  eexists. split; [reflexivity|]. eapply table_ext; [apply mat_table|]. intros i k Hi Hk. cbv beta. unfold third_sum. fold n.
  rewrite (rs_rev n (fun t => deviation x (Z.of_nat t) * _ * _)). apply rs_ext. intros j Hj.
  rewrite at2_mat, !T by assumption. rewrite rev_nth by (rewrite Ls; exact Hj). rewrite Ls.
  replace (n - S j)%nat with (n - 1 - j)%nat by lia. unfold s. rewrite signal_nth by (fold n; lia). ring.
Qed.

(* ---- the number of terms ---- *)
Lemma count_between lo hi n : Z.of_nat (length (filter (fun t => (lo <=? Z.of_nat t) && (Z.of_nat t <? hi))%Z%bool (seq 0 n))) =
  Z.max 0 (Z.min (Z.of_nat n) hi - Z.max 0 lo).
Proof.
  induction n as [|n IH]; [cbn [seq filter length]; lia|]. rewrite seq_S, filter_app, app_length, Nat2Z.inj_add, IH. cbn [Nat.add filter].
  destruct (Z.leb_spec lo (Z.of_nat n)); destruct (Z.ltb_spec (Z.of_nat n) hi); cbn [andb length]; lia.
Qed.
Lemma partners_count n a b : Z.of_nat (partners n a b) = Z.max 0 (Z.of_nat n - (Z.max 0 (Z.max a b) - Z.min 0 (Z.min a b))).
Proof.
  unfold partners. rewrite (filter_ext _ (fun t => (Z.max (- a) (- b) <=? Z.of_nat t) && (Z.of_nat t <? Z.min (Z.of_nat n - a) (Z.of_nat n - b)))%Z%bool).
  - rewrite count_between. lia.
  - intros t. unfold inside. apply Bool.eq_true_iff_eq. rewrite !Bool.andb_true_iff, !Z.leb_le, !Z.ltb_lt. lia.
Qed.
Lemma zrange_len lo hi : length (zrange lo hi) = Z.to_nat (hi - lo).
Proof. unfold zrange. now rewrite map_length, seq_length. Qed.
Lemma zrange_nth lo hi i : (i < Z.to_nat (hi - lo))%nat -> nth i (zrange lo hi) 0%Z = (lo + Z.of_nat i)%Z.
Proof.
  intros H. unfold zrange. rewrite (nth_indep _ 0%Z (lo + Z.of_nat 0)%Z) by (now rewrite map_length, seq_length).
  rewrite (map_nth (fun i => (lo + Z.of_nat i)%Z)), seq_nth by exact H. reflexivity.
Qed.
Lemma map_seq_nth {A} (f : nat -> A) k i d : (i < k)%nat -> nth i (map f (seq 0 k)) d = f i.
Proof.
  intros H. rewrite (nth_indep _ d (f 0%nat)) by (now rewrite map_length, seq_length). now rewrite (map_nth f), seq_nth by exact H.
Qed.
Lemma map_rev_seq {A} (f : nat -> A) k i d : (i < k)%nat -> nth i (map f (rev (seq 0 k))) d = f (k - 1 - i)%nat.
Proof.
  intros H. rewrite map_rev, rev_nth by (rewrite map_length, seq_length; exact H). rewrite map_length, seq_length, map_seq_nth by lia. f_equal. lia.
Qed.

Lemma scaling_table n L : (L < n)%nat -> table_is (scaling_matrix n L) (2 * L + 1)
  (fun i j => Z.of_nat (Nat.max 1 (partners n (Z.of_nat i - Z.of_nat L) (Z.of_nat j - Z.of_nat L)))).
Proof.
  intros HL. unfold scaling_matrix. cbv zeta.
  set (upper := mat (S L) (S L) (fun k j : nat => if Nat.leb k j then (Z.of_nat n - Z.of_nat (S L - S k))%Z else 0%Z)).
  set (scal := mat (S L) (S L) (fun i j : nat => (at2 0%Z upper i j + (if Nat.ltb j i then at2 0%Z upper j i else 0))%Z)).
  assert (SC : forall i j, (i < S L)%nat -> (j < S L)%nat -> at2 0%Z scal i j = (Z.of_nat n - Z.of_nat (L - Nat.min i j))%Z).
  { intros i j Hi Hj. unfold scal. rewrite at2_mat by assumption. unfold upper. rewrite at2_mat by assumption.
    destruct (Nat.ltb_spec j i) as [H|H].
    - rewrite at2_mat by assumption. destruct (Nat.leb_spec i j); [lia|]. destruct (Nat.leb_spec j i); lia.
    - destruct (Nat.leb_spec i j); lia. }
  set (toep := toeplitz _ _ _). set (conc := map _ (rev (seq 0 L))).
  assert (TP : forall i j, (i < L)%nat -> (j < L)%nat -> at2 0%Z toep i j = (Z.of_nat n - Z.of_nat (S L) + Z.of_nat i - Z.of_nat j)%Z).
  { intros i j Hi Hj. unfold toep, toeplitz. rewrite zrange_len, map_length, seq_length, at2_mat by lia. destruct (Nat.leb_spec j i).
    - rewrite zrange_nth by lia. lia.
    - rewrite map_seq_nth by lia. lia. }
  assert (Lt : length toep = L) by (unfold toep, toeplitz, mat; rewrite map_length, seq_length, zrange_len; lia).
  assert (Lj : length (toep ++ [conc]) = S L) by (rewrite app_length; cbn; lia).
  assert (Lsc : length scal = S L) by (unfold scal, mat; now rewrite map_length, seq_length).
  set (scal2 := map _ (combine scal (toep ++ [conc]))).
  assert (L2 : length scal2 = S L) by (unfold scal2; rewrite map_length, combine_length; lia).
  assert (R2 : forall i, (i < S L)%nat -> nth i scal2 [] = nth i scal [] ++ nth i (toep ++ [conc]) []).
  { intros i Hi. unfold scal2. rewrite (nth_indep _ [] ((fun p : list Z * list Z => fst p ++ snd p) ([], []))) by (rewrite map_length, combine_length; lia).
    rewrite (map_nth (fun p : list Z * list Z => fst p ++ snd p)). rewrite combine_nth by lia. reflexivity. }
  assert (W1 : forall i, (i < S L)%nat -> length (nth i scal []) = S L).
  { intros i Hi. unfold scal, mat. rewrite map_seq_nth by exact Hi. now rewrite map_length, seq_length. }
  assert (W2 : forall i, (i < S L)%nat -> length (nth i (toep ++ [conc]) []) = L).
  { intros i Hi. destruct (Nat.eq_dec i L) as [->|Hn].
    - rewrite app_nth2, Lt, Nat.sub_diag by lia. cbn [nth]. unfold conc. now rewrite map_length, rev_length, seq_length.
    - rewrite app_nth1 by lia. unfold toep, toeplitz, mat. rewrite zrange_len, map_seq_nth by lia. rewrite !map_length, !seq_length. lia. }
  set (F := fun i j => (Z.of_nat n - (Z.max 0 (Z.max (Z.of_nat i - Z.of_nat L) (Z.of_nat j - Z.of_nat L)) -
                        Z.min 0 (Z.min (Z.of_nat i - Z.of_nat L) (Z.of_nat j - Z.of_nat L))))%Z).
  assert (E2 : forall i j, (i < S L)%nat -> (j < 2 * L + 1)%nat -> at2 0%Z scal2 i j = F i j).
  { intros i j Hi Hj. unfold at2. rewrite R2 by exact Hi. destruct (Nat.lt_ge_cases j (S L)) as [H|H].
    - rewrite app_nth1 by (rewrite W1; assumption). change (at2 0%Z scal i j = F i j). rewrite SC by assumption. unfold F. lia.
    - rewrite app_nth2 by (rewrite W1; assumption). rewrite W1 by exact Hi. destruct (Nat.eq_dec i L) as [->|Hn].
      + rewrite app_nth2, Lt, Nat.sub_diag by lia. cbn [nth]. unfold conc. rewrite map_rev_seq by lia. rewrite SC by lia. unfold F. lia.
      + rewrite app_nth1 by lia. change (at2 0%Z toep i (j - S L) = F i j). rewrite TP by lia. unfold F. lia. }
  set (co := map _ (rev (seq 0 L))).
  assert (Lco : length co = L) by (unfold co; now rewrite map_length, rev_length, seq_length).
  assert (ALL : table_is (scal2 ++ co) (2 * L + 1) F).
  { split; [rewrite app_length; lia|]. intros i Hi. exists (nth i (scal2 ++ co) []). split; [apply nth_error_nth'; rewrite app_length; lia|].
    destruct (Nat.lt_ge_cases i (S L)) as [H|H].
    - rewrite app_nth1 by lia. assert (LL : length (nth i scal2 []) = (2 * L + 1)%nat) by (rewrite R2, app_length, W1, W2 by assumption; lia).
      split; [exact LL|]. intros j Hj. rewrite (nth_error_nth' _ 0%Z) by lia. f_equal. now apply E2.
    - rewrite app_nth2 by lia. rewrite L2. unfold co. rewrite map_rev_seq by lia.
      split; [now rewrite map_length, rev_length, seq_length|]. intros j Hj.
      rewrite (nth_error_nth' _ 0%Z) by (now rewrite map_length, rev_length, seq_length). rewrite map_rev_seq by exact Hj. f_equal.
      rewrite E2 by lia. unfold F. lia. }
  eapply table_ext; [apply map_map_table; exact ALL|]. intros i j Hi Hj. cbv beta. unfold F. rewrite Nat2Z.inj_max, partners_count.
  destruct (Z.ltb_spec (Z.of_nat n - (Z.max 0 (Z.max (Z.of_nat i - Z.of_nat L) (Z.of_nat j - Z.of_nat L)) -
                        Z.min 0 (Z.min (Z.of_nat i - Z.of_nat L) (Z.of_nat j - Z.of_nat L)))) 1); lia.
Qed.

Lemma normalized biased n L m f : (L < n)%nat -> table_is m (2 * L + 1) f -> table_is (normalize_cumulant3 biased n L m) (2 * L + 1)
  (fun i j => f i j / INR (if biased then n else Nat.max 1 (partners n (Z.of_nat i - Z.of_nat L) (Z.of_nat j - Z.of_nat L)))).
Proof.
  intros HL T. unfold normalize_cumulant3. destruct biased.
  - now apply (map_map_table (fun v => v / INR n)) in T.
  - cbv zeta. eapply table_ext; [apply mat_table|]. intros i j Hi Hj. cbv beta. rewrite (at2_table 0 m (2 * L + 1) f) by assumption.
    rewrite (at2_table 0%Z _ _ _ i j (scaling_table n L HL)) by assumption. now rewrite <- INR_IZR_INZ.
Qed.

(* the lags out of reach have no terms *)
Lemma third_none x a b : partners (length x) a b = 0%nat -> third_sum x a b = 0.
Proof.
  intros H. unfold third_sum. apply rs_zero. intros t Ht.
  destruct (inside (length x) (Z.of_nat t + a)) eqn:Ea; [destruct (inside (length x) (Z.of_nat t + b)) eqn:Eb|].
  - exfalso. unfold partners in H. apply length_zero_iff_nil in H.
    assert (I : In t (filter (fun t => inside (length x) (Z.of_nat t + a) && inside (length x) (Z.of_nat t + b))%bool (seq 0 (length x)))).
    { apply filter_In. split; [apply in_seq; lia|now rewrite Ea, Eb]. }
    rewrite H in I. exact I.
  - rewrite (deviation_out x (Z.of_nat t + b)); [ring|]. unfold inside in Eb. apply Bool.andb_false_iff in Eb.
    rewrite Z.leb_gt, Z.ltb_ge in Eb. lia.
  - rewrite (deviation_out x (Z.of_nat t + a)); [ring|]. unfold inside in Ea. apply Bool.andb_false_iff in Ea.
    rewrite Z.leb_gt, Z.ltb_ge in Ea. lia.
Qed.

(* ---- symmetries of the cumulant ---- *)
Lemma third_swap x a b : third_sum x a b = third_sum x b a.
Proof. unfold third_sum. apply rs_ext. intros. ring. Qed.
Lemma shift_sum n (a : nat) (F : Z -> R) : (forall t, (t < 0)%Z -> F t = 0) -> (forall t, (Z.of_nat n <= t + Z.of_nat a)%Z -> F t = 0) ->
  rs n (fun t => F (Z.of_nat t - Z.of_nat a)%Z) = rs n (fun t => F (Z.of_nat t)).
Proof.
  intros H1 H2. destruct (Nat.le_gt_cases a n) as [H|H].
  - transitivity (rs (a + (n - a)) (fun t => F (Z.of_nat t - Z.of_nat a)%Z)); [f_equal; lia|].
    transitivity (rs ((n - a) + a) (fun t => F (Z.of_nat t))); [|f_equal; lia]. rewrite !rs_add.
    rewrite (rs_zero a (fun i => F (Z.of_nat i - Z.of_nat a)%Z)) by (intros; apply H1; lia).
    rewrite (rs_zero a (fun i => F (Z.of_nat (n - a + i)))) by (intros; apply H2; lia).
    rewrite Rplus_0_l, Rplus_0_r. apply rs_ext. intros i Hi. f_equal. lia.
  - rewrite !rs_zero; [reflexivity| |]; intros; [apply H2|apply H1]; lia.
Qed.
Lemma third_reflect x a b : third_sum x a b = third_sum x (- a) (b - a).
Proof.
  assert (P : forall (k : nat) c, third_sum x (Z.of_nat k) c = third_sum x (- Z.of_nat k) (c - Z.of_nat k)).
  { intros k c. unfold third_sum.
    set (F := fun t : Z => deviation x t * deviation x (t + Z.of_nat k) * deviation x (t + c)).
    transitivity (rs (length x) (fun t => F (Z.of_nat t))); [reflexivity|]. rewrite <- (shift_sum (length x) k F).
    - apply rs_ext. intros t Ht. unfold F. replace (Z.of_nat t - Z.of_nat k + Z.of_nat k)%Z with (Z.of_nat t) by lia.
      replace (Z.of_nat t - Z.of_nat k + c)%Z with (Z.of_nat t + (c - Z.of_nat k))%Z by lia.
      replace (Z.of_nat t - Z.of_nat k)%Z with (Z.of_nat t + - Z.of_nat k)%Z by lia. ring.
    - intros t Ht. unfold F. rewrite (deviation_out x t) by lia. ring.
    - intros t Ht. unfold F. rewrite (deviation_out x (t + Z.of_nat k)) by lia. ring. }
  destruct (Z_le_gt_dec 0 a) as [H|H].
  - rewrite <- (Z2Nat.id a H). apply P.
  - pose proof (P (Z.to_nat (- a)) (b - a)%Z) as Q. rewrite Z2Nat.id in Q by lia. rewrite Q. f_equal; lia.
Qed.
Lemma partners_swap n a b : partners n a b = partners n b a.
Proof. apply Nat2Z.inj. rewrite !partners_count. lia. Qed.
Lemma partners_reflect n a b : partners n a b = partners n (- a) (b - a).
Proof. apply Nat2Z.inj. rewrite !partners_count. lia. Qed.
