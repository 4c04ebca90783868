(* P_flux.v: proofs about M_flux.v. *)
From Coq Require Import Reals Qreals Lqa Lia.
From Verif Require Import Np Lib M_gti M_seg M_utils Cplx M_fourier M_flux S_gti S_seg S_utils S_flux P_hist P_lc_make P_seg_cut P_avg2 S_fourier P_avg.
Open Scope Q_scope.

Lemma slice_filter {A} (p : A -> bool) (l : list A) : forall i j, (i <= j <= length l)%nat ->
  (forall k t, nth_error l k = Some t -> ((i <= k < j)%nat <-> p t = true)) -> slice l i j = filter p l.
Proof.
  unfold slice. induction l as [|a l IH]; intros i j Hij H; [now rewrite skipn_nil, firstn_nil|].
  assert (Hl : forall i j, (forall k, (i <= k < j)%nat <-> (i <= S k < S j)%nat /\ (0 < 1)%nat) \/ True) by now right. clear Hl.
  cbn [filter]. destruct i as [|i].
  - cbn [skipn]. rewrite Nat.sub_0_r. destruct j as [|j].
    + assert (Pa : p a = false) by (destruct (p a) eqn:E; [apply (H 0%nat a eq_refl) in E; lia|reflexivity]). rewrite Pa.
      specialize (IH 0%nat 0%nat ltac:(lia)). cbn [skipn Nat.sub] in IH. cbn [firstn]. cbn [firstn] in IH. apply IH.
      intros k t Hk. rewrite <- (H (S k) t Hk). lia.
    + assert (Pa : p a = true) by (apply (H 0%nat a eq_refl); lia). rewrite Pa. cbn [firstn]. f_equal.
      specialize (IH 0%nat j ltac:(cbn in Hij; lia)). cbn [skipn] in IH. rewrite Nat.sub_0_r in IH. apply IH.
      intros k t Hk. rewrite <- (H (S k) t Hk). lia.
  - destruct j as [|j]; [lia|]. assert (Pa : p a = false) by (destruct (p a) eqn:E; [apply (H 0%nat a eq_refl) in E; lia|reflexivity]).
    rewrite Pa. cbn [skipn]. replace (S j - S i)%nat with (j - i)%nat by lia. apply IH; [cbn in Hij; lia|].
    intros k t Hk. rewrite <- (H (S k) t Hk). lia.
Qed.
Lemma slice_len2 {A} (l : list A) i j : (i <= j <= length l)%nat -> length (slice l i j) = (j - i)%nat.
Proof. intros H. unfold slice. rewrite firstn_length, skipn_length. lia. Qed.

(* ---- the segments ---- *)
Lemma grid_ok g size eps st en : 0 < size -> 0 <= eps -> time_intervals_from_gtis g size 1 eps = Ok (st, en) -> segment_grid g size eps st.
Proof.
  intros Hs He E. apply time_intervals_ok in E. destruct E as (-> & _ & _).
  exists (map (segment_starts size 1 eps) g). split; [|now rewrite flat_map_concat_map].
  induction g as [|iv g IH]; cbn [map]; constructor; [|assumption]. clear IH. unfold segment_starts.
  destruct (qlt _ _) eqn:E; qb.
  - split; [|intros [|k] s; discriminate]. intros k. cbn [length]. split; [lia|]. intros C. exfalso.
    pose proof (zof_lt 0 (S k) ltac:(lia)) as Z. change (inject_Z (Z.of_nat 0)) with 0 in Z.
    assert (size <= nq (S k) * size) by nra. lra.
  - split.
    + intros k. unfold arange. rewrite map_length, seq_length, arange_len_spec by lra. rewrite zof_S. split; intros; lra.
    + intros k s Hk. apply nth_arange in Hk; [|lra]. destruct Hk as [-> _]. lra.
Qed.
Lemma grid_exists g size eps : 0 < size -> (exists a b, In (a, b) g /\ size < b - a + eps) ->
  exists st, time_intervals_from_gtis g size 1 eps = Ok (st, map (fun s => s + size) st).
Proof.
  intros Hs H. destruct (unbinned_total [] g size eps Hs) as (out & E); [intros i j a b _ A; destruct i; discriminate|assumption|].
  apply unbinned_main in E; [|assumption]. destruct E as ((st & E & _) & _). now exists st.
Qed.

(* ---- counts in bins ---- *)
Lemma q2r_list l l' : Forall2 Qeq l l' -> map Q2R l = map Q2R l'.
Proof. induction 1; cbn; [reflexivity|]. f_equal; [now apply Qeq_eqR|assumption]. Qed.
Lemma q2r_nat n : Q2R (nq n) = INR n.
Proof. rewrite INR_IZR_INZ. unfold Q2R, inject_Z. cbn. rewrite Rinv_1. apply Rmult_1_r. Qed.
Lemma count_filter_len {A} (p : A -> bool) l : count p l = length (filter p l).
Proof. induction l as [|a l IH]; cbn; [reflexivity|]. rewrite IH. now destruct (p a). Qed.
Lemma forall2_nth {A B} (P : A -> B -> Prop) : forall (l : list A) (l' : list B), length l = length l' ->
  (forall k a b, nth_error l k = Some a -> nth_error l' k = Some b -> P a b) -> Forall2 P l l'.
Proof.
  induction l as [|a l IH]; intros [|b l'] L H; try discriminate; constructor.
  - apply (H 0%nat); reflexivity.
  - apply IH; [now injection L|]. intros k x y Hx Hy. now apply (H (S k)).
Qed.
Lemma hist_counts numba tr n r : fst r < snd r -> (0 < n)%nat -> (forall t, In t tr -> ~ t == snd r) ->
  Forall2 Qeq (histogram numba tr n r) (map (fun k => nq (count (in_bin r n k) tr)) (seq 0 n)).
Proof.
  intros H Hn Ht. assert (T : Forall2 Qeq (histogram true tr n r) (map (fun k => nq (count (in_bin r n k) tr)) (seq 0 n))).
  { destruct (hist1d_main tr n r H Hn) as (L & P & _). apply forall2_nth; [cbn [histogram]; now rewrite map_length, seq_length|].
    intros k a b Ha Hb. assert (Hk : (k < n)%nat) by (rewrite <- L; apply nth_error_Some; cbn [histogram] in Ha; congruence).
    destruct (P k Hk) as (h & E & Eh). cbn [histogram] in Ha. rewrite E in Ha. injection Ha as <-.
    rewrite nth_error_map in Hb. rewrite (nth_error_nth' (seq 0 n) 0%nat) in Hb by (now rewrite seq_length).
    rewrite seq_nth in Hb by assumption. cbn in Hb. injection Hb as <-. exact Eh. }
  destruct numba; [exact T|]. pose proof (histogram_backends tr n r H Hn Ht) as B.
  clear - T B. revert T B. generalize (histogram true tr n r), (histogram false tr n r), (map (fun k => nq (count (in_bin r n k) tr)) (seq 0 n)).
  intros a b c T B. revert c T. induction B as [|x y a b E B IH]; intros c T; inversion T; subst; constructor; [|now apply IH].
  rewrite <- E. assumption.
Qed.
Lemma bin_inside_segment s size n k t : 0 < size -> (k < n)%nat ->
  qle (s + nq k * (size / nq n)) t = true -> qlt t (s + nq (S k) * (size / nq n)) = true -> s <= t /\ t < s + size.
Proof.
  intros Hs Hk A B. qb. assert (P : 0 < nq n) by (pose proof (zof_lt 0 n ltac:(lia)) as Z; change (nq 0) with 0 in Z; lra).
  assert (W : 0 < size / nq n) by (apply Qlt_shift_div_l; lra).
  assert (E : nq n * (size / nq n) == size) by (field; lra).
  pose proof (zof_0 k). pose proof (zof_le (S k) n ltac:(lia)) as L. split; [nra|].
  assert (nq (S k) * (size / nq n) <= size) by (rewrite <- E at 2; apply Qmult_le_compat_r; [exact L|lra]). lra.
Qed.
Lemma bin_counts numba times s size n : 0 < size -> (0 < n)%nat ->
  map Q2R (histogram numba (map (fun t => t - s) (filter (fun t => qle s t && qlt t (s + size))%bool times)) n (0, size)) = binned_counts times size n s.
Proof.
  intros Hs Hn. set (p := fun t => (qle s t && qlt t (s + size))%bool).
  rewrite (q2r_list _ _ (hist_counts numba (map (fun t => t - s) (filter p times)) n (0, size) Hs Hn ltac:(
    intros t Ht; apply in_map_iff in Ht; destruct Ht as (u & <- & Hu); apply filter_In in Hu; destruct Hu as [_ Hu]; unfold p in Hu;
    apply andb_prop in Hu; destruct Hu as [_ Hu]; cbn [snd]; qb; lra))).
  rewrite map_map. unfold binned_counts. apply map_ext_in. intros k Hk. apply in_seq in Hk. rewrite q2r_nat. f_equal.
  rewrite count_map, count_filter. unfold events_in. rewrite <- count_filter_len. apply count_ext. intros t _.
  unfold in_bin. cbn [fst snd].
  assert (E1 : nq k * ((size - 0) / nq n) == nq k * (size / nq n)) by (apply Qmult_comp; [reflexivity|]; unfold Qdiv; apply Qmult_comp; [lra|reflexivity]).
  assert (E2 : inject_Z (Z.of_nat k + 1) * ((size - 0) / nq n) == nq (S k) * (size / nq n)).
  { replace (Z.of_nat k + 1)%Z with (Z.of_nat (S k)) by lia. apply Qmult_comp; [reflexivity|]; unfold Qdiv; apply Qmult_comp; [lra|reflexivity]. }
  assert (G : ((qle (0 + nq k * ((size - 0) / nq n)) (t - s) && qlt (t - s) (0 + inject_Z (Z.of_nat k + 1) * ((size - 0) / nq n)))
              = (qle (s + nq k * (size / nq n)) t && qlt t (s + nq (S k) * (size / nq n))))%bool).
  { apply eq_true_iff_eq. rewrite !andb_true_iff, !qle_t, !qlt_t. rewrite E1, E2. split; intros [A B]; split; lra. }
  rewrite G. destruct (qle (s + nq k * (size / nq n)) t) eqn:A; [|apply andb_false_r].
  destruct (qlt t (s + nq (S k) * (size / nq n))) eqn:B; [|apply andb_false_r].
  destruct (bin_inside_segment s size n k t Hs ltac:(lia) A B) as [C D]. unfold p. apply qle_t in C. apply qlt_t in D. now rewrite C, D.
Qed.

(* ---- events ---- *)
Lemma unbinned_form times g size : 0 < size -> nondecreasing times -> (exists a b, In (a, b) g /\ size < b - a + (1 # 100000)) ->
  exists st, segment_grid g size (1 # 100000) st /\ st <> [] /\
    segments_unbinned times g size = Ok (map (fun s => (s, s + size, (searchsorted_left times s, searchsorted_left times (s + size)))) st) /\
    forall s, In s st -> let i := searchsorted_left times s in let j := searchsorted_left times (s + size) in
      (i <= j <= length times)%nat /\ slice times i j = filter (fun t => qle s t && qlt t (s + size))%bool times /\
      events_in times s (s + size) = (j - i)%nat.
Proof.
  intros Hs Ht Hg. destruct (grid_exists g size _ Hs Hg) as (st & E). exists st.
  split; [eapply grid_ok; [exact Hs| |exact E]; lra|]. split; [apply time_intervals_ok in E; tauto|]. split.
  - unfold segments_unbinned. rewrite E. cbn [bind fst snd]. f_equal. clear. induction st as [|s st IH]; cbn [map combine fst snd]; [reflexivity|].
    f_equal. apply IH.
  - intros s Hin i j. destruct (ssl_spec times s Ht) as [A1 A2]. destruct (ssl_spec times (s + size) Ht) as [B1 B2].
    assert (Hij : (i <= j <= length times)%nat) by (split; [apply ssl_mono; [assumption|lra]|assumption]).
    assert (Sl : slice times i j = filter (fun t => qle s t && qlt t (s + size))%bool times).
    { apply slice_filter; [assumption|]. intros k t Hk. rewrite andb_true_iff, qle_t, qlt_t, <- (B1 _ _ Hk). fold j.
      destruct (A1 _ _ Hk) as [C1 C2]. fold i in C1, C2. split.
      - intros [X Y]. split; [|assumption]. apply Qnot_lt_le. intros C. apply C2 in C. lia.
      - intros [X Y]. split; [|assumption]. destruct (le_lt_dec i k) as [L|L]; [assumption|]. apply C1 in L. lra. }
    split; [assumption|]. split; [assumption|]. unfold events_in. rewrite <- Sl. now apply slice_len2.
Qed.
Lemma flux_events numba times g size n dt errors : 0 < size -> (0 < n)%nat -> nondecreasing times ->
  (exists a b, In (a, b) g /\ size < b - a + (1 # 100000)) ->
  exists st l, segment_grid g size (1 # 100000) st /\ st <> [] /\
    get_flux_iterable numba times g (Some size) (Some n) dt None errors = Ok l /\ map real_item l = map (counts_segment times size n) st.
Proof.
  intros Hs Hn Ht Hg. destruct (unbinned_form times g size Hs Ht Hg) as (st & G & N & E & F). exists st. eexists.
  split; [exact G|]. split; [exact N|]. unfold get_flux_iterable. rewrite E. cbn [bind fst snd]. split; [reflexivity|].
  rewrite !map_map. apply map_ext_in. intros s Hin. destruct (F s Hin) as (Hij & Sl & Ev). unfold counts_segment. rewrite Ev.
  set (i := searchsorted_left times s) in *. set (j := searchsorted_left times (s + size)) in *.
  destruct (Z.ltb_spec (Z.of_nat j - Z.of_nat i) 2) as [L|L].
  - rewrite (proj2 (Nat.ltb_lt (j - i) 2)) by lia. reflexivity.
  - rewrite (proj2 (Nat.ltb_ge (j - i) 2)) by lia. cbn [real_item option_map fst snd]. do 2 f_equal. rewrite Sl. now apply bin_counts.
Qed.
