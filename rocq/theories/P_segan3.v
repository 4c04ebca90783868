(* P_segan3.v: proofs about estimate_segment_size (M_segan.v). *)
From Verif Require Import Np Lib S_gti S_seg S_base S_flux S_segan M_gti M_seg M_merge M_utils M_lc M_base M_segan P_gti_cross P_gti_final P_seg_cut P_seg_regions P_base P_base2 P_base3 P_helpers P_flux P_seg_bins P_segan P_segan2.
From Coq Require Import Lqa Lia Permutation.
Open Scope Q_scope.

Lemma mask_single numba time lo hi : time <> [] -> nondecreasing time -> lo <= hi -> (forall t, In t time -> lo <= t /\ t <= hi) -> forall d, d == 0 ->
  exists new, create_gti_mask numba time [(lo, hi)] (0, 0) 0 (Some d) gti_eps = Ok (repeat true (length time), new).
Proof.
  intros N Ht Hlh Hin d Hd. assert (D2 : d / 2 == 0) by (rewrite Hd; reflexivity). assert (W : well_formed [(lo, hi)]).
  { apply check_gtis_iff. cbn. destruct (qle lo hi) eqn:B; [|qb; lra]. destruct (qlt hi lo) eqn:B'; [qb; lra|reflexivity]. }
  destruct (mask_ok numba time [(lo, hi)] d N Ht ltac:(discriminate) W) as (m & new & E & L & F).
  - right. split; [lra|]. apply gaps_between_ss. repeat constructor.
  - right. intros a b [H|[]]. injection H as <- <-. destruct time as [|t time]; [contradiction|]. exists t. split; [now left|].
    destruct (Hin t (or_introl eq_refl)). unfold gti_eps; split; lra.
  - exists new. rewrite E. do 2 f_equal. apply all_true; [assumption|]. intros i Hi. destruct (nth_error_ex time i Hi) as [t Et]. apply (F i t Et).
    exists lo, hi. split; [now left|]. destruct (Hin t (nth_error_In _ _ Et)). unfold gti_eps; split; lra.
Qed.
Lemma in_keep {A} (f : A -> bool) l x : In x (keep (map f l) l) -> In x l /\ f x = true.
Proof. rewrite keep_filter. apply filter_In. Qed.
Lemma keep_nondec (f : Q -> bool) l : nondecreasing l -> nondecreasing (keep (map f l) l).
Proof.
  rewrite keep_filter. unfold nondecreasing. rewrite <- !(ss_nth Qle). intros H. induction H as [|a l H IH F]; [constructor|]. cbn [filter].
  destruct (f a); [|assumption]. constructor; [assumption|]. rewrite Forall_forall in *. intros x Hx. apply F. now apply filter_In in Hx.
Qed.
Lemma find_keep k m c : find_col k (keep_cols m c) = option_map (keep m) (find_col k c).
Proof. induction c as [|[n v] c IH]; [reflexivity|]. cbn [keep_cols map find_col fst snd]. destruct (Nat.eqb n k); [reflexivity|exact IH]. Qed.
Lemma find_col_in k c v : find_col k c = Some v -> In (k, v) c.
Proof. induction c as [|[n w] c IH]; [discriminate|]. cbn [find_col]. destruct (Nat.eqb_spec n k) as [->|N]; [injection 1 as ->; now left|]. intros H. right. auto. Qed.
Lemma ts_sum_window numba counts lc s lo hi : nondecreasing (s_time s) -> s_dt s == 0 -> regular s -> lo <= hi -> (0 < samples_in (s_time s) lo hi)%nat ->
  ts_sum numba counts (cut_window lc s lo hi) = Ok (window_sum counts s lo hi).
Proof.
  intros Ht Hd R H P. unfold ts_sum, mask_of, cut_window, piece_of. cbn [s_gti s_time s_cols s_dt]. set (m := map (in_window lo hi) (s_time s)).
  assert (L : length (keep m (s_time s)) = samples_in (s_time s) lo hi) by (subst m; now rewrite keep_filter).
  destruct (mask_single numba (keep m (s_time s)) lo hi) with (d := s_dt s) as (new & E); [| |assumption| |assumption|].
  - intros E. rewrite E in L. cbn in L. lia.
  - now apply keep_nondec.
  - intros t Hin. apply in_keep in Hin. destruct Hin as [_ Hin]. unfold in_window in Hin. apply andb_true_iff in Hin. destruct Hin as [X Y]. qb. split; lra.
  - rewrite E. cbn [bind fst]. rewrite find_keep. unfold window_sum. rewrite <- find_column. destruct (find_col counts (s_cols s)) as [c|] eqn:F; cbn [option_map].
    + f_equal. f_equal. apply select_all. apply keep_len. destruct R as [R _]. apply find_col_in in F. exact (R _ _ F).
    + f_equal. rewrite select_all by reflexivity. now rewrite L.
Qed.
Lemma analyze_sum lc numba counts srt s g seg : sorts_by t_end srt -> good g -> gti_of s = Some g ->
  nondecreasing (s_time s) -> s_dt s == 0 -> regular s -> 0 < seg -> (exists a b, In (a, b) g /\ seg < b - a + (1 # 100000)) ->
  exists st, segment_grid g seg (1 # 100000) st /\
  analyze_segments lc srt (ts_sum numba counts) s (Some seg) 1 =
  Ok (st, map (fun a => a + seg) st,
      map (fun a => window_sum counts s a (a + seg)) (filter (fun a => Nat.leb 2 (samples_in (s_time s) a (a + seg))) st)).
Proof.
  intros Hs G Hg Ht Hd R Hseg Hl. destruct (grid_exists g seg _ Hseg Hl) as (st & E). exists st.
  split; [eapply grid_ok; [exact Hseg| |exact E]; lra|]. unfold analyze_segments. rewrite Hg.
  assert (Z : qlt 0 (s_dt s) = false) by (destruct (qlt 0 (s_dt s)) eqn:Z; [qb; lra|reflexivity]). rewrite Z, E. cbn [bind fst snd].
  assert (C : combine st (map (fun a => a + seg) st) = map (fun a => (a, a + seg)) st) by (clear; induction st as [|a st IH]; cbn; [reflexivity|]; now f_equal).
  rewrite C. destruct (touch_fields s g Hg) as (T1 & T2 & T3 & T4 & T5 & T6 & T7).
  rewrite <- T2. rewrite (analyze_windows lc srt (ts_sum numba counts) (touch s) g (map (fun a => (a, a + seg)) st) Hs G T1);
    [| now rewrite T2 | rewrite T5; lra | now apply T7 | intros lo hi Hin; apply in_map_iff in Hin; destruct Hin as (a & E' & _); injection E' as <- <-; lra].
  rewrite T2.
  assert (M : forall l, map_result (ts_sum numba counts) (map (fun iv : ivl => cut_window lc (touch s) (fst iv) (snd iv))
     (filter (fun iv : ivl => Nat.leb 2 (samples_in (s_time s) (fst iv) (snd iv))) (map (fun a => (a, a + seg)) l))) =
     Ok (map (fun a => window_sum counts s a (a + seg)) (filter (fun a => Nat.leb 2 (samples_in (s_time s) a (a + seg))) l))).
  { intros l. induction l as [|a l IH]; [reflexivity|]. cbn [map filter fst snd]. destruct (Nat.leb_spec 2 (samples_in (s_time s) a (a + seg))) as [L|L]; [|exact IH].
    cbn [map map_result fst snd]. rewrite (window_touch _ _ g) by assumption. rewrite ts_sum_window by (auto; lra || lia). cbn [bind]. rewrite IH. reflexivity. }
  rewrite M. cbn [bind]. rewrite !map_map. cbn [fst snd].
  assert (I : forall l : list Q, map (fun a => a) l = l) by (intros l; apply map_id). rewrite I. reflexivity.
Qed.

(* ---- estimate_segment_size, event-like data ---- *)
Lemma analyze_short {A} lc srt (func : series -> result A) s g seg : gti_of s = Some g -> s_dt s == 0 -> 0 < seg ->
  ~ (exists a b, In (a, b) g /\ seg < b - a + (1 # 100000)) -> analyze_segments lc srt func s (Some seg) 1 = Err AssertionError.
Proof.
  intros Hg Hd Hs N. unfold analyze_segments. rewrite Hg. assert (Z : qlt 0 (s_dt s) = false) by (destruct (qlt 0 (s_dt s)) eqn:Z; [qb; lra|reflexivity]).
  rewrite Z. destruct (proj2 (time_intervals_err g seg (1 # 100000) Hs)) as (e & E).
  { intros a b Hin. destruct (Qlt_le_dec seg (b - a + (1 # 100000))) as [C|C]; [exfalso; apply N; eauto|assumption]. }
  unfold time_intervals_from_gtis in *. destruct (flat_map _ g); [reflexivity|discriminate].
Qed.
Lemma long_dec (g : gtis) seg : {exists a b, In (a, b) g /\ seg < b - a + (1 # 100000)} + {~ exists a b, In (a, b) g /\ seg < b - a + (1 # 100000)}.
Proof.
  induction g as [|[x y] g IH]; [right; intros (a & b & [] & _)|]. destruct (Qlt_le_dec seg (y - x + (1 # 100000))) as [C|C]; [left; exists x, y; split; [now left|assumption]|].
  destruct IH as [IH|IH]; [left; destruct IH as (a & b & I & L); exists a, b; split; [now right|assumption]|]. right. intros (a & b & [I|I] & L); [injection I as <- <-; lra|]. apply IH; eauto.
Qed.
Lemma estimate_loop_ok lc numba srt counts s g mc step : sorts_by t_end srt -> good g -> gti_of s = Some g ->
  nondecreasing (s_time s) -> s_dt s == 0 -> regular s -> 0 <= step -> forall fuel size0 size, 0 < size0 ->
  estimate_loop fuel lc numba srt counts s mc step size0 = Ok size ->
  exists k : nat, size == size0 + inject_Z (Z.of_nat k) * step /\ enough_at counts s g mc size /\
  forall j, (j < k)%nat -> exists sz, sz == size0 + inject_Z (Z.of_nat j) * step /\ short_at counts s g mc sz.
Proof.
  intros Hs G Hg Ht Hd R Hst. induction fuel as [|fuel IH]; intros size0 size H0 E; [discriminate|]. cbn [estimate_loop] in E.
  destruct (long_dec g size0) as [L|L]; [|rewrite (analyze_short _ _ _ _ _ _ Hg Hd H0 L) in E; discriminate].
  destruct (analyze_sum lc numba counts srt s g size0 Hs G Hg Ht Hd R H0 L) as (st & Gr & A). rewrite A in E. cbn [bind snd] in E.
  set (sel := filter (fun a => Nat.leb 2 (samples_in (s_time s) a (a + size0))) st) in *.
  destruct sel as [|a0 sel'] eqn:Es; [discriminate|].
  destruct (qmin_list_ok (map (fun a => window_sum counts s a (a + size0)) (a0 :: sel'))) as (m & Em & Hin & Hmin); [discriminate|].
  rewrite Em in E. cbn [bind] in E. assert (Sel : forall a, In a (a0 :: sel') <-> In a st /\ (2 <= samples_in (s_time s) a (a + size0))%nat).
  { intros a. rewrite <- Es. unfold sel. rewrite filter_In, Nat.leb_le. reflexivity. }
  destruct (qle mc m) eqn:B; qb.
  - injection E as <-. exists 0%nat. split; [cbn; ring|]. split; [|intros j Hj; lia]. exists st. split; [assumption|]. split; [exists a0; apply Sel; now left|].
    intros a Ha Ha2. specialize (Hmin (window_sum counts s a (a + size0))). assert (m <= window_sum counts s a (a + size0)); [|lra]. apply Hmin, in_map_iff. exists a. split; [reflexivity|]. apply Sel. now split.
  - destruct (IH (size0 + step) size ltac:(lra) E) as (k & K1 & K2 & K3). exists (S k). split; [rewrite K1, Nat2Z.inj_succ; unfold Z.succ; rewrite inject_Z_plus; ring|].
    split; [assumption|]. intros [|j] Hj.
    + exists size0. split; [cbn; ring|]. apply in_map_iff in Hin. destruct Hin as (a & Ea & Ha). apply Sel in Ha. exists st, a. destruct Ha. repeat split; try assumption. now rewrite Ea.
    + destruct (K3 j ltac:(lia)) as (sz & Z1 & Z2). exists sz. split; [|assumption]. rewrite Z1, Nat2Z.inj_succ. unfold Z.succ. rewrite inject_Z_plus. ring.
Qed.
Lemma estimate_loop_fuel lc numba srt counts s g mc step M : sorts_by t_end srt -> good g -> gti_of s = Some g ->
  nondecreasing (s_time s) -> s_dt s == 0 -> regular s -> 0 < step -> (forall a b, In (a, b) g -> b - a + (1 # 100000) <= M) -> forall n size0 fuel, 0 < size0 ->
  M <= size0 + inject_Z (Z.of_nat n) * step -> (n < fuel)%nat -> estimate_loop fuel lc numba srt counts s mc step size0 <> Err OutOfFuel.
Proof.
  intros Hs G Hg Ht Hd R Hst HM. induction n as [|n IH]; intros size0 [|fuel] H0 B Hf; try lia; cbn [estimate_loop].
  - rewrite (analyze_short _ _ _ _ _ _ Hg Hd H0); [discriminate|]. intros (a & b & I & L). specialize (HM a b I). change (inject_Z (Z.of_nat 0)) with 0 in B. lra.
  - destruct (long_dec g size0) as [L|L]; [|rewrite (analyze_short _ _ _ _ _ _ Hg Hd H0 L); discriminate].
    destruct (analyze_sum lc numba counts srt s g size0 Hs G Hg Ht Hd R H0 L) as (st & Gr & A). rewrite A. cbn [bind snd].
    destruct (qmin_list _) as [m|e] eqn:E; cbn [bind].
    + destruct (qle mc m); [discriminate|]. apply IH; [lra| |lia]. rewrite Nat2Z.inj_succ in B. unfold Z.succ in B. rewrite inject_Z_plus in B. change (inject_Z 1) with 1 in B. lra.
    + intros C. destruct (map _ _) in E; [|discriminate]. cbn in E. congruence.
Qed.

Lemma longest (g : gtis) : exists M, forall a b, In (a, b) g -> b - a + (1 # 100000) <= M.
Proof.
  induction g as [|[x y] g (M & IH)]; [exists 0; intros a b []|]. exists (qmax M (y - x + (1 # 100000))). intros a b [H|H].
  - injection H as <- <-. destruct (qmax_cases M (y - x + (1 # 100000))) as [[E F]|[E F]]; rewrite E; lra.
  - specialize (IH a b H). destruct (qmax_cases M (y - x + (1 # 100000))) as [[E F]|[E F]]; rewrite E; lra.
Qed.
Lemma evenly_events s even : s_dt s == 0 -> even <> Some true -> evenly s even = false.
Proof.
  intros Hd He. unfold evenly. destruct even as [[|]|]; [congruence|reflexivity|]. destruct (median _); [|reflexivity].
  destruct (qlt 0 (s_dt s)) eqn:B; [qb; lra|reflexivity].
Qed.
Lemma ts_sum_fuel numba counts s : ts_sum numba counts s <> Err OutOfFuel.
Proof.
  unfold ts_sum, mask_of. destruct (s_gti s) as [g|]; cbn [bind].
  - unfold create_gti_mask, create_gti_mask_complete. destruct (s_time s); [discriminate|]. destruct g as [|v g]; [discriminate|]. change (qlt 0 0) with false. cbv iota.
    unfold check_gtis. destruct (negb (forallb (fun iv : ivl => qle (fst iv) (snd iv)) (v :: g))); [destruct numba; discriminate|].
    destruct (negb _); [destruct numba; discriminate|]. cbn [bind option_map]. destruct numba; cbn [bind]; destruct (find_col counts (s_cols s)); discriminate.
  - destruct (find_col counts (s_cols s)); discriminate.
Qed.
Lemma estimate_main fuel lc numba srt counts s g mc ms even size : sorts_by t_end srt -> good g -> gti_of s = Some g ->
  nondecreasing (s_time s) -> s_dt s == 0 -> regular s -> even <> Some true -> 0 < ms ->
  estimate_segment_size fuel lc numba srt counts s mc (Some ms) even = Ok size ->
  let mc' := match mc with Some c => c | None => ms end in
  exists first (k : nat), size == first + inject_Z (Z.of_nat k) /\ ms <= first /\ enough_at counts s g mc' size /\
    forall j, (j < k)%nat -> exists sz, sz == first + inject_Z (Z.of_nat j) /\ short_at counts s g mc' sz.
Proof.
  intros Hs G Hg Ht Hd R He Hm E mc'. unfold estimate_segment_size in E. rewrite (evenly_events s even Hd He) in E. cbn [andb] in E.
  destruct (touch_fields s g Hg) as (T1 & T2 & T3 & T4 & T5 & T6 & T7).
  assert (E' : exists rough, estimate_loop fuel lc numba srt counts (touch s) mc' 1 (qmax rough (ms * 1)) = Ok size).
  { destruct mc as [c|]; subst mc'; (destruct (ts_sum numba counts s) as [total|]; [|discriminate]; cbn [bind] in E; rewrite Hg in E; destruct (qeq total 0); [discriminate|]; eexists; exact E). }
  clear E. destruct E' as (rough & E). exists (qmax rough (ms * 1)).
  assert (F : ms <= qmax rough (ms * 1)) by (destruct (qmax_cases rough (ms * 1)) as [[Q1 Q2]|[Q1 Q2]]; rewrite Q1; lra).
  apply (estimate_loop_ok lc numba srt counts (touch s) g mc' 1 Hs G T1) in E; [|now rewrite T2|rewrite T5; assumption|now apply T7|lra|lra].
  destruct E as (k & K1 & K2 & K3). exists k.
  split; [rewrite K1; ring|]. split; [assumption|]. split.
  - unfold enough_at in *. rewrite T2 in K2. exact K2.
  - intros j Hj. destruct (K3 j Hj) as (sz & Z1 & Z2). exists sz. split; [rewrite Z1; ring|]. unfold short_at in *. rewrite T2 in Z2. exact Z2.
Qed.
Lemma estimate_terminates lc numba srt counts s g mc ms even : sorts_by t_end srt -> good g -> gti_of s = Some g ->
  nondecreasing (s_time s) -> s_dt s == 0 -> regular s -> even <> Some true -> 0 < ms ->
  exists N, forall fuel, (N <= fuel)%nat -> estimate_segment_size fuel lc numba srt counts s mc (Some ms) even <> Err OutOfFuel.
Proof.
  intros Hs G Hg Ht Hd R He Hm. destruct (touch_fields s g Hg) as (T1 & T2 & T3 & T4 & T5 & T6 & T7). destruct (longest g) as (M & HM).
  pose (n := Z.to_nat (Qceiling (M - ms))). exists (S n). intros fuel Hf. unfold estimate_segment_size. rewrite (evenly_events s even Hd He). cbn [andb].
  assert (L : forall c rough, estimate_loop fuel lc numba srt counts (touch s) c 1 (qmax rough (ms * 1)) <> Err OutOfFuel).
  { intros c rough. assert (F : ms <= qmax rough (ms * 1)) by (destruct (qmax_cases rough (ms * 1)) as [[Q1 Q2]|[Q1 Q2]]; rewrite Q1; lra).
    apply (estimate_loop_fuel lc numba srt counts (touch s) g c 1 M Hs G T1) with (n := n); [now rewrite T2|rewrite T5; assumption|now apply T7|lra|assumption|lra| |lia].
    assert (C : M - ms <= inject_Z (Z.of_nat n)); [|lra]. pose proof (Qle_ceiling (M - ms)). assert (inject_Z (Qceiling (M - ms)) <= inject_Z (Z.of_nat n)); [|lra]. rewrite <- Zle_Qle. unfold n. lia. }
  pose proof (ts_sum_fuel numba counts s) as T.
  destruct mc as [c|]; (destruct (ts_sum numba counts s) as [total|e]; cbn [bind]; [|exact T]; rewrite Hg; destruct (qeq total 0); [discriminate|]; apply L).
Qed.
Lemma estimate_no_samples fuel lc numba srt counts s mc even : exists e, estimate_segment_size fuel lc numba srt counts s mc None even = Err e.
Proof.
  unfold estimate_segment_size. destruct mc as [c|]; [|eauto]. destruct (ts_sum numba counts s); cbn [bind]; [|eauto]. destruct (gti_of s); eauto.
Qed.
