(* T_base.v: property theorems about time series (C23-C25, C55-C57). *)
From Verif Require Import Np Lib S_gti S_seg S_merge S_utils S_lc S_base M_gti M_seg M_merge M_utils M_lc M_base
  P_gti_cross P_gti_final P_seg_regions P_seg_cut P_rebin2 P_lc_make P_base P_base2 P_base3 P_base4.
From Coq Require Import Lqa Permutation.
Open Scope Q_scope.

(* ---------- C23 ---------- *)
(* [operate] returns the result and both operands as they are afterwards. *)
Theorem C23_lightcurve_arithmetic : forall srt numba f a b r a' b',
  sorts_by t_end srt -> lc_operate srt numba f a b = (Ok r, a', b') ->
  unchanged a a' /\ unchanged b b' /\
  exists b0 ga gb g ka kb la lb ca cb ea eb,
    referred a b b0 /\ gti_of a = Some ga /\ gti_of b0 = Some gb /\
    s_cols a = [(ka, ca)] /\ s_cols b0 = [(kb, cb)] /\ s_errs a = [(la, ea)] /\ s_errs b0 = [(lb, eb)] /\
    cross_two_gtis srt ga gb = Ok g /\ s_gti r = Some g /\ s_dt r = s_dt a /\ s_mjdref r = s_mjdref a /\
    (good ga -> good gb -> no_touching ga gb -> forall t, covered g t <-> covered ga t /\ covered gb t) /\
    (good ga -> good gb -> nondecreasing (s_time a) -> nondecreasing (s_time b0) -> 0 < s_dt a -> 0 < s_dt b0 ->
     length ca = length (s_time a) -> length ea = length (s_time a) -> length cb = length (s_time b0) -> length eb = length (s_time b0) ->
     (numba = false \/ (all_hold_bins g (gti_eps * s_dt a) (s_dt a) (s_time a) /\ all_hold_bins g (gti_eps * s_dt b0) (s_dt b0) (s_time b0))) ->
     exists ma mb counts err2,
       flags (bin_in g (gti_eps * s_dt a) (s_dt a)) (s_time a) ma /\
       flags (bin_in g (gti_eps * s_dt b0) (s_dt b0)) (s_time b0) mb /\
       s_time r = keep ma (s_time a) /\
       Forall2 (fun x y => Qabs (x - y) < s_dt a / 100) (keep ma (s_time a)) (keep mb (s_time b0)) /\
       s_cols r = [(0%nat, counts)] /\ combined f (keep ma ca) (keep mb cb) counts /\
       s_errs r = [(0%nat, err2)] /\ combined Qplus (keep ma ea) (keep mb eb) err2).
Proof. exact lc_operate_main. Qed.
Print Assumptions C23_lightcurve_arithmetic.
Theorem C23_same_gtis : forall srt numba f a b,
  s_mjdref a == s_mjdref b -> same_gtis (gti_of a) (gti_of b) = true ->
  let '(out, a', b') := operate srt numba f a b in
  unchanged a a' /\ unchanged b b' /\
  (~ same_values (s_time a) (s_time b) -> out = Err ValueError) /\
  (forall r, out = Ok r ->
     same_values (s_time a) (s_time b) /\ s_time r = s_time a /\ gti_of r = gti_of a /\ s_dt r = s_dt a /\ s_mjdref r = s_mjdref a /\
     (forall k v, column k (s_cols a) = Some v -> exists w x, column k (s_cols b) = Some w /\ column k (s_cols r) = Some x /\ combined f v w x) /\
     (forall k v, column k (s_errs a) = Some v -> exists w x, column k (s_errs b) = Some w /\ column k (s_errs r) = Some x /\ combined Qplus v w x) /\
     map fst (s_cols r) = map fst (s_cols a) /\ map fst (s_errs r) = map fst (s_errs a)).
Proof. exact operate_same. Qed.
Print Assumptions C23_same_gtis.
Theorem C23_apply_gtis : forall numba g s,
  s_time s <> [] -> nondecreasing (s_time s) -> g <> [] -> well_formed g -> 0 < s_dt s ->
  (numba = false \/ all_hold_bins g (gti_eps * s_dt s) (s_dt s) (s_time s)) ->
  exists m, flags (bin_in g (gti_eps * s_dt s) (s_dt s)) (s_time s) m /\
    (forall inplace, exists self r, apply_gtis numba (Some g) inplace s = Ok (self, r) /\
       s_time r = keep m (s_time s) /\ s_cols r = map_cols (keep m) (s_cols s) /\ s_errs r = map_cols (keep m) (s_errs s) /\
       s_dt r = s_dt s /\ s_mjdref r = s_mjdref s /\
       (if inplace then self = r /\ gti_of r = Some g else unchanged s self /\ gti_of r = gti_of s)).
Proof. exact apply_gtis_ok. Qed.
Print Assumptions C23_apply_gtis.
Theorem C23_different_gtis_partial : forall srt numba f a b ga gb g r a' b',
  sorts_by t_end srt -> s_mjdref a == s_mjdref b ->
  gti_of a = Some ga -> gti_of b = Some gb -> good ga -> good gb -> same_gtis (Some ga) (Some gb) = false ->
  cross_two_gtis srt ga gb = Ok g -> nondecreasing (s_time a) -> nondecreasing (s_time b) -> 0 < s_dt a -> 0 < s_dt b ->
  (numba = false \/ (all_hold_bins g (gti_eps * s_dt a) (s_dt a) (s_time a) /\ all_hold_bins g (gti_eps * s_dt b) (s_dt b) (s_time b))) ->
  operate srt numba f a b = (Ok r, a', b') ->
  exists ma mb,
    flags (bin_in g (gti_eps * s_dt a) (s_dt a)) (s_time a) ma /\ flags (bin_in g (gti_eps * s_dt b) (s_dt b)) (s_time b) mb /\
    same_values (keep ma (s_time a)) (keep mb (s_time b)) /\
    s_time r = keep ma (s_time a) /\ gti_of r = Some g /\ s_mjdref r = s_mjdref a /\ s_dt r = s_dt a /\
    (forall k v, column k (s_cols a) = Some v -> exists w x, column k (s_cols b) = Some w /\ column k (s_cols r) = Some x /\ combined f (keep ma v) (keep mb w) x) /\
    (forall k v, column k (s_errs a) = Some v -> exists w x, column k (s_errs b) = Some w /\ column k (s_errs r) = Some x /\ combined Qplus (keep ma v) (keep mb w) x) /\
    (* the operands are not what they were *)
    s_time a' = keep ma (s_time a) /\ gti_of a' = Some g /\ s_cols a' = map_cols (keep ma) (s_cols a) /\
    s_time b' = keep mb (s_time b) /\ gti_of b' = Some g /\ s_cols b' = map_cols (keep mb) (s_cols b).
Proof. exact operate_cut. Qed.
Print Assumptions C23_different_gtis_partial.
Theorem C23_operands_refuted : 
  exists a b r a' b', operate (isort_by t_end) true Qplus a b = (Ok r, a', b') /\
  s_time a' <> s_time a /\ s_time b' <> s_time b /\ gti_of a' <> gti_of a.
Proof. exact operate_mutates. Qed.
Print Assumptions C23_operands_refuted.
Theorem C23_inplace_operators_error : forall f a b,
  fst (fst (operate_kw f a b)) = Err TypeError.
Proof. exact operate_kw_fails. Qed.
Print Assumptions C23_inplace_operators_error.
Theorem C23_apply_gtis_copy_refuted : 
  exists s r self, apply_gtis true (Some [(3 # 2, 7 # 2)]) false s = Ok (self, r) /\
  s_time r = [2; 3] /\ gti_of r = gti_of s /\ exists g, gti_of r = Some g /\ covered g 4 /\ ~ covered [(3 # 2, 7 # 2)] 4.
Proof. exact apply_gtis_copy_keeps_old. Qed.
Print Assumptions C23_apply_gtis_copy_refuted.

(* example series; light curves carry squared errors too *)
Definition ex_a := mkSeries [1; 2; 3; 4] [(0%nat, [1; 2; 3; 4])] [(0%nat, [1; 1; 1; 1])] 1 (Some [(1 # 2, 7 # 2)]) 0 None None.
Definition ex_b := mkSeries [1; 2; 3; 4] [(0%nat, [5; 6; 7; 8])] [(0%nat, [2; 2; 2; 2])] 1 (Some [(3 # 2, 9 # 2)]) 0 None None.
Lemma ex_good a b : a < b -> good [(a, b)].
Proof. apply good_one. Qed.
Example C23_nonvacuous : exists r a' b', lc_operate (isort_by t_end) true Qplus ex_a ex_b = (Ok r, a', b') /\
  s_time r = [2; 3] /\ s_cols r = [(0%nat, [8; 10])] /\ s_errs r = [(0%nat, [3; 3])] /\ a' = ex_a /\ b' = ex_b /\
  good [(1 # 2, 7 # 2)] /\ good [(3 # 2, 9 # 2)].
Proof. do 3 eexists. split; [vm_compute; reflexivity|]. repeat (split; [reflexivity|]). split; apply ex_good; reflexivity. Qed.
Example C23_same_nonvacuous : exists r a' b', operate (isort_by t_end) true Qminus ex_b ex_b = (Ok r, a', b') /\ s_cols r = [(0%nat, [0; 0; 0; 0])] /\ a' = ex_b.
Proof. do 3 eexists. split; [vm_compute; reflexivity|]. split; reflexivity. Qed.

(* ---------- C24 ---------- *)
Theorem C24_shift : forall d s,
  s_time s <> [] -> exists r, shift d s = Ok r /\
  moved_times d (s_time s) (s_time r) /\ s_cols r = s_cols s /\ s_errs r = s_errs s /\ s_dt r = s_dt s /\ s_mjdref r = s_mjdref s /\
  exists g g', gti_of s = Some g /\ gti_of r = Some g' /\ moved_intervals d g g'.
Proof. exact shift_main. Qed.
Print Assumptions C24_shift.
Theorem C24_shift_back : forall d s r,
  shift d s = Ok r -> exists q, shift (- d) r = Ok q /\
  same_values (s_time s) (s_time q) /\ s_cols q = s_cols s /\ s_errs q = s_errs s /\ s_dt q = s_dt s /\ s_mjdref q = s_mjdref s /\
  exists g g', gti_of s = Some g /\ gti_of q = Some g' /\ same_intervals g g'.
Proof. exact shift_back. Qed.
Print Assumptions C24_shift_back.
Theorem C24_change_mjdref : forall m s,
  s_time s <> [] -> exists r, change_mjdref m s = Ok r /\ s_mjdref r = m /\
  Forall2 (fun t t' => absolute m t' == absolute (s_mjdref s) t) (s_time s) (s_time r) /\
  s_cols r = s_cols s /\ s_errs r = s_errs s /\ s_dt r = s_dt s /\
  exists g g', gti_of s = Some g /\ gti_of r = Some g' /\
    Forall2 (fun x y => absolute m (fst y) == absolute (s_mjdref s) (fst x) /\ absolute m (snd y) == absolute (s_mjdref s) (snd x)) g g'.
Proof. exact change_main. Qed.
Print Assumptions C24_change_mjdref.
Theorem C24_mask_moves_along : forall numba d s r g g' dt m new,
  shift d s = Ok r -> gti_of s = Some g -> gti_of r = Some g' ->
  create_gti_mask numba (s_time s) g (0, 0) 0 (Some dt) gti_eps = Ok (m, new) ->
  exists new', create_gti_mask numba (s_time r) g' (0, 0) 0 (Some dt) gti_eps = Ok (m, new').
Proof. exact shifted_mask. Qed.
Print Assumptions C24_mask_moves_along.
Theorem C24_tstart_refuted : 
  exists s r t0 ts, s_time s = [1; 2; 3] /\ s_tstart s = Some ts /\ ts == 1 - s_dt s / 2 /\
  shift 10 s = Ok r /\ nth_error (s_time r) 0 = Some t0 /\ ~ (forall ts', s_tstart r = Some ts' -> ts' == t0 - s_dt r / 2).
Proof. exact shift_tstart_stale. Qed.
Print Assumptions C24_tstart_refuted.

Example C24_nonvacuous : exists r, shift 10 ex_a = Ok r /\ s_time r = [11; 12; 13; 14] /\ gti_of r = Some [(21 # 2, 27 # 2)].
Proof. eexists. split; [vm_compute; reflexivity|]. split; reflexivity. Qed.
Example C24_mjdref_nonvacuous : exists r t, change_mjdref 1 ex_a = Ok r /\ nth_error (s_time r) 0 = Some t /\ absolute 1 t == absolute 0 1.
Proof. do 2 eexists. split; [vm_compute; reflexivity|]. split; reflexivity. Qed.

(* ---------- C25 ---------- *)
Theorem C25_truncate_by_index : forall srt s i j g,
  sorts_by t_end srt -> (i < j)%nat -> (j <= length (s_time s))%nat -> 0 < s_dt s ->
  increasing (s_time s) -> gti_of s = Some g -> good g ->
  (forall t0 tl, nth_error (s_time s) i = Some t0 -> nth_error (s_time s) (j - 1) = Some tl ->
     no_touching g [(t0 - s_dt s / 2, tl + s_dt s / 2)] /\
     exists t, covered g t /\ t0 - s_dt s / 2 <= t /\ t < tl + s_dt s / 2) ->
  exists r t0 tl first last, truncate_by_index srt s (Z.of_nat i) (Some (Z.of_nat j)) = Ok r /\
    s_time r = slice (s_time s) i j /\ s_cols r = map_cols (fun l => slice l i j) (s_cols s) /\
    s_errs r = map_cols (fun l => slice l i j) (s_errs s) /\ s_dt r = s_dt s /\ s_mjdref r = s_mjdref s /\
    nth_error (s_time s) i = Some t0 /\ nth_error (s_time s) (j - 1) = Some tl /\
    exists g', gti_of r = Some g' /\ well_formed g' /\ nth_error g' 0 = Some first /\ nth_error g' (length g' - 1) = Some last /\
      s_tstart r = Some (fst first) /\ s_tseg r = Some (snd last - fst first) /\
      forall t, covered g' t <-> covered g t /\ t0 - s_dt s / 2 <= t /\ t < tl + s_dt s / 2.
Proof. exact truncate_main. Qed.
Print Assumptions C25_truncate_by_index.
Theorem C25_truncate_by_time : forall srt s a b g,
  sorts_by t_end srt -> increasing (s_time s) -> 0 < s_dt s -> gti_of s = Some g -> good g ->
  all_of_length (length (s_time s)) (s_cols s) -> all_of_length (length (s_time s)) (s_errs s) ->
  a <= b -> (~ a == 0 \/ forall t, In t (s_time s) -> 0 <= t) ->
  (exists t, In t (s_time s) /\ a <= t /\ t < b) ->
  (forall t0 tl, In t0 (s_time s) -> In tl (s_time s) -> a <= t0 -> tl < b ->
     (forall t, In t (s_time s) -> a <= t -> t < b -> t0 <= t /\ t <= tl) ->
     no_touching g [(t0 - s_dt s / 2, tl + s_dt s / 2)] /\ exists t, covered g t /\ t0 - s_dt s / 2 <= t /\ t < tl + s_dt s / 2) ->
  exists r m, truncate_by_time srt s a (Some b) = Ok r /\ flags (fun t => a <= t /\ t < b) (s_time s) m /\
    s_time r = keep m (s_time s) /\ s_cols r = map_cols (keep m) (s_cols s) /\ s_errs r = map_cols (keep m) (s_errs s) /\
    s_dt r = s_dt s /\ s_mjdref r = s_mjdref s.
Proof. exact truncate_time_main. Qed.
Print Assumptions C25_truncate_by_time.
Theorem C25_truncate_order : forall srt s a b,
  b < a -> truncate_by_time srt s a (Some b) = Err ValueError.
Proof. exact truncate_time_order. Qed.
Print Assumptions C25_truncate_order.
Theorem C25_slices : forall srt s i j step g,
  sorts_by t_end srt -> (1 <= step)%nat -> (i < j)%nat -> (j <= length (s_time s))%nat -> 0 < s_dt s ->
  apart (s_dt s) (s_time s) -> gti_of s = Some g -> good g -> off_bins (s_dt s) g (s_time s) ->
  exists r g', getitem srt s (Z.of_nat i) (Some (Z.of_nat j)) step = Ok r /\
    strided i j step (s_time s) (s_time r) /\ strided_cols i j step (s_cols s) (s_cols r) /\ strided_cols i j step (s_errs s) (s_errs r) /\
    s_dt r = s_dt s /\ s_mjdref r = s_mjdref s /\ gti_of r = Some g' /\ well_formed g' /\ positive_lengths g' /\
    forall t, covered g' t <-> covered g t /\ slice_cover (s_dt s) step (s_time r) t.
Proof. exact getitem_main. Qed.
Print Assumptions C25_slices.
Theorem C25_lightcurve_slices : forall srt s i j step g,
  sorts_by t_end srt -> (1 <= step)%nat -> (i < j)%nat -> (j <= length (s_time s))%nat -> 0 < s_dt s ->
  apart (s_dt s) (s_time s) -> gti_of s = Some g -> good g -> off_bins (s_dt s) g (s_time s) ->
  exists r g' f l ts tg, lc_getitem srt s (Z.of_nat i) (Some (Z.of_nat j)) step = Ok r /\
    strided i j step (s_time s) (s_time r) /\ strided_cols i j step (s_cols s) (s_cols r) /\ strided_cols i j step (s_errs s) (s_errs r) /\
    s_dt r = s_dt s /\ s_mjdref r = s_mjdref s /\ gti_of r = Some g' /\ well_formed g' /\ positive_lengths g' /\
    (forall t, covered g' t <-> covered g t /\ slice_cover (s_dt s) step (s_time r) t) /\
    nth_error (s_time r) 0 = Some f /\ nth_error (s_time r) (length (s_time r) - 1) = Some l /\
    s_tstart r = Some ts /\ ts == f - s_dt s / 2 /\ s_tseg r = Some tg /\ tg == l - f + s_dt s.
Proof. exact lc_getitem_main. Qed.
Print Assumptions C25_lightcurve_slices.
(* [piece s iv r]: r holds exactly the samples of s whose bin is inside iv; [enough]: at least n of them. *)
Theorem C25_split_by_gti : forall s g n l,
  s_time s <> [] -> increasing (s_time s) -> median (diffs (s_time s)) = Some (s_dt s) -> 0 < s_dt s -> (1 <= n)%nat ->
  well_formed g -> split_by_gti true s (Some g) n = Ok l -> Forall2 (piece s) (filter (enough s n) g) l.
Proof. exact split_main. Qed.
Print Assumptions C25_split_by_gti.
Theorem C25_truncate_from_zero_refuted : 
  exists s r t, increasing (s_time s) /\ 0 < s_dt s /\
  truncate_by_time (isort_by t_end) s 0 (Some 3) = Ok r /\ In t (s_time r) /\ ~ 0 <= t.
Proof. exact truncate_time_zero. Qed.
Print Assumptions C25_truncate_from_zero_refuted.
Theorem C25_last_item_refuted : 
  exists s, s_time s = [1; 2; 3] /\ getitem_int (isort_by t_end) s (-1) = Err TypeError.
Proof. exact getitem_last_fails. Qed.
Print Assumptions C25_last_item_refuted.
Theorem C25_lightcurve_slice_too_long_refuted : 
  exists s, s_time s = [1; 2; 3] /\ lc_getitem (isort_by t_end) s 1 (Some 4%Z) 1 = Err IndexError.
Proof. exact lc_getitem_long_fails. Qed.
Print Assumptions C25_lightcurve_slice_too_long_refuted.
Theorem C25_split_events_refuted : 
  exists s r, s_dt s = 0 /\ increasing (s_time s) /\ split_by_gti true s (Some [(0, 10)]) 1 = Ok [r] /\
  (forall t, In t (s_time s) -> 0 <= t /\ t <= 10) /\ length (s_time s) = 3%nat /\ length (s_time r) = 1%nat.
Proof. exact split_events_lost. Qed.
Print Assumptions C25_split_events_refuted.
Theorem C25_split_tstart_refuted : 
  exists s r1 r2 t0, split_by_gti true s (Some [(1 # 2, 5 # 2); (9 # 2, 13 # 2)]) 1 = Ok [r1; r2] /\
  s_tstart s = Some (1 # 2) /\ nth_error (s_time r2) 0 = Some t0 /\ t0 == 5 /\ s_tstart r2 = Some (1 # 2).
Proof. exact split_tstart_stale. Qed.
Print Assumptions C25_split_tstart_refuted.

Lemma ex_increasing : increasing (s_time ex_a).
Proof. apply inc_ss. repeat constructor. Qed.
Example C25_nonvacuous : exists r, truncate_by_time (isort_by t_end) ex_a 2 (Some 4) = Ok r /\ s_time r = [2; 3] /\ s_cols r = [(0%nat, [2; 3])] /\
  increasing (s_time ex_a) /\ no_touching [(1 # 2, 7 # 2)] [(2 - 1 / 2, 3 + 1 / 2)].
Proof.
  eexists. split; [vm_compute; reflexivity|]. split; [reflexivity|]. split; [reflexivity|]. split; [apply ex_increasing|].
  intros a b c d [E|[]] [F|[]]. injection E as <- <-. injection F as <- <-. split; vm_compute; discriminate.
Qed.
Example C25_slice_nonvacuous : exists r g, getitem (isort_by t_end) ex_a 0 (Some 4%Z) 2 = Ok r /\ s_time r = [1; 3] /\ gti_of r = Some g /\
  same_intervals g [(1 # 2, 3 # 2); (5 # 2, 7 # 2)] /\ off_bins 1 [(1 # 2, 7 # 2)] [1; 2; 3] /\ apart 1 (s_time ex_a).
Proof.
  do 2 eexists. split; [vm_compute; reflexivity|]. split; [reflexivity|]. split; [reflexivity|]. split; [repeat constructor|]. split.
  - intros a b x [E|[]] Hx. injection E as <- <-. destruct Hx as [<-|[<-|[<-|[]]]]; split; vm_compute; discriminate.
  - intros i j x y Hij Hi Hj. do 4 (destruct i as [|i]; [do 4 (destruct j as [|j]; [try lia; injection Hi as <-; injection Hj as <-; vm_compute; discriminate|]); destruct j; discriminate|]). destruct i; discriminate.
Qed.
Example C25_split_nonvacuous : exists r1 r2, split_by_gti true ex_a (Some [(1 # 2, 5 # 2); (5 # 2, 9 # 2)]) 1 = Ok [r1; r2] /\
  s_time r1 = [1; 2] /\ s_time r2 = [3; 4] /\ median (diffs (s_time ex_a)) = Some (s_dt ex_a).
Proof. do 2 eexists. split; [vm_compute; reflexivity|]. repeat split. Qed.

(* ---------- C55 ---------- *)
Theorem C55_join : forall se ss sd argsort self others st r,
  is_argsort argsort -> others <> [] ->
  (forall s, In s (self :: others) -> s_time s <> [] /\ all_of_length (length (s_time s)) (s_cols s)) ->
  (forall s, In s others -> s_mjdref s == s_mjdref self) ->
  join_timeseries se ss sd argsort self others st = Ok r ->
  nondecreasing (j_time r) /\ Permutation (j_time r) (flat_map s_time (self :: others)) /\
  (forall k, (exists v, column k (j_cols r) = Some v) <-> exists s, In s (self :: others) /\ column k (s_cols s) <> None) /\
  (forall k v, column k (j_cols r) = Some v -> Permutation (combine (j_time r) v) (join_rows k (self :: others))) /\
  (st <> NoMerge -> (exists s, In s (self :: others) /\ set_gti s) ->
     merge_gtis se ss sd (map gti_of (self :: others)) st = Ok (j_gti r)).
Proof. exact join_series_main. Qed.
Print Assumptions C55_join.
Theorem C55_two_empty_refuted : 
  exists a e b, s_time e = [] /\ s_time a <> [] /\ s_time b <> [] /\
  join_timeseries (isort_by t_end) (isort_by fst) (isort_by fst) (fun l => seq 0 (length l)) a [e; e; b] Union = Err ValueError.
Proof. exact join_two_empty. Qed.
Print Assumptions C55_two_empty_refuted.
Theorem C55_empty_self_refuted : 
  exists e b, s_time e = [] /\ s_time b <> [] /\
  join_timeseries (isort_by t_end) (isort_by fst) (isort_by fst) (fun l => seq 0 (length l)) e [b] Union = Err ValueError.
Proof. exact join_empty_self. Qed.
Print Assumptions C55_empty_self_refuted.
Theorem C55_mjdref_refuted : 
  exists a b r t, s_mjdref a = 55000 /\ s_mjdref b = 550003 # 10 /\ s_time b = [3] /\
  join_timeseries (isort_by t_end) (isort_by fst) (isort_by fst) (fun l => seq 0 (length l)) a [b] Union = Ok r /\
  j_time r = [1; t] /\ ~ absolute (s_mjdref a) t == absolute (s_mjdref b) 3.
Proof. exact join_mjdref_wrong. Qed.
Print Assumptions C55_mjdref_refuted.
Theorem C55_none_strategy_refuted : 
  exists a b r, s_gti a = Some [(0, 2)] /\ s_gti b = Some [(2, 4)] /\
  join_timeseries (isort_by t_end) (isort_by fst) (isort_by fst) (fun l => seq 0 (length l)) a [b] NoMerge = Ok r /\ j_gti r = None.
Proof. exact join_none_no_gti. Qed.
Print Assumptions C55_none_strategy_refuted.

Example C55_nonvacuous : exists r, join_timeseries (isort_by t_end) (isort_by fst) (isort_by fst) (fun l => seq 0 (length l))
    (mkSeries [1; 2] [(0%nat, [5; 6])] [] 1 (Some [(1 # 2, 5 # 2)]) 0 None None) [mkSeries [3] [(1%nat, [7])] [] 1 (Some [(5 # 2, 7 # 2)]) 0 None None] Union = Ok r /\
  j_time r = [1; 2; 3] /\ column 0 (j_cols r) = Some [Some 5; Some 6; None] /\ column 1 (j_cols r) = Some [None; None; Some 7].
Proof. eexists. split; [vm_compute; reflexivity|]. repeat split. Qed.

(* ---------- C56 ---------- *)
Theorem C56_sort : forall argsort reverse inplace s,
  is_argsort argsort ->
  all_of_length (length (s_time s)) (s_cols s) -> all_of_length (length (s_time s)) (s_errs s) ->
  let r := sort_series argsort reverse inplace s in
  (if reverse then nonincreasing (s_time r) else nondecreasing (s_time r)) /\ Permutation (s_time s) (s_time r) /\
  rows_kept (s_time s) (s_time r) (s_cols s) (s_cols r) /\ rows_kept (s_time s) (s_time r) (s_errs s) (s_errs r) /\
  (forall g, s_gti s = Some g -> gti_of r = Some g) /\ s_dt r = s_dt s /\ s_mjdref r = s_mjdref s.
Proof. exact sort_main. Qed.
Print Assumptions C56_sort.
Theorem C56_default_gti_refuted : 
  exists s r g argsort, s_time s = [2; 1; 3] /\ s_gti s = None /\ s_dt s = 1 /\  argsort (s_time s) = [1; 0; 2]%nat /\ r = sort_series argsort false false s /\ s_time r = [1; 2; 3] /\ gti_of r = Some g /\ ~ covered g 1.
Proof. exact sort_default_gti. Qed.
Print Assumptions C56_default_gti_refuted.

(* the stable argsort *)
Definition ex_argsort (l : list Q) : list nat := map snd (isort_by fst (combine l (seq 0 (length l)))).
Example C56_nonvacuous : let r := sort_series ex_argsort false true (mkSeries [2; 1; 3] [(0%nat, [20; 10; 30])] [] 1 None 0 None None) in
  s_time r = [1; 2; 3] /\ s_cols r = [(0%nat, [10; 20; 30])].
Proof. split; reflexivity. Qed.
Example C56_argsort_exists : is_argsort ex_argsort.
Proof.
  intros l. unfold ex_argsort. set (p := combine l (seq 0 (length l))). assert (L : length l = length (seq 0 (length l))) by (rewrite seq_length; reflexivity).
  assert (Pp : Permutation (isort_by fst p) p) by apply isort_by_perm. split.
  - eapply Permutation_trans; [apply Permutation_map; exact Pp|]. unfold p. clear. generalize 0%nat. induction l as [|a l IH]; intros k; simpl; [constructor|]. constructor. apply IH.
  - rewrite map_map. assert (E : map (fun x : Q * nat => nth (snd x) l 0) (isort_by fst p) = map fst (isort_by fst p)).
    { apply map_ext_in. intros [a i] Hin. apply (Permutation_in _ Pp) in Hin. cbn [fst snd].
      assert (G : forall (l : list Q) k a i, In (a, i) (combine l (seq k (length l))) -> (k <= i)%nat /\ nth (i - k) l 0 = a).
      { clear. induction l as [|x l IH]; intros k a i H; simpl in H; [contradiction|]. destruct H as [E|H].
        - injection E as <- <-. split; [lia|]. rewrite Nat.sub_diag. reflexivity.
        - destruct (IH _ _ _ H) as [H1 H2]. split; [lia|]. replace (i - k)%nat with (S (i - S k)) by lia. exact H2. }
      destruct (G _ _ _ _ Hin) as [_ K]. rewrite Nat.sub_0_r in K. exact K. }
    rewrite E. unfold nondecreasing. apply (proj1 (ss_nth Qle _)). assert (S := isort_by_sorted fst p). clear - S. revert S. generalize (isort_by fst p). intros q S.
    induction S as [|x q S IH F]; simpl; constructor; [assumption|]. apply Forall_forall. intros y Hy. apply in_map_iff in Hy. destruct Hy as (z & <- & Hz). rewrite Forall_forall in F. apply F. assumption.
Qed.

(* ---------- C57 ---------- *)
(* [rebinned_in]: rebin_data (C18) of exactly the samples with start <= t < stop; [long_enough]: at least dt_new long. *)
Theorem C57_lightcurve_rebin : forall s dt_new m g k y r,
  nondecreasing (s_time s) -> gti_of s = Some g -> s_cols s = [(k, y)] -> length y = length (s_time s) ->
  lc_rebin s dt_new m = Ok r -> s_time r <> [] ->
  s_dt s <= dt_new /\ s_dt r = dt_new /\ s_mjdref r = s_mjdref s /\ gti_of r = Some (filter (long_enough dt_new) g) /\
  exists outs, Forall2 (rebinned_in DxNone (s_time s) y dt_new m) (filter (long_enough dt_new) g) outs /\
    s_time r = flat_map r_x outs /\ s_cols r = [(k, flat_map r_y outs)].
Proof. exact lc_rebin_main. Qed.
Print Assumptions C57_lightcurve_rebin.
Theorem C57_series_rebin_partial : forall s dt_new m g k y r,
  nondecreasing (s_time s) -> gti_of s = Some g -> s_cols s = [(k, y)] -> length y = length (s_time s) ->
  rebin_series s dt_new m = Ok r ->
  s_dt s <= dt_new /\ s_dt r = dt_new /\ s_mjdref r = s_mjdref s /\ gti_of r = Some g /\
  exists outs, Forall2 (rebinned_in (DxScalar (s_dt s)) (s_time s) y dt_new m) (filter (long_enough dt_new) g) outs /\
    s_time r = flat_map r_x outs /\ s_cols r = [(k, flat_map r_y outs)].
Proof. exact rebin_series_main. Qed.
Print Assumptions C57_series_rebin_partial.
Theorem C57_series_gti_refuted : 
  exists s r g t, rebin_series s 4 MSum = Ok r /\ gti_of r = Some g /\ covered g t /\
  forall x, In x (s_time r) -> ~ (x - s_dt r / 2 <= t /\ t < x + s_dt r / 2).
Proof. exact rebin_stale_gti. Qed.
Print Assumptions C57_series_gti_refuted.

Example C57_nonvacuous : exists r, lc_rebin (mkSeries [1 # 2; 3 # 2; 5 # 2; 7 # 2; 21 # 2; 23 # 2] [(0%nat, [1; 2; 3; 4; 5; 6])] [] 1 (Some [(0, 4); (10, 12)]) 0 None None) 2 MSum = Ok r /\
  Forall2 Qeq (s_time r) [1; 3; 11] /\ exists y, s_cols r = [(0%nat, y)] /\ Forall2 Qeq y [3; 7; 11].
Proof. eexists. split; [vm_compute; reflexivity|]. split; [repeat constructor|]. eexists. split; [reflexivity|]. repeat constructor. Qed.

