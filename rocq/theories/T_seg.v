(* T_seg.v: property theorems about masks, segments, splits and runs (C08-C10, C12-C14, C19). *)
From Verif Require Import Lib S_gti M_gti P_gti_cross P_gti_final S_seg M_seg
  P_seg_regions P_seg_cut P_seg_bins P_seg_split P_seg_mask P_seg_gen.
Open Scope Q_scope.

(* ---------- C08 ---------- *)
(* What the code computes: segments on the grid a + k*seg of each GTI, all those that end before b + eps. *)
Theorem C08_segments_grid : forall g seg eps st en,
  0 < seg -> 0 <= eps ->
  time_intervals_from_gtis g seg 1 eps = Ok (st, en) ->
  en = map (fun s => s + seg) st /\
  (forall s, In s st -> exists a b (k : nat), In (a, b) g /\ s == a + inject_Z (Z.of_nat k) * seg /\ a <= s /\ s + seg < b + eps) /\
  (forall a b (k : nat), In (a, b) g -> a + inject_Z (Z.of_nat k + 1) * seg < b + eps ->
     exists s, In s st /\ s == a + inject_Z (Z.of_nat k) * seg).
Proof. exact time_intervals_sound. Qed.
Print Assumptions C08_segments_grid.
(* Inside, disjoint and maximal, when edges and segment size share a unit not below the tolerance
   (missing: arbitrary edges, refuted below). *)
Theorem C08_segments_exact_partial : forall g seg eps u,
  0 < seg -> 0 < eps -> eps <= u ->
  well_formed g -> multiple_of u seg -> (forall a b, In (a, b) g -> multiple_of u a /\ multiple_of u b) ->
  forall st en, time_intervals_from_gtis g seg 1 eps = Ok (st, en) ->
  en = map (fun s => s + seg) st /\
  (forall s, In s st -> exists a b, In (a, b) g /\ a <= s /\ s + seg <= b) /\
  (forall i j s t, (i < j)%nat -> nth_error st i = Some s -> nth_error st j = Some t -> s + seg <= t) /\
  (forall a b, In (a, b) g -> a <= b -> exists r, (r == a \/ (exists s, In s st /\ a <= s /\ r == s + seg)) /\ r <= b /\ b - r < seg).
Proof. exact time_intervals_exact. Qed.
Print Assumptions C08_segments_exact_partial.
(* The "no GTIs are equal to or longer than segment_size" error. *)
Theorem C08_segments_error : forall g seg eps,
  0 < seg ->
  (exists e, time_intervals_from_gtis g seg 1 eps = Err e) <-> (forall a b, In (a, b) g -> b - a + eps <= seg).
Proof. exact time_intervals_err. Qed.
Print Assumptions C08_segments_error.

Example C08_nonvacuous : good [(0, 10); (12, 17)] /\ multiple_of 1 3 /\
  (forall a b, In (a, b) [(0, 10); (12, 17)] -> multiple_of 1 a /\ multiple_of 1 b) /\
  exists st en, time_intervals_from_gtis [(0, 10); (12, 17)] 3 1 (1 # 100000) = Ok (st, en) /\ length st = 4%nat.
Proof.
  split; [apply good_dec; reflexivity|]. split; [exists 3%Z; reflexivity|]. split.
  - intros a b [E|[E|[]]]; inversion E; split; [exists 0%Z|exists 10%Z|exists 12%Z|exists 17%Z]; reflexivity.
  - eexists. eexists. split; vm_compute; reflexivity.
Qed.

(* The fixed tolerance lets a segment end outside good time, and consecutive segments overlap. *)
Theorem C08_inside_refuted : 
  exists g seg st en s,
  good g /\ 0 < seg /\ time_intervals_from_gtis g seg 1 eps5 = Ok (st, en) /\ In s st /\
  (forall a b, In (a, b) g -> b < s + seg).
Proof. exact time_intervals_outside. Qed.
Print Assumptions C08_inside_refuted.
Theorem C08_overlap_refuted : 
  exists g seg st en s t,
  good g /\ 0 < seg /\ time_intervals_from_gtis g seg 1 eps5 = Ok (st, en) /\
  nth_error st 0 = Some s /\ nth_error st 1 = Some t /\ s <= t /\ t < s + seg.
Proof. exact time_intervals_overlap. Qed.
Print Assumptions C08_overlap_refuted.

(* ---------- C09 ---------- *)
Theorem C09_mask_complete_exact : forall time dts g safe minlen eps,
  g <> [] -> well_formed g -> length dts = length time ->
  exists mask new, create_gti_mask_complete time g safe minlen (Some dts) eps = Ok (mask, new) /\
    length mask = length time /\
    (forall i t d, nth_error time i = Some t -> nth_error dts i = Some d ->
       (nth_error mask i = Some true <->
        exists a b, In (a, b) g /\ minlen <= (b - snd safe) - (a + fst safe) /\
                    bin_inside t d (eps * d) (a + fst safe) (b - snd safe))) /\
    (forall x y, In (x, y) new <-> exists a b, In (a, b) g /\ x = a + fst safe /\ y = b - snd safe /\ minlen <= y - x).
Proof. exact mask_complete_main. Qed.
Print Assumptions C09_mask_complete_exact.
(* Everything the fast version selects is good, whatever the arguments. *)
Theorem C09_mask_fast_sound : forall time g safe minlen d eps mask new i t,
  create_gti_mask true time g safe minlen (Some d) eps = Ok (mask, new) -> nth_error time i = Some t ->
  nth_error mask i = Some true -> exists a b, In (a, b) g /\ bin_inside t d (eps * d) (a + fst safe) (b - snd safe).
Proof. exact mask_fast_sound. Qed.
Print Assumptions C09_mask_fast_sound.
(* The fast version is exact if every GTI holds at least one bin (missing: GTIs without bins, refuted
   below; min_length > 0 with explicit dt raises TypeError, below). *)
Theorem C09_mask_fast_exact_partial : forall time g safe minlen d eps,
  time <> [] -> nondecreasing time -> g <> [] -> well_formed g ->
  0 <= fst safe -> 0 <= snd safe -> 0 <= d -> 0 <= eps -> eps < 1 # 2 -> (0 < d \/ gaps_between g) -> minlen <= 0 ->
  (forall a b, In (a, b) g -> exists t, In t time /\ bin_inside t d (eps * d) (a + fst safe) (b - snd safe)) ->
  exists mask new, create_gti_mask true time g safe minlen (Some d) eps = Ok (mask, new) /\
    length mask = length time /\
    (forall i t, nth_error time i = Some t -> (nth_error mask i = Some true <->
       exists a b, In (a, b) g /\ bin_inside t d (eps * d) (a + fst safe) (b - snd safe))) /\
    new = map (fun iv : Q * Q => (fst iv + fst safe, snd iv - snd safe)) g.
Proof. exact mask_fast_main. Qed.
Print Assumptions C09_mask_fast_exact_partial.
Theorem C09_mask_fast_min_length_partial : forall time g minlen d eps,
  time <> [] -> nondecreasing time -> well_formed g ->
  median (diffs time) = Some d -> 0 < d -> 0 <= eps -> eps < 1 # 2 -> 0 < minlen ->
  (exists a b, In (a, b) g /\ minlen <= b - a) ->
  (forall a b, In (a, b) g -> minlen <= b - a -> exists t, In t time /\ bin_inside t d (eps * d) a b) ->
  exists mask new, create_gti_mask true time g (0, 0) minlen None eps = Ok (mask, new) /\
    length mask = length time /\
    (forall i t, nth_error time i = Some t -> (nth_error mask i = Some true <->
       exists a b, In (a, b) g /\ minlen <= b - a /\ bin_inside t d (eps * d) a b)) /\
    (forall x y, In (x, y) new <-> exists a b, In (a, b) g /\ minlen <= b - a /\ x = a + 0 /\ y = b - 0).
Proof. exact mask_fast_minlen. Qed.
Print Assumptions C09_mask_fast_min_length_partial.

Example C09_nonvacuous :
  let time := [1 # 2; 3 # 2; 5 # 2; 7 # 2; 9 # 2] in
  well_formed [(0, 2); (3, 5)] /\ nondecreasing time /\
  (forall a b, In (a, b) [(0, 2); (3, 5)] -> exists t, In t time /\ bin_inside t 1 ((1 # 1000) * 1) (a + 0) (b - 0)) /\
  (exists new, create_gti_mask true time [(0, 2); (3, 5)] (0, 0) 0 (Some 1) (1 # 1000) = Ok ([true; true; false; true; true], new)) /\
  (exists d, median (diffs time) = Some d /\ d == 1) /\
  (exists new, create_gti_mask true time [(0, 2); (3, 5)] (0, 0) 2 None (1 # 1000) = Ok ([true; true; false; true; true], new)).
Proof.
  intros time. split; [|split; [|split; [|split; [|split]]]].
  - apply (check_gtis_iff [(0, 2); (3, 5)]). vm_compute. reflexivity.
  - apply is_sorted_iff. vm_compute. reflexivity.
  - intros a b [E|[E|[]]]; inversion E; subst; [exists (1 # 2)|exists (7 # 2)]; (split; [simpl; tauto|]); unfold bin_inside; split; vm_compute; discriminate.
  - eexists. vm_compute. reflexivity.
  - eexists. split; vm_compute; reflexivity.
  - eexists. vm_compute. reflexivity.
Qed.

(* A GTI without bins makes the fast mask lose good bins of the next one. *)
Theorem C09_mask_fast_refuted : 
  exists time g mask new t a b,
  (forall i x y, nth_error time i = Some x -> nth_error time (S i) = Some y -> y - x == 1) /\ good g /\
  create_gti_mask true time g (0, 0) 0 (Some 1) (1 # 1000) = Ok (mask, new) /\
  nth_error time 2 = Some t /\ In (a, b) g /\ bin_inside t 1 0 a b /\ nth_error mask 2 = Some false.
Proof. exact mask_fast_skips. Qed.
Print Assumptions C09_mask_fast_refuted.
(* The default dt of the complete version is half the sampling time: a bin only partly inside is accepted. *)
Theorem C09_complete_default_dt : forall time g safe minlen eps d,
  median (map (fun x => x / 2) (diffs (np_sort time))) = Some d ->
  create_gti_mask_complete time g safe minlen None eps = create_gti_mask_complete time g safe minlen (Some (map (fun _ => d) time)) eps.
Proof. exact mask_complete_default. Qed.
Print Assumptions C09_complete_default_dt.
Theorem C09_complete_default_dt_refuted : 
  exists time g mask new t,
  (forall i x y, nth_error time i = Some x -> nth_error time (S i) = Some y -> y - x == 1) /\ good g /\
  create_gti_mask_complete time g (0, 0) 0 None (1 # 1000) = Ok (mask, new) /\
  nth_error time 1 = Some t /\ nth_error mask 1 = Some true /\ (forall a b, In (a, b) g -> ~ bin_inside t 1 (1 # 1000) a b).
Proof. exact mask_complete_default_half. Qed.
Print Assumptions C09_complete_default_dt_refuted.
Theorem C09_no_numba : forall time g safe minlen d eps,
  time <> [] -> g <> [] -> well_formed g -> minlen <= 0 ->
  exists mask new, create_gti_mask false time g safe minlen (Some d) eps = Ok (mask, new) /\
    length mask = length time /\
    (forall i t, nth_error time i = Some t ->
       (nth_error mask i = Some true <->
        exists a b, In (a, b) g /\ minlen <= (b - snd safe) - (a + fst safe) /\
                    bin_inside t d (eps * d) (a + fst safe) (b - snd safe))) /\
    (forall x y, In (x, y) new <-> exists a b, In (a, b) g /\ x = a + fst safe /\ y = b - snd safe /\ minlen <= y - x).
Proof. exact mask_no_numba. Qed.
Print Assumptions C09_no_numba.
Theorem C09_nothing_long : forall numba time g safe minlen eps,
  time <> [] -> g <> [] -> 0 < minlen ->
  (forall a b, In (a, b) g -> b - a < minlen) ->
  create_gti_mask numba time g safe minlen None eps = Ok (map (fun _ => false) time, []).
Proof. exact mask_nothing_long. Qed.
Print Assumptions C09_nothing_long.
(* min_length together with an explicit dt always raises TypeError. *)
Theorem C09_min_length_dt_error : forall numba time g safe minlen d eps,
  time <> [] -> g <> [] -> 0 < minlen ->
  create_gti_mask numba time g safe minlen (Some d) eps = Err TypeError.
Proof. exact mask_minlen_dt. Qed.
Print Assumptions C09_min_length_dt_error.

(* ---------- C10 ---------- *)
Theorem C10_border_bins_exact : forall g time d eps l,
  increasing time -> gti_border_bins g time d eps = Ok l ->
  Forall2 (fun (iv : Q * Q) (b : nat * nat) => (snd b <= length time)%nat /\
     forall k t, nth_error time k = Some t ->
       ((fst b <= k < snd b)%nat <-> bin_inside t d (eps * d) (fst iv) (snd iv))) g l.
Proof. exact gti_border_bins_main. Qed.
Print Assumptions C10_border_bins_exact.
Theorem C10_border_bins_total : forall g time d eps,
  nondecreasing time -> g <> [] -> 0 <= d -> 0 <= eps -> eps <= 1 # 2 ->
  (forall a b, In (a, b) g -> a <= b /\ exists t, In t time /\ bin_inside t d (eps * d) a b) ->
  exists l, gti_border_bins g time d eps = Ok l.
Proof. exact gti_border_bins_total. Qed.
Print Assumptions C10_border_bins_total.
Theorem C10_segment_bins_exact : forall start stop nbin,
  (0 < nbin)%nat -> (start < stop)%nat ->
  calculate_segment_bin_start start stop nbin nbin =
  Ok (map (fun i => start + i * nbin)%nat (seq 0 ((stop - start) / nbin))).
Proof. exact segment_bins_main. Qed.
Print Assumptions C10_segment_bins_exact.
Theorem C10_segment_bins_empty : forall start stop nbin step,
  (stop <= start)%nat ->
  exists e, calculate_segment_bin_start start stop nbin step = Err e.
Proof. exact segment_bins_empty. Qed.
Print Assumptions C10_segment_bins_empty.
Theorem C10_bin_intervals_exact : forall g seg time d eps st en,
  0 < d -> 0 <= eps -> eps < 1 # 2 ->
  well_formed g -> increasing time ->
  bin_intervals_from_gtis g seg time d 1 eps = Ok (st, en) ->
  let nbin := Z.to_nat (rint (seg / d)) in
  (0 < nbin)%nat /\ st <> [] /\ en = map (fun s => s + nbin)%nat st /\
  (forall s, In s st -> exists a b, In (a, b) g /\
     forall k, (s <= k < s + nbin)%nat -> exists t, nth_error time k = Some t /\ bin_inside t d (eps * d) a b) /\
  (forall i j s s', (i < j)%nat -> nth_error st i = Some s -> nth_error st j = Some s' -> (s + nbin <= s')%nat) /\
  (forall a b p, In (a, b) g -> seg <= b - a + 3 * eps * d ->
     (forall k, (p <= k < p + nbin)%nat -> exists t, nth_error time k = Some t /\ bin_inside t d (eps * d) a b) ->
     exists s, In s st /\ (s <= p < s + nbin)%nat).
Proof. exact bin_intervals_main. Qed.
Print Assumptions C10_bin_intervals_exact.

Example C10_nonvacuous :
  let time := map (fun k => inject_Z (Z.of_nat k) + (1 # 2)) (seq 0 10) in
  well_formed [(0, 5); (6, 10)] /\ increasing time /\
  gti_border_bins [(0, 5); (6, 10)] time 1 (1 # 1000) = Ok [(0, 5); (6, 10)]%nat /\
  bin_intervals_from_gtis [(0, 5); (6, 10)] 2 time 1 1 (1 # 1000) = Ok ([0; 2; 6; 8]%nat, [2; 4; 8; 10]%nat) /\
  (forall a b, In (a, b) [(0, 5); (6, 10)] -> a <= b /\ exists t, In t time /\ bin_inside t 1 ((1 # 1000) * 1) a b).
Proof.
  intros time. split; [apply (check_gtis_iff [(0, 5); (6, 10)]); vm_compute; reflexivity|].
  split; [unfold increasing; apply (proj1 (ss_nth Qlt _)); unfold time; cbn; repeat constructor|].
  split; [vm_compute; reflexivity|]. split; [vm_compute; reflexivity|].
  intros a b [E|[E|[]]]; inversion E; subst; (split; [vm_compute; discriminate|]).
  - exists (1 # 2). split; [left; reflexivity|]. unfold bin_inside; split; vm_compute; discriminate.
  - exists (13 # 2). split; [do 6 right; left; reflexivity|]. unfold bin_inside; split; vm_compute; discriminate.
Qed.

(* A GTI that starts after the last time stamp crashes both functions. *)
Theorem C10_border_bins_refuted : 
  exists g time,
  good g /\ increasing time /\ (exists a b t, In (a, b) g /\ In t time /\ a < t /\ t < b) /\
  gti_border_bins g time 1 (1 # 1000) = Err IndexError.
Proof. exact border_bins_crash. Qed.
Print Assumptions C10_border_bins_refuted.
Theorem C10_bin_intervals_refuted : 
  exists g seg time,
  good g /\ increasing time /\
  (exists a b, In (a, b) g /\ forall k, (k < 4)%nat -> exists t, nth_error time k = Some t /\ bin_inside t 1 0 a b) /\
  bin_intervals_from_gtis g seg time 1 1 (1 # 1000) = Err IndexError.
Proof. exact bin_intervals_crash. Qed.
Print Assumptions C10_bin_intervals_refuted.
Theorem C10_outside_rejected : forall g time d eps seg frac,
  time <> [] -> g <> [] -> increasing time ->
  ((forall a b t, In (a, b) g -> In t time -> t < a /\ t < b) \/ (forall a b t, In (a, b) g -> In t time -> a < t /\ b < t)) ->
  gti_border_bins g time d eps = Err ValueError /\ bin_intervals_from_gtis g seg time d frac eps = Err ValueError.
Proof. exact outside_rejected. Qed.
Print Assumptions C10_outside_rejected.
(* With fraction_step < 1 segments run past the end of the GTI. *)
Theorem C10_fraction_step_refuted : 
  exists start stop nbin step l s,
  (0 < step <= nbin)%nat /\ calculate_segment_bin_start start stop nbin step = Ok l /\
  In s l /\ (stop < s + nbin)%nat.
Proof. exact segment_bins_fraction. Qed.
Print Assumptions C10_fraction_step_refuted.

(* ---------- C12 ---------- *)
(* Missing: index lists that hold only zeros, or negative indices (refuted below). *)
Theorem C12_split_at_indices_partial : forall g idx,
  nondec_nat idx -> (exists i, In i idx /\ (i <> 0)%Z) ->
  exists parts, split_gtis_at_indices g idx = Ok parts /\ concat parts = g.
Proof. exact split_at_main. Qed.
Print Assumptions C12_split_at_indices_partial.
(* Exposure split: same good time, bounded parts (the list of intervals itself is cut, so the
   concatenation refines the input; missing: exposure limit without any large gap, refuted below). *)
Theorem C12_split_by_exposure : forall g chunk M,
  0 < chunk -> well_formed g -> (forall a b, In (a, b) g -> b - a <= M) -> 0 <= M ->
  exists parts, split_gtis_by_exposure g chunk None = Ok parts /\
    well_formed (concat parts) /\ exposure (concat parts) == exposure g /\
    (forall t, covered (concat parts) t <-> covered g t) /\
    (forall p, In p parts -> exposure p <= (3 # 2) * chunk + M).
Proof. exact split_by_exposure_main. Qed.
Print Assumptions C12_split_by_exposure.
Theorem C12_split_by_exposure_gap_partial : forall g chunk limit M,
  0 < chunk -> 0 <= limit -> well_formed g ->
  (forall a b, In (a, b) g -> b - a <= M) -> 0 <= M ->
  (exists i a b c d, nth_error g i = Some (a, b) /\ nth_error g (S i) = Some (c, d) /\ limit < c - b) ->
  exists parts, split_gtis_by_exposure g chunk (Some limit) = Ok parts /\
    exposure (concat parts) == exposure g /\
    (forall t, covered (concat parts) t <-> covered g t) /\
    (forall p, In p parts -> exposure p <= (3 # 2) * chunk + M).
Proof. exact split_by_exposure_sep. Qed.
Print Assumptions C12_split_by_exposure_gap_partial.
Theorem C12_large_gaps : forall limit g,
  forall e m, In m (large_btis limit e g) <->
  exists pre a b post, g = pre ++ (a, b) :: post /\
    limit < a - last (map snd pre) e /\ m = (a + last (map snd pre) e) / 2.
Proof. exact large_btis_iff. Qed.
Print Assumptions C12_large_gaps.

Example C12_nonvacuous : nondec_nat [1; 3]%Z /\ (exists i, In i [1; 3]%Z /\ (i <> 0)%Z) /\
  split_gtis_at_indices [(0, 1); (2, 3); (4, 5); (6, 7)] [1; 3]%Z = Ok [[(0, 1)]; [(2, 3); (4, 5)]; [(6, 7)]] /\
  (exists parts, split_gtis_by_exposure [(0, 10); (50, 60)] 5 (Some 20) = Ok parts /\ length parts = 4%nat).
Proof.
  split; [split; repeat constructor; lia|]. split; [exists 1%Z; split; [left; reflexivity|lia]|].
  split; [vm_compute; reflexivity|]. eexists. split; vm_compute; reflexivity.
Qed.

Theorem C12_no_gap_refuted : 
  exists g chunk limit,
  good g /\ split_gtis_by_exposure g chunk (Some limit) = Err IndexError.
Proof. exact split_by_exposure_nogap_crash. Qed.
Print Assumptions C12_no_gap_refuted.
Theorem C12_empty_part_refuted : 
  exists g chunk parts,
  good g /\ split_gtis_by_exposure g chunk None = Ok parts /\ In [] parts.
Proof. exact split_by_exposure_empty_part. Qed.
Print Assumptions C12_empty_part_refuted.
Theorem C12_index_zero_error : 
  forall g, split_gtis_at_indices g [0%Z] = Err IndexError.
Proof. exact split_at_zero_crash. Qed.
Print Assumptions C12_index_zero_error.
Theorem C12_negative_index_refuted : 
  exists g parts, split_gtis_at_indices g [(-1)%Z] = Ok parts /\ concat parts <> g.
Proof. exact split_at_neg. Qed.
Print Assumptions C12_negative_index_refuted.

(* ---------- C13 ---------- *)
(* Missing: default dt with uneven sampling, and dt given as bin widths (both refuted below). *)
Theorem C13_condition_half_widths_partial : forall time cond dt,
  time <> [] -> length time = length cond ->
  half_widths_ok time dt ->
  exists g, create_gti_from_condition time cond (0, 0) (Some dt) = Ok g /\
    well_formed g /\ gaps_between g /\
    (forall i t, nth_error time i = Some t -> (covered_closed g t <-> nth_error cond i = Some true)).
Proof. exact from_condition_main. Qed.
Print Assumptions C13_condition_half_widths_partial.
Theorem C13_condition_even_partial : forall n t0 step cond,
  (2 <= n)%nat -> 0 < step -> length cond = n ->
  let time := map (fun i => t0 + inject_Z (Z.of_nat i) * step) (seq 0 n) in
  exists g, create_gti_from_condition time cond (0, 0) None = Ok g /\
    well_formed g /\ gaps_between g /\
    (forall i t, nth_error time i = Some t -> (covered_closed g t <-> nth_error cond i = Some true)).
Proof. exact from_condition_even. Qed.
Print Assumptions C13_condition_even_partial.

Example C13_nonvacuous : half_widths_ok [0; 1; 5] [1 # 4; 1 # 4; 1 # 4] /\
  create_gti_from_condition [0; 1; 5] [true; false; true] (0, 0) (Some [1 # 4; 1 # 4; 1 # 4])
    = Ok [(-1 # 4, 1 # 4); (19 # 4, 21 # 4)].
Proof.
  split; [|vm_compute; reflexivity]. split; [reflexivity|]. split.
  - intros [|[|[|i]]] d E; inversion E; try (vm_compute; discriminate). destruct i; discriminate.
  - intros i j t u d e Hij A B C D.
    destruct i as [|[|[|i]]], j as [|[|[|j]]]; try lia; try (destruct j; discriminate);
      inversion A; inversion B; inversion C; inversion D; subst; split; reflexivity.
Qed.

Theorem C13_uneven_refuted : 
  exists time cond g i t,
  increasing time /\ create_gti_from_condition time cond (0, 0) None = Ok g /\
  nth_error time i = Some t /\ nth_error cond i = Some false /\ covered g t.
Proof. exact from_condition_uneven. Qed.
Print Assumptions C13_uneven_refuted.
Theorem C13_dt_width_refuted : 
  exists time cond g i t,
  increasing time /\ (forall a b k, nth_error time k = Some a -> nth_error time (S k) = Some b -> b - a == 1) /\
  create_gti_from_condition time cond (0, 0) (Some (map (fun _ => 1) time)) = Ok g /\
  nth_error time i = Some t /\ nth_error cond i = Some false /\ covered g t.
Proof. exact from_condition_dt_is_half. Qed.
Print Assumptions C13_dt_width_refuted.

(* ---------- C14 ---------- *)
Theorem C14_segment_indices_exact : forall times g seg eps out,
  0 < seg ->
  generate_indices_of_segment_boundaries_unbinned times g seg eps = Ok out ->
  (exists st, time_intervals_from_gtis g seg 1 eps = Ok (st, map (fun s => s + seg) st) /\
     map fst out = map (fun s => (s, s + seg)) st) /\
  (forall s e i j, In (s, e, (i, j)) out -> (i <= j <= length times)%nat /\ e = s + seg /\
     forall k t, nth_error times k = Some t -> ((i <= k < j)%nat <-> s <= t /\ t < e)).
Proof. exact unbinned_main. Qed.
Print Assumptions C14_segment_indices_exact.
Theorem C14_segment_indices_total : forall times g seg eps,
  0 < seg -> nondecreasing times ->
  (exists a b, In (a, b) g /\ seg < b - a + eps) ->
  exists out, generate_indices_of_segment_boundaries_unbinned times g seg eps = Ok out.
Proof. exact unbinned_total. Qed.
Print Assumptions C14_segment_indices_total.
Theorem C14_unsorted_rejected : forall times g seg eps,
  ~ nondecreasing times ->
  exists e, generate_indices_of_segment_boundaries_unbinned times g seg eps = Err e.
Proof. exact unbinned_unsorted. Qed.
Print Assumptions C14_unsorted_rejected.

Example C14_nonvacuous : nondecreasing [0; 1; 1; 2; 7 # 2; 4; 9] /\
  exists out, generate_indices_of_segment_boundaries_unbinned [0; 1; 1; 2; 7 # 2; 4; 9] [(0, 4)] 2 (1 # 100000) = Ok out /\
    map snd out = [(0, 3); (3, 5)]%nat.
Proof.
  split; [apply is_sorted_iff; reflexivity|]. eexists. split; vm_compute; reflexivity.
Qed.

(* ---------- C19 ---------- *)
Theorem C19_contiguous_regions_exact : forall c,
  c <> [] -> exists l, contiguous_regions c = Ok l /\ separated_ranges l /\
  (forall k, in_ranges l k <-> nth_error c k = Some true) /\
  (forall l', separated_ranges l' -> (forall k, in_ranges l' k <-> nth_error c k = Some true) -> l' = l).
Proof. exact contiguous_final. Qed.
Print Assumptions C19_contiguous_regions_exact.

Example C19_nonvacuous : contiguous_regions [true; true; false; true; false; false; true] = Ok [(0, 2); (3, 4); (6, 7)]%nat.
Proof. reflexivity. Qed.

(* ---------- C48 ---------- *)
(* Evenly sampled times.  Missing: the reported end of a segment that reaches the last bin (refuted below). *)
Theorem C48_binned_segments_partial : forall g seg n t0 d out,
  0 < d -> well_formed g ->
  let time := map (fun k => t0 + inject_Z (Z.of_nat k) * d) (seq 0 n) in
  let nbin := Z.to_nat (rint (seg / d)) in
  (exists r, bin_intervals_from_gtis g seg time d 1 (1 # 1000) = Ok r) ->
  generate_indices_of_segment_boundaries_binned time g seg d = Ok out ->
  (0 < nbin)%nat /\
  (forall s e i j, In (s, e, (i, j)) out -> (i < j <= n)%nat /\ j = (i + nbin)%nat /\
     (exists ta, nth_error time i = Some ta /\ s == ta - d / 2) /\
     (exists a b, In (a, b) g /\ forall k, (i <= k < j)%nat -> exists t, nth_error time k = Some t /\ bin_inside t d ((1 # 1000) * d) a b) /\
     ((j < n)%nat -> e - s == inject_Z (Z.of_nat nbin) * d)) /\
  (forall p q s e i j s' e' i' j', (p < q)%nat -> nth_error out p = Some (s, e, (i, j)) ->
     nth_error out q = Some (s', e', (i', j')) -> (j <= i')%nat).
Proof. exact binned_main. Qed.
Print Assumptions C48_binned_segments_partial.
Theorem C48_gti_boundaries_exact : forall times g out,
  increasing times ->
  generate_indices_of_gti_boundaries times g = Ok out ->
  map fst out = g /\
  (forall a b i j, In (a, b, (i, j)) out -> (j <= length times)%nat /\
     forall k t, nth_error times k = Some t -> ((i <= k < j)%nat <-> a <= t /\ t <= b)).
Proof. exact gti_boundaries_main. Qed.
Print Assumptions C48_gti_boundaries_exact.

Example C48_nonvacuous :
  let time := map (fun k => (1 # 2) + inject_Z (Z.of_nat k) * 1) (seq 0 8) in
  well_formed [(0, 4); (5, 7)] /\
  (exists r, bin_intervals_from_gtis [(0, 4); (5, 7)] 2 time 1 1 (1 # 1000) = Ok r) /\
  (exists out, generate_indices_of_segment_boundaries_binned time [(0, 4); (5, 7)] 2 1 = Ok out /\
     map snd out = [(0, 2); (2, 4); (5, 7)]%nat) /\
  increasing [1; 2; 5; 8] /\
  generate_indices_of_gti_boundaries [1; 2; 5; 8] [(0, 2); (4, 9)] = Ok [((0, 2), (0, 2)%nat); ((4, 9), (2, 4)%nat)].
Proof.
  intros time. split; [apply (check_gtis_iff [(0, 4); (5, 7)]); vm_compute; reflexivity|].
  split; [eexists; vm_compute; reflexivity|]. split; [eexists; split; vm_compute; reflexivity|].
  split; [unfold increasing; apply (proj1 (ss_nth Qlt _)); repeat constructor|vm_compute; reflexivity].
Qed.

(* The last segment of an array is reported one bin too short. *)
Theorem C48_last_segment_refuted : 
  exists g seg time d s e i j out,
  good g /\ (forall k x y, nth_error time k = Some x -> nth_error time (S k) = Some y -> y - x == d) /\
  generate_indices_of_segment_boundaries_binned time g seg d = Ok out /\ In (s, e, (i, j)) out /\
  ~ e - s == seg /\ inject_Z (Z.of_nat (j - i)) * d == seg.
Proof. exact binned_last. Qed.
Print Assumptions C48_last_segment_refuted.

