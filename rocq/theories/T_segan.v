(* T_segan.v: property theorems about the segment by segment methods of time series (C76-C79). *)
From Coq Require Import Lqa Lia Permutation.
From Verif Require Import Np M_gti M_seg M_merge M_utils M_lc M_base M_segan S_gti S_seg S_base S_flux S_segan P_gti_cross P_gti_final P_seg_cut P_segan P_segan2 P_segan3 P_segan4 P_segan5 P_segan6.
Open Scope Q_scope.

(* ---------- C76: analysis segment by segment ---------- *)
Theorem C76_events : forall A lc srt (f : series -> A) s g seg,
  sorts_by t_end srt -> good g -> gti_of s = Some g ->
  nondecreasing (s_time s) -> s_dt s == 0 -> regular s -> 0 < seg -> (exists a b, In (a, b) g /\ seg < b - a + (1 # 100000)) ->
  exists st, segment_grid g seg (1 # 100000) st /\
  analyze_segments lc srt (fun x => Ok (f x)) s (Some seg) 1 =
  Ok (st, map (fun a => a + seg) st,
      map (fun a => f (cut_window lc s a (a + seg))) (filter (fun a => Nat.leb 2 (samples_in (s_time s) a (a + seg))) st)).
Proof. exact @analyze_events. Qed.
Print Assumptions C76_events.
Theorem C76_steps : forall A lc srt (f : series -> A) s g seg frac,
  sorts_by t_end srt -> good g -> gti_of s = Some g ->
  nondecreasing (s_time s) -> s_dt s == 0 -> regular s -> 0 < seg -> 0 < frac -> (exists a b, In (a, b) g /\ seg < b - a + (1 # 100000)) ->
  exists st, step_grid g seg (seg * frac) (1 # 100000) st /\
  analyze_segments lc srt (fun x => Ok (f x)) s (Some seg) frac =
  Ok (st, map (fun a => a + seg) st,
      map (fun a => f (cut_window lc s a (a + seg))) (filter (fun a => Nat.leb 2 (samples_in (s_time s) a (a + seg))) st)).
Proof. exact @analyze_steps. Qed.
Print Assumptions C76_steps.
Theorem C76_gtis : forall A lc srt (f : series -> A) s g frac,
  sorts_by t_end srt -> good g -> gti_of s = Some g ->
  nondecreasing (s_time s) -> 0 <= s_dt s -> regular s ->
  analyze_by_gti lc srt (fun x => Ok (f x)) s frac =
  Ok (map fst g, map snd g,
      map (fun iv => f (cut_window lc s (fst iv) (snd iv))) (filter (fun iv => Nat.leb 2 (samples_in (s_time s) (fst iv) (snd iv))) g)).
Proof. exact @analyze_gtis. Qed.
Print Assumptions C76_gtis.
(* Binned data: the pieces are right, the stop times are one bin too late. *)
Theorem C76_binned : forall A lc srt (f : series -> A) s g seg starts stops res,
  sorts_by t_end srt -> good g -> gti_of s = Some g ->
  increasing (s_time s) -> 0 < s_dt s -> regular s ->
  analyze_segments lc srt (fun x => Ok (f x)) s (Some seg) 1 = Ok (starts, stops, res) ->
  let n := Z.to_nat (rint (seg / s_dt s)) in
  exists segs : list (nat * (Q * Q)),
    starts = map (fun p => fst (snd p)) segs /\ stops = map (fun p => snd (snd p)) segs /\
    res = (if Nat.ltb n 2 then [] else map (fun p => f (piece_of lc (range_flags (length (s_time s)) (fst p) (fst p + n)) [snd p] s)) segs) /\
    (forall i a b, In (i, (a, b)) segs -> exists t t', nth_error (s_time s) i = Some t /\ nth_error (s_time s) (i + n - 1) = Some t' /\
       a == t - s_dt s / 2 /\ b == t' + s_dt s / 2 + s_dt s) /\
    (forall i, In i (map fst segs) -> exists a b, In (a, b) g /\
       forall k, (i <= k < i + n)%nat -> exists t, nth_error (s_time s) k = Some t /\ bin_inside t (s_dt s) ((1 # 1000) * s_dt s) a b) /\
    (forall p q i j, (p < q)%nat -> nth_error (map fst segs) p = Some i -> nth_error (map fst segs) q = Some j -> (i + n <= j)%nat) /\
    (forall a b p, In (a, b) g -> seg <= b - a + 3 * (1 # 1000) * s_dt s ->
       (forall k, (p <= k < p + n)%nat -> exists t, nth_error (s_time s) k = Some t /\ bin_inside t (s_dt s) ((1 # 1000) * s_dt s) a b) ->
       exists i, In i (map fst segs) /\ (i <= p < i + n)%nat).
Proof. exact @analyze_binned. Qed.
Print Assumptions C76_binned.
Theorem C76_aligned_refuted : 
  exists s st en res,
  analyze_segments false srt0 (fun s => Ok (length (s_time s))) s (Some 10) 1 = Ok (st, en, res) /\ length st = 3%nat /\ length res = 2%nat.
Proof. exact analyze_misaligned. Qed.
Print Assumptions C76_aligned_refuted.
Theorem C76_overlap_refuted : 
  exists s st en (res : list nat) a b, s_dt s == 1 /\ gti_of s = Some [(1 # 2, 9 # 2)] /\
  analyze_segments false srt0 (fun s => Ok (length (s_time s))) s (Some 2) 1 = Ok (st, en, res) /\
  nth_error en 0 = Some a /\ nth_error st 1 = Some b /\ a == b + 1 /\ exists c, nth_error en 1 = Some c /\ (9 # 2) < c.
Proof. exact analyze_overlap. Qed.
Print Assumptions C76_overlap_refuted.

Example C76_nonvacuous : good [(0, 30)] /\ nondecreasing [1; 2; 3; 12; 21; 22; 23] /\
  exists st en, analyze_segments false (isort_by t_end) (fun s => Ok (s_time s)) (ev [1; 2; 3; 12; 21; 22; 23] [(0, 30)]) (Some 10) 1 = Ok (st, en, [[1; 2; 3]; [21; 22; 23]]).
Proof. split; [apply good_dec; reflexivity|]. split; [apply is_sorted_iff; reflexivity|]. eexists _, _. vm_compute. reflexivity. Qed.
Example C76_steps_nonvacuous : exists st en,
  analyze_segments false (isort_by t_end) (fun s => Ok (s_time s)) (ev [1; 2; 3; 12; 13] [(0, 20)]) (Some 10) (1 # 2) = Ok (st, en, [[1; 2; 3]; [12; 13]; [12; 13]]).
Proof. eexists _, _. vm_compute. reflexivity. Qed.
Example C76_binned_nonvacuous : exists st en,
  analyze_segments false (isort_by t_end) (fun s => Ok (s_time s)) (mkSeries [1; 2; 3; 4] [] [] 1 (Some [(1 # 2, 9 # 2)]) 0 None None) (Some 2) 1 = Ok (st, en, [[1; 2]; [3; 4]]).
Proof. eexists _, _. vm_compute. reflexivity. Qed.

(* ---------- C77: series filtered with lists of good time intervals ---------- *)
Theorem C77_lists : forall lc srt s g h l,
  sorts_by t_end srt -> good g -> gti_of s = Some g -> increasing (s_time s) -> 0 <= s_dt s -> regular s ->
  ~ near_lists h g ->
  (forall h', In h' (h :: l) -> h' <> [] -> exists t, In t (s_time s) /\ first_start h' <= t /\ t <= last_end h') ->
  apply_gti_lists lc srt s (h :: l) =
  Ok (map (fun h => piece_of lc (map (in_closed (first_start h) (last_end h)) (s_time s)) h s) (filter (fun h => match h with [] => false | _ => true end) (h :: l))).
Proof. exact apply_lists_far. Qed.
Print Assumptions C77_lists.
Theorem C77_intervals : forall lc srt s g ivs,
  sorts_by t_end srt -> good g -> gti_of s = Some g -> increasing (s_time s) -> 0 <= s_dt s -> regular s -> ivs <> [] ->
  (forall iv, hd_error ivs = Some iv -> ~ near_lists [iv] g) ->
  (forall a b, In (a, b) ivs -> exists t, In t (s_time s) /\ a <= t /\ t <= b) ->
  filter_at_time_intervals lc srt s ivs false = Ok (map (fun iv => piece_of lc (map (in_closed (fst iv) (snd iv)) (s_time s)) [iv] s) ivs).
Proof. exact filter_far. Qed.
Print Assumptions C77_intervals.
(* The first list equal to the GTIs of the series: the other lists are ignored. *)
Theorem C77_single : forall lc srt s g h l,
  gti_of s = Some g -> near_lists h g ->
  apply_gti_lists lc srt s (h :: l) = apply_gti_lists lc srt s [g].
Proof. exact apply_lists_near. Qed.
Print Assumptions C77_single.
Theorem C77_all_lists_refuted : 
  exists s l out, gti_of s = Some [(0, 30)] /\ l = [[(0, 30)]; [(0, 10)]] /\
  apply_gti_lists false srt0 s l = Ok out /\ length out = 1%nat /\ forall x, In x out -> s_gti x <> Some [(0, 30)].
Proof. exact apply_lists_dropped. Qed.
Print Assumptions C77_all_lists_refuted.
Theorem C77_ties_refuted : 
  exists s out x, gti_of s = Some [(0, 30)] /\ nondecreasing (s_time s) /\
  apply_gti_lists false srt0 s [[(0, 2)]] = Ok out /\ out = [x] /\ length (filter (in_closed 0 2) (s_time s)) = 3%nat /\ length (s_time x) = 2%nat.
Proof. exact apply_lists_ties. Qed.
Print Assumptions C77_ties_refuted.
Theorem C77_empty_refuted : 
  exists s, gti_of s = Some [(0, 30)] /\ good [(0, 30)] /\ increasing (s_time s) /\ apply_gti_lists false srt0 s [[(13, 14)]] = Err TypeError.
Proof. exact apply_lists_empty. Qed.
Print Assumptions C77_empty_refuted.

Example C77_nonvacuous : ~ near_lists [(0, 10)] [(0, 30)] /\ near_lists [(0, 30)] [(0, 30)] /\ increasing [1; 2; 3; 12; 21; 22; 23] /\
  exists a b, apply_gti_lists false (isort_by t_end) (ev [1; 2; 3; 12; 21; 22; 23] [(0, 30)]) [[(0, 2)]; [(3, 5); (10, 21)]] = Ok [a; b] /\ s_time a = [1; 2] /\ s_time b = [3; 12; 21].
Proof.
  split; [intros H; apply near_iff in H; discriminate|]. split; [apply near_iff; reflexivity|]. split; [apply incr_dec; reflexivity|]. eexists _, _. split; [vm_compute; reflexivity|]. split; reflexivity. Qed.

(* ---------- C78: estimate of the segment size ---------- *)
Theorem C78_events_partial : forall fuel lc numba srt counts s g mc ms even size,
  sorts_by t_end srt -> good g -> gti_of s = Some g ->
  nondecreasing (s_time s) -> s_dt s == 0 -> regular s -> even <> Some true -> 0 < ms ->
  estimate_segment_size fuel lc numba srt counts s mc (Some ms) even = Ok size ->
  let mc' := match mc with Some c => c | None => ms end in
  exists first (k : nat), size == first + inject_Z (Z.of_nat k) /\ ms <= first /\ enough_at counts s g mc' size /\
    forall j, (j < k)%nat -> exists sz, sz == first + inject_Z (Z.of_nat j) /\ short_at counts s g mc' sz.
Proof. exact estimate_main. Qed.
Print Assumptions C78_events_partial.
Theorem C78_terminates : forall lc numba srt counts s g mc ms even,
  sorts_by t_end srt -> good g -> gti_of s = Some g ->
  nondecreasing (s_time s) -> s_dt s == 0 -> regular s -> even <> Some true -> 0 < ms ->
  exists N, forall fuel, (N <= fuel)%nat -> estimate_segment_size fuel lc numba srt counts s mc (Some ms) even <> Err OutOfFuel.
Proof. exact estimate_terminates. Qed.
Print Assumptions C78_terminates.
(* min_samples=None, which the documentation allows, always fails. *)
Theorem C78_no_samples_error : forall fuel lc numba srt counts s mc even,
  exists e, estimate_segment_size fuel lc numba srt counts s mc None even = Err e.
Proof. exact estimate_no_samples. Qed.
Print Assumptions C78_no_samples_error.
Theorem C78_all_segments_refuted : 
  exists s size st a, good [(0, 10)] /\ gti_of s = Some [(0, 10)] /\ s_dt s == 0 /\ nondecreasing (s_time s) /\
  estimate_segment_size 10 false false srt0 0 s (Some 3) (Some 5) None = Ok size /\
  time_intervals_from_gtis [(0, 10)] size 1 (1 # 100000) = Ok (st, map (fun x => x + size) st) /\ In a st /\ window_sum 0 s a (a + size) < 3.
Proof. exact estimate_unchecked. Qed.
Print Assumptions C78_all_segments_refuted.
Theorem C78_min_samples_refuted : 
  exists s size, good [(0, 8)] /\ gti_of s = Some [(0, 8)] /\ s_dt s == 0 /\ increasing (s_time s) /\
  estimate_segment_size 10 false false srt0 0 s (Some 2) (Some 4) None = Ok size /\ samples_in (s_time s) 0 size = 2%nat.
Proof. exact estimate_samples. Qed.
Print Assumptions C78_min_samples_refuted.

Example C78_nonvacuous : exists size, estimate_segment_size 10 false true (isort_by t_end) 0 (ev [1; 2; 5 # 2; 3; 4; 7; 8; 9] [(0, 10)]) (Some 4) (Some 2) None = Ok size /\ size == 6.
Proof. eexists. split; vm_compute; reflexivity. Qed.

(* ---------- C79: filling of bad time intervals ---------- *)
Theorem C79_fill : forall numba r s_start s_edge argsort s g ml buffer even out t0 tl,
  uniform_in (uniform r) -> choice_in (choice r) -> sorts_by fst s_start -> sorts_by fst s_edge -> is_argsort argsort ->
  good g -> gaps_between g -> gti_of s = Some g -> nondecreasing (s_time s) -> 0 <= s_dt s -> (even = Some true -> 0 < s_dt s) ->
  (numba = false \/ all_hold_bins g (gti_eps * s_dt s) (s_dt s) (s_time s)) ->
  nth_error (s_time s) 0 = Some t0 -> get_last (s_time s) = Ok tl ->
  (exists t, t0 <= t /\ t < tl /\ ~ covered g t) ->
  fill_bad numba r s_start s_edge argsort s (Some ml) buffer even = Ok out ->
  exists m order newt gaps,
    flags (bin_in g (gti_eps * s_dt s) (s_dt s)) (s_time s) m /\
    (forall a b, In (a, b) gaps -> a_gap g a b) /\
    (forall t, In t newt -> exists a b, In (a, b) gaps /\ b - a <= ml /\ a <= t /\ t <= b) /\
    Permutation order (seq 0 (length (keep m (s_time s)) + length newt)) /\
    s_time out = reordered order (keep m (s_time s) ++ newt) /\ nondecreasing (s_time out) /\
    (even = Some true \/ s_cols out <> [] -> Forall2 (filled_col m order (length newt)) (s_cols s) (s_cols out)) /\
    exists g', s_gti out = Some g' /\ forall t, covered g' t <-> covered g t \/
      exists a b, In (a, b) gaps /\ b - a <= ml /\ a - (1 # 100000) * (b - a) <= t /\ t < b + (1 # 100000) * (b - a).
Proof. exact fill_main. Qed.
Print Assumptions C79_fill.
Theorem C79_long_error : forall numba r s_start s_edge argsort s g ml buffer even,
  good g -> gti_of s = Some g ->
  (forall t0 tl btis, get_btis g (Some t0) (Some tl) = Ok btis -> nth_error (s_time s) 0 = Some t0 -> get_last (s_time s) = Ok tl ->
     btis <> [] /\ forall a b, In (a, b) btis -> ml < b - a) ->
  exists e, fill_bad numba r s_start s_edge argsort s (Some ml) buffer even = Err e.
Proof. exact fill_long. Qed.
Print Assumptions C79_long_error.
Theorem C79_good_values_refuted : 
  exists s out g v, gti_of s = Some g /\ good g /\ s_dt s == 1 /\
  fill_bad false rng0 (isort_by fst) (isort_by fst) sort0 s (Some 3) (Some 4%Z) None = Ok out /\ s_cols out = [(0%nat, v)] /\ In 100 v /\
  forall i t x, nth_error (s_time s) i = Some t -> column 0 (s_cols s) = Some x -> nth_error x i = Some 100 -> ~ covered g t.
Proof. exact fill_bad_values. Qed.
Print Assumptions C79_good_values_refuted.
Theorem C79_skipped_refuted : 
  exists s out g, gti_of s = Some g /\ good g /\ s_dt s == 0 /\ length (s_cols s) = 1%nat /\
  fill_bad false rng0 (isort_by fst) (isort_by fst) sort0 s (Some 3) (Some 1%Z) None = Ok out /\ s_time out = s_time s /\ s_cols out = [] /\
  exists g', s_gti out = Some g' /\ covered g' 4 /\ ~ covered g 4.
Proof. exact fill_skipped. Qed.
Print Assumptions C79_skipped_refuted.
Theorem C79_long_refuted : 
  exists s g, gti_of s = Some g /\ good g /\ fill_bad false rng0 (isort_by fst) (isort_by fst) sort0 s (Some 2) (Some 4%Z) None = Err ValueError.
Proof. exact fill_too_long. Qed.
Print Assumptions C79_long_refuted.

Example C79_nonvacuous : uniform_in (uniform rng0) /\ choice_in (choice rng0) /\
  exists out, fill_bad false rng0 (isort_by fst) (isort_by fst) sort0 (fex 1 [0; 1; 2; 6; 7; 8; 9] [1; 2; 3; 4; 5; 6; 7] [(- 1 # 2, 5 # 2); (11 # 2, 19 # 2)]) (Some 3) (Some 4%Z) None = Ok out /\
  length (s_time out) = 10%nat /\ s_gti out = Some [(- 1 # 2, 19 # 2)].
Proof. split; [exact uniform0|]. split; [exact choice0|]. eexists. split; [vm_compute; reflexivity|]. split; reflexivity. Qed.

