(* T_lcops.v: property theorems about splitting light curves at gaps, sorting by counts, GTIs and checks, and light curves, colors and
   intensities of segments of events (C134 - C140). *)
From Coq Require Import Reals Qreals.
From Coq Require Import Lqa Lia Permutation.
From Verif Require Import Np Lib S_gti S_seg S_base S_lc S_utils S_flux S_segan M_gti M_seg M_merge M_utils M_lc M_base M_segan S_lcops P_gti_cross P_base P_base4 P_flux3 P_lcops P_lcops2 P_lcops3 P_lcops4 P_lcops5 M_lcops.
Import ListNotations.
Open Scope Q_scope.

(* ---------- C134: splitting at gaps ---------- *)
Theorem C134_runs_all : forall mg l,
  concat (runs mg l) = l.
Proof. exact runs_concat. Qed.
Print Assumptions C134_runs_all.
Theorem C134_runs_close : forall mg l,
  forall r a b, In r (runs mg l) -> neighbours r a b -> b - a < mg.
Proof. exact runs_close. Qed.
Print Assumptions C134_runs_close.
Theorem C134_runs_apart : forall mg l,
  increasing l -> 0 <= mg -> forall i j r q x y, (i < j)%nat -> nth_error (runs mg l) i = Some r -> nth_error (runs mg l) j = Some q ->
  In x r -> In y q -> x + mg <= y.
Proof. exact runs_apart. Qed.
Print Assumptions C134_runs_apart.
Theorem C134_split : forall srt mg n s,
  sorts_by t_end srt -> increasing (s_time s) -> s_gti s = None -> 0 < s_dt s -> s_dt s < mg -> (1 <= n)%nat ->
  smallest_step (s_time s) (s_dt s) -> median (diffs (s_time s)) = Some (s_dt s) ->
  exists l, lc_split true srt mg n s = Ok l /\ map s_time l = filter (fun r => Nat.leb n (length r)) (runs mg (s_time s)) /\
    Forall (fun r => s_dt r = s_dt s /\ s_mjdref r = s_mjdref s /\
      exists m, s_time r = keep m (s_time s) /\ s_cols r = map_cols (keep m) (s_cols s) /\ s_errs r = map_cols (keep m) (s_errs s)) l.
Proof. exact split_runs. Qed.
Print Assumptions C134_split.
Theorem C134_split_gtis : forall srt mg md n s g l,
  sorts_by t_end srt -> increasing (s_time s) -> gti_of s = Some g -> good g -> 0 < s_dt s -> (1 <= n)%nat ->
  smallest_step (s_time s) md -> md < mg -> median (diffs (s_time s)) = Some (s_dt s) ->
  (forall a b t, In (a, b) g -> In t (s_time s) -> ~ a == t + md / 2 /\ ~ b == t - md / 2) ->
  lc_split true srt mg n s = Ok l ->
  Forall (fun r => (exists q, In q (runs mg (s_time s)) /\ incl (s_time r) q) /\ (n <= length (s_time r))%nat /\ s_dt r = s_dt s /\ s_mjdref r = s_mjdref s /\
    (exists a b, gti_of r = Some [(a, b)] /\ (forall t, a <= t -> t < b -> covered g t) /\
       forall t, In t (s_time r) <-> In t (s_time s) /\ bin_in [(a, b)] ((1 # 1000) * s_dt s) (s_dt s) t) /\
    exists m, s_time r = keep m (s_time s) /\ s_cols r = map_cols (keep m) (s_cols s) /\ s_errs r = map_cols (keep m) (s_errs s)) l.
Proof. exact split_pieces. Qed.
Print Assumptions C134_split_gtis.
Theorem C134_short_error : forall numba srt mg n s,
  (length (s_time s) <= 1)%nat -> lc_split numba srt mg n s = Err ValueError.
Proof. exact split_short. Qed.
Print Assumptions C134_short_error.
Theorem C134_step_gap_refuted : 
  exists s r, s_time s = [1; 2; 3] /\ s_gti s = None /\ s_dt s = 1 /\ lc_split true (isort_by t_end) 1 1 s = Ok [r] /\ length (s_time r) = 3%nat.
Proof. exact split_joined. Qed.
Print Assumptions C134_step_gap_refuted.
Theorem C134_lost_samples_refuted : 
  exists s r, s_time s = [0; 1; 3; 5; 7] /\ s_gti s = None /\ s_dt s = 2 /\ lc_split true (isort_by t_end) 10 1 s = Ok [r] /\ ~ In 0 (s_time r) /\ ~ In 7 (s_time r).
Proof. exact split_lost. Qed.
Print Assumptions C134_lost_samples_refuted.
Definition ex_gap : series := mkSeries [1; 2; 3; 7; 8; 9] [(0%nat, [4; 2; 9; 1; 3; 0])] [] 1 None 0 None None.
Example C134_nonvacuous : increasing (s_time ex_gap) /\ s_gti ex_gap = None /\ smallest_step (s_time ex_gap) (s_dt ex_gap) /\
  median (diffs (s_time ex_gap)) = Some (s_dt ex_gap) /\ runs 2 (s_time ex_gap) = [[1; 2; 3]; [7; 8; 9]] /\
  exists a b, lc_split true (isort_by t_end) 2 1 ex_gap = Ok [a; b] /\ s_time a = [1; 2; 3] /\ s_time b = [7; 8; 9].
Proof.
  split. { cut (Sorted.StronglySorted Qlt (s_time ex_gap)); [exact (proj1 (ss_nth Qlt _))|]. repeat constructor. }
  split; [reflexivity|]. split.
  { split.
    - exists 1, 2. split; [exists 0%nat; split; reflexivity|reflexivity].
    - intros a b (k & H1 & H2). cbn [ex_gap s_time s_dt] in *. assert (E : In (b - a) (diffs [1; 2; 3; 7; 8; 9])) by (apply neighbours_diffs; exists a, b; split; [exists k; split; assumption|reflexivity]). cbn [diffs In] in E. destruct E as [E|[E|[E|[E|[E|[]]]]]]; rewrite <- E; vm_compute; discriminate. }
  split; [vm_compute; reflexivity|]. split; [vm_compute; reflexivity|].
  do 2 eexists. split; [vm_compute; reflexivity|]. split; reflexivity.
Qed.
(* ---------- C135: sorting by counts ---------- *)
Theorem C135_sort_counts : forall argsort counts c reverse inplace s,
  is_argsort argsort -> column counts (s_cols s) = Some c ->
  all_of_length (length (s_time s)) (s_cols s) -> all_of_length (length (s_time s)) (s_errs s) ->
  exists r c', sort_counts argsort counts reverse inplace s = Ok r /\ column counts (s_cols r) = Some c' /\
  (if reverse then nonincreasing c' else nondecreasing c') /\ Permutation (combine (s_time s) c) (combine (s_time r) c') /\
  rows_kept (s_time s) (s_time r) (s_cols s) (s_cols r) /\ rows_kept (s_time s) (s_time r) (s_errs s) (s_errs r) /\
  s_dt r = s_dt s /\ s_mjdref r = s_mjdref s.
Proof. exact sort_counts_main. Qed.
Print Assumptions C135_sort_counts.
Example C135_nonvacuous : column 0 (s_cols ex_gap) = Some [4; 2; 9; 1; 3; 0] /\ all_of_length (length (s_time ex_gap)) (s_cols ex_gap) /\
  exists r, sort_counts (fun _ => [5; 3; 1; 4; 0; 2]%nat) 0 true true ex_gap = Ok r /\ s_time r = [3; 1; 8; 2; 7; 9] /\ column 0 (s_cols r) = Some [9; 4; 3; 2; 1; 0].
Proof. split; [reflexivity|]. split; [intros k v [E|[]]; injection E as <- <-; reflexivity|]. eexists. split; [reflexivity|]. split; reflexivity. Qed.
(* ---------- C136: light curves restricted to their GTIs ---------- *)
Theorem C136_apply_gtis : forall numba inplace s g,
  s_time s <> [] -> nondecreasing (s_time s) -> gti_of s = Some g -> g <> [] -> well_formed g -> 0 < s_dt s ->
  (numba = false \/ all_hold_bins g ((1 # 1000) * s_dt s) (s_dt s) (s_time s)) ->
  exists r ts d m lo hi, lc_apply_gtis numba inplace s = Ok (r, ts, d) /\ flags (bin_in g ((1 # 1000) * s_dt s) (s_dt s)) (s_time s) m /\
    s_time r = keep m (s_time s) /\ s_cols r = map_cols (keep m) (s_cols s) /\ s_errs r = map_cols (keep m) (s_errs s) /\ s_dt r = s_dt s /\
    gti_of r = Some g /\ ts = map (fun t => t - s_dt s / 2) (s_time r) /\ smallest (flatten g) lo /\ largest (flatten g) hi /\ d == hi - lo.
Proof. exact lc_apply_main. Qed.
Print Assumptions C136_apply_gtis.
Theorem C136_tstart_refuted : 
  exists s r ts d, s_time s = [1; 2; 3] /\ lc_apply_gtis true true s = Ok (r, ts, d) /\ s_time r = [1; 2; 3] /\ length ts = 3%nat.
Proof. exact lc_apply_tstart. Qed.
Print Assumptions C136_tstart_refuted.
Example C136_nonvacuous : exists s r ts d, gti_of s = Some [(1 # 2, 5 # 2)] /\ lc_apply_gtis true true s = Ok (r, ts, d) /\ s_time r = [1; 2] /\ d == 2 /\
  well_formed [(1 # 2, 5 # 2)].
Proof.
  exists (mkSeries [1; 2; 3; 7; 8] [(0%nat, [4; 2; 9; 1; 3])] [] 1 (Some [(1 # 2, 5 # 2)]) 0 None None). do 3 eexists.
  split; [reflexivity|]. split; [vm_compute; reflexivity|]. split; [reflexivity|]. split; [reflexivity|]. apply well_formed_one. discriminate.
Qed.
(* ---------- C137: checks of the values ---------- *)
Theorem C137_checks : forall numba time counts err g,
  time <> [] -> nondecreasing time -> g <> [] -> well_formed g -> gaps_between g ->
  (numba = false \/ forall a b, In (a, b) g -> exists t, In t time /\ a <= t /\ t <= b) ->
  length counts = length time -> (forall e, err = Some e -> length e = length time) ->
  (initial_checks numba time counts err (Some g) = Ok tt \/ initial_checks numba time counts err (Some g) = Err ValueError) /\
  (initial_checks numba time counts err (Some g) = Ok tt <->
   bad_only (fun t => ~ covered_closed g t) time counts /\ forall e, err = Some e -> bad_only (fun t => ~ covered_closed g t) time e).
Proof. exact checks_main. Qed.
Print Assumptions C137_checks.
Theorem C137_no_gti : forall numba time counts err,
  initial_checks numba time counts err None = Ok tt <-> (forall i, nth_error counts i <> Some None) /\ forall e i, err = Some e -> nth_error e i <> Some None.
Proof. exact checks_no_gti. Qed.
Print Assumptions C137_no_gti.
Example C137_nonvacuous : initial_checks true [1; 2; 3] [Some 1; Some 2; None] None (Some [(1 # 2, 5 # 2)]) = Ok tt /\
  initial_checks true [1; 2; 3] [Some 1; None; None] None (Some [(1 # 2, 5 # 2)]) = Err ValueError /\
  initial_checks true [1; 2; 3] [Some 1; Some 2; None] None None = Err ValueError.
Proof. split; [vm_compute; reflexivity|]. split; vm_compute; reflexivity. Qed.
(* ---------- C138: light curves of segments ---------- *)
Theorem C138_segments : forall times g dt seg n,
  nondecreasing times -> 0 < dt -> (1 <= n)%nat -> seg == inject_Z (Z.of_nat n) * dt ->
  (exists a b, In (a, b) g /\ seg < b - a + (1 # 100000)) ->
  exists st l, segment_grid g seg (1 # 100000) st /\ to_lc_iter times g dt (Some seg) = Ok l /\
    Forall2 (fun a lc => lc_dt lc = dt /\ lc_gti lc = Some [(a, a + seg)] /\ curve_of times dt (a, a + seg) n (lc_time lc) (lc_counts lc)) st l.
Proof. exact lc_segments. Qed.
Print Assumptions C138_segments.
Theorem C138_gtis : forall times g dt,
  increasing times -> 0 < dt -> good g -> (forall a b, In (a, b) g -> exists t, In t times /\ a <= t /\ t <= b) ->
  (forall a b, In (a, b) g -> exists n, (1 <= n)%nat /\ b - a == inject_Z (Z.of_nat n) * dt) ->
  exists l, to_lc_iter times g dt None = Ok l /\
    Forall2 (fun iv lc => lc_dt lc = dt /\ lc_gti lc = Some [iv] /\ exists n, snd iv - fst iv == inject_Z (Z.of_nat n) * dt /\ curve_of times dt iv n (lc_time lc) (lc_counts lc)) g l.
Proof. exact lc_gtis. Qed.
Print Assumptions C138_gtis.
Theorem C138_once_refuted : 
  exists times g l lc1 lc2, good g /\ gaps_between g /\ increasing times /\ to_lc_iter times g 1 None = Ok l /\ l = [lc1; lc2] /\
  length times = 2%nat /\ sum_of (lc_counts lc1) + sum_of (lc_counts lc2) == 3 /\ exists t, In t times /\ ~ covered [(0, 2995 # 1000)] t /\ sum_of (lc_counts lc1) == 2.
Proof. exact lc_twice. Qed.
Print Assumptions C138_once_refuted.
Example C138_nonvacuous : exists a b, to_lc_iter [1; 2; 5; 6; 7] [(0, 4); (4, 8)] 2 (Some 4) = Ok [a; b] /\ lc_counts a = [1; 1] /\ lc_counts b = [1; 2].
Proof. do 2 eexists. split; [vm_compute; reflexivity|]. split; reflexivity. Qed.
(* ---------- C139: colors ---------- *)
Theorem C139_segments : forall srt energy e r1 r2 seg s g,
  sorts_by t_end srt -> good g -> gti_of s = Some g -> nondecreasing (s_time s) -> s_dt s == 0 -> regular s ->
  column energy (s_cols s) = Some e -> 0 < seg -> (exists a b, In (a, b) g /\ seg < b - a + (1 # 100000)) ->
  exists st, segment_grid g seg (1 # 100000) st /\
  ((exists a, In a st /\ (2 <= samples_in (s_time s) a (a + seg))%nat) ->
   color_evolution srt energy r1 r2 (Some seg) s =
   Ok (st, map (fun a => a + seg) st,
       map (fun a => ratio_of (events_between a (a + seg) r1 (s_time s) e) (events_between a (a + seg) r2 (s_time s) e)) (filter (fun a => busy s a (a + seg)) st),
       map (fun a => ratio_error (events_between a (a + seg) r1 (s_time s) e) (events_between a (a + seg) r2 (s_time s) e)) (filter (fun a => busy s a (a + seg)) st))).
Proof. exact color_segments. Qed.
Print Assumptions C139_segments.
Theorem C139_gtis : forall srt energy e r1 r2 s g,
  sorts_by t_end srt -> good g -> gti_of s = Some g -> nondecreasing (s_time s) -> 0 <= s_dt s -> regular s ->
  column energy (s_cols s) = Some e -> (exists iv, In iv g /\ (2 <= samples_in (s_time s) (fst iv) (snd iv))%nat) ->
  color_evolution srt energy r1 r2 None s =
   Ok (map fst g, map snd g,
       map (fun iv => ratio_of (events_between (fst iv) (snd iv) r1 (s_time s) e) (events_between (fst iv) (snd iv) r2 (s_time s) e)) (filter (fun iv => busy s (fst iv) (snd iv)) g),
       map (fun iv => ratio_error (events_between (fst iv) (snd iv) r1 (s_time s) e) (events_between (fst iv) (snd iv) r2 (s_time s) e)) (filter (fun iv => busy s (fst iv) (snd iv)) g)).
Proof. exact color_gtis. Qed.
Print Assumptions C139_gtis.
(* ---------- C140: intensities ---------- *)
Theorem C140_segments : forall srt energy e r seg s g,
  sorts_by t_end srt -> good g -> gti_of s = Some g -> nondecreasing (s_time s) -> s_dt s == 0 -> regular s ->
  column energy (s_cols s) = Some e -> 0 < seg -> (exists a b, In (a, b) g /\ seg < b - a + (1 # 100000)) ->
  exists st, segment_grid g seg (1 # 100000) st /\
  ((exists a, In a st /\ (2 <= samples_in (s_time s) a (a + seg))%nat) ->
   intensity_evolution srt energy r (Some seg) s =
   Ok (st, map (fun a => a + seg) st,
       map (fun a => (INR (events_between a (a + seg) r (s_time s) e) / Q2R seg)%R) (filter (fun a => busy s a (a + seg)) st),
       map (fun a => (sqrt (INR (events_between a (a + seg) r (s_time s) e)) / Q2R seg)%R) (filter (fun a => busy s a (a + seg)) st))).
Proof. exact intensity_segments. Qed.
Print Assumptions C140_segments.
Theorem C140_gtis : forall srt energy e r s g,
  sorts_by t_end srt -> good g -> gti_of s = Some g -> nondecreasing (s_time s) -> 0 <= s_dt s -> regular s ->
  column energy (s_cols s) = Some e -> (exists iv, In iv g /\ (2 <= samples_in (s_time s) (fst iv) (snd iv))%nat) ->
  intensity_evolution srt energy r None s =
   Ok (map fst g, map snd g,
       map (fun iv => (INR (events_between (fst iv) (snd iv) r (s_time s) e) / Q2R (snd iv - fst iv))%R) (filter (fun iv => busy s (fst iv) (snd iv)) g),
       map (fun iv => (sqrt (INR (events_between (fst iv) (snd iv) r (s_time s) e)) / Q2R (snd iv - fst iv))%R) (filter (fun iv => busy s (fst iv) (snd iv)) g)).
Proof. exact intensity_gtis. Qed.
Print Assumptions C140_gtis.
Theorem C140_no_segment_error : forall srt energy r1 r2 r seg s g,
  sorts_by t_end srt -> good g -> gti_of s = Some g -> nondecreasing (s_time s) -> s_dt s == 0 -> regular s ->
  0 < seg -> (exists a b, In (a, b) g /\ seg < b - a + (1 # 100000)) -> (length (s_time s) <= 1)%nat ->
  color_evolution srt energy r1 r2 (Some seg) s = Err ValueError /\ intensity_evolution srt energy r (Some seg) s = Err ValueError.
Proof. exact evolution_empty. Qed.
Print Assumptions C140_no_segment_error.
Theorem C140_aligned_refuted : 
  exists s st en rates errs, good [(0, 30)] /\ gti_of s = Some [(0, 30)] /\
  intensity_evolution (isort_by t_end) 0 (0, 10) (Some 10) s = Ok (st, en, rates, errs) /\ length st = 3%nat /\ length rates = 2%nat.
Proof. exact intensity_misaligned. Qed.
Print Assumptions C140_aligned_refuted.
Definition ex_color : series := mkSeries [1; 2; 3; 12; 15] [(0%nat, [1; 2; 2; 1; 1])] [] 0 (Some [(0, 20)]) 0 None None.
Example C139_nonvacuous : good [(0, 20)] /\ gti_of ex_color = Some [(0, 20)] /\ nondecreasing (s_time ex_color) /\ s_dt ex_color == 0 /\
  column 0 (s_cols ex_color) = Some [1; 2; 2; 1; 1] /\ busy ex_color 0 10 = true /\
  events_between 0 10 (1, 2) (s_time ex_color) [1; 2; 2; 1; 1] = 1%nat /\ events_between 0 10 (2, 3) (s_time ex_color) [1; 2; 2; 1; 1] = 2%nat /\
  ratio_of 1 2 = Some (INR 2 / INR 1)%R /\ events_between 10 20 (2, 3) (s_time ex_color) [1; 2; 2; 1; 1] = 0%nat /\ ratio_of 2 0 = None.
Proof.
  split. { split; [discriminate|]. split; [apply well_formed_one; discriminate|]. intros a b [E|[]]. injection E as <- <-. reflexivity. }
  split; [reflexivity|]. split; [apply P_flux3.nondec_dec; reflexivity|]. repeat (split; [reflexivity|]). reflexivity.
Qed.

