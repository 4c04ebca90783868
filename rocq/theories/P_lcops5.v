(* P_lcops5.v: light curves, colors and intensities of the segments of an event list. *)
From Coq Require Import Reals Qreals.
From Coq Require Import Lqa Lia Permutation.
From Verif Require Import Np Lib S_gti S_seg S_base S_lc S_utils S_flux S_segan M_gti M_seg M_merge M_utils M_lc M_base M_segan S_lcops P_gti_cross P_gti_final P_seg_cut P_helpers P_lc_make P_base P_base2 P_base4 P_flux P_segan P_segan3 P_segan5 M_lcops.
Open Scope Q_scope.

Lemma count_len {A} (p : A -> bool) l : count p l = length (filter p l).
Proof. induction l as [|a l IH]; [reflexivity|]. cbn [count filter]. destruct (p a); cbn [length Nat.add]; rewrite IH; reflexivity. Qed.
(* a slice holds all times in an interval *)
Lemma slice_count (p : Q -> bool) times i j : (forall k t, nth_error times k = Some t -> p t = true -> (i <= k < j)%nat) -> count p (slice times i j) = count p times.
Proof.
  intros H. unfold slice. rewrite <- (firstn_skipn i times) at 2. rewrite count_app. rewrite <- (firstn_skipn (j - i) (skipn i times)) at 2. rewrite count_app.
  assert (Z : forall l, (forall x, In x l -> p x = false) -> count p l = 0%nat).
  { induction l as [|a l IH]; intros K; [reflexivity|]. cbn [count]. rewrite (K a (or_introl eq_refl)). apply IH. intros x Hx. apply K. right. assumption. }
  rewrite (Z (firstn i times)), (Z (skipn (j - i) (skipn i times))); [lia| |].
  - intros x Hx. destruct (p x) eqn:E; [|reflexivity]. exfalso. destruct (In_nth_error _ _ Hx) as (k & Hk). rewrite !nth_error_skipn in Hk. specialize (H _ _ Hk E). lia.
  - intros x Hx. destruct (p x) eqn:E; [|reflexivity]. exfalso. destruct (In_nth_error _ _ Hx) as (k & Hk).
    assert (Lk : (k < length (firstn i times))%nat) by (apply nth_error_Some; congruence). rewrite firstn_length in Lk. rewrite nth_error_firstn in Hk by lia. specialize (H _ _ Hk E). lia.
Qed.
Lemma one_curve times dt a b i j n : 0 < dt -> b - a == inject_Z (Z.of_nat n) * dt -> (1 <= n)%nat ->
  (forall k t, nth_error times k = Some t -> a <= t -> t < b -> (i <= k < j)%nat) ->
  exists lc, make_lightcurve (slice times i (j + 1)) dt (Some (b - a)) (Some a) (Some [(a, b)]) true = Ok lc /\ lc_dt lc = dt /\ lc_gti lc = Some [(a, b)] /\
    curve_of times dt (a, b) n (lc_time lc) (lc_counts lc).
Proof.
  intros Hd Hn N1 Hk. destruct (make_main (slice times i (j + 1)) dt (Some (b - a)) (Some a) (Some [(a, b)]) true Hd) as (s & len & S1 & S2 & M).
  { split; right; split; discriminate. }
  cbn [start_is duration_is] in S1, S2. subst s len.
  destruct (M n) as (lc & E & Ed & L1 & L2 & Eg & Ht & Hc & _).
  { rewrite Hn. lra. }
  { rewrite Hn. lra. }
  exists lc. split; [exact E|]. split; [exact Ed|]. split; [apply Eg; lia|]. split; [assumption|]. split; [assumption|]. split; [exact Ht|].
  intros k c Hc'. rewrite (Hc k c Hc'). f_equal. f_equal. rewrite slice_count; [rewrite count_len; reflexivity|].
  intros m t Hm Hw. apply within_iff in Hw. destruct Hw as [H1 H2]. unfold bin_edge in H1, H2.
  assert (Lk : (k < n)%nat) by (rewrite <- L2; apply nth_error_Some; congruence).
  assert (0 <= inject_Z (Z.of_nat k) * dt) by (apply Qmult_le_0_compat; [apply zof_0|lra]).
  assert (inject_Z (Z.of_nat (S k)) * dt <= inject_Z (Z.of_nat n) * dt) by (apply Qmult_le_compat_r; [apply zof_le; lia|lra]).
  specialize (Hk m t Hm ltac:(lra) ltac:(lra)). lia.
Qed.
Lemma lc_segments times g dt seg n : nondecreasing times -> 0 < dt -> (1 <= n)%nat -> seg == inject_Z (Z.of_nat n) * dt ->
  (exists a b, In (a, b) g /\ seg < b - a + (1 # 100000)) ->
  exists st l, segment_grid g seg (1 # 100000) st /\ to_lc_iter times g dt (Some seg) = Ok l /\
    Forall2 (fun a lc => lc_dt lc = dt /\ lc_gti lc = Some [(a, a + seg)] /\ curve_of times dt (a, a + seg) n (lc_time lc) (lc_counts lc)) st l.
Proof.
  intros Ht Hd N1 Hn Hl.
  assert (Hseg : 0 < seg). { rewrite Hn. assert (inject_Z (Z.of_nat 1) * dt <= inject_Z (Z.of_nat n) * dt) by (apply Qmult_le_compat_r; [apply zof_le; lia|lra]). change (inject_Z (Z.of_nat 1)) with 1 in H. lra. }
  destruct (grid_exists g seg _ Hseg Hl) as (st & E). exists st.
  assert (SO : is_sorted times = true). { apply is_sorted_iff. exact Ht. }
  assert (K : exists l, map_result (fun p : Q * Q * (nat * nat) =>
      make_lightcurve (slice times (fst (snd p)) (snd (snd p) + 1)) dt (Some (snd (fst p) - fst (fst p))) (Some (fst (fst p))) (Some [fst p]) true)
      (map (fun p : Q * Q => (p, (searchsorted_left times (fst p), searchsorted_left times (snd p)))) (combine st (map (fun s => s + seg) st))) = Ok l /\
    Forall2 (fun a lc => lc_dt lc = dt /\ lc_gti lc = Some [(a, a + seg)] /\ curve_of times dt (a, a + seg) n (lc_time lc) (lc_counts lc)) st l).
  { clear E. induction st as [|a st (l & IH1 & IH2)]; [exists []; split; [reflexivity|constructor]|]. cbn [map combine map_result fst snd].
    destruct (one_curve times dt a (a + seg) (searchsorted_left times a) (searchsorted_left times (a + seg)) n Hd) as (lc & E1 & E2 & E3 & E4); [rewrite <- Hn; lra|assumption| |].
    - intros k t Hk H1 H2. destruct (ssl_spec times a Ht) as [A1 _]. destruct (ssl_spec times (a + seg) Ht) as [B1 _]. specialize (A1 k t Hk). specialize (B1 k t Hk). split; [|apply B1; assumption].
      destruct (Nat.le_gt_cases (searchsorted_left times a) k) as [K|K]; [assumption|]. apply A1 in K. lra.
    - exists (lc :: l). rewrite E1. cbn [bind]. rewrite IH1. cbn [bind]. split; [reflexivity|]. constructor; [split; [assumption|split; assumption]|assumption]. }
  destruct K as (l & K1 & K2). exists l. split; [eapply grid_ok; [exact Hseg| |exact E]; lra|]. split; [|exact K2].
  unfold to_lc_iter, generate_indices_of_boundaries, generate_indices_of_segment_boundaries_unbinned. rewrite E. cbn [bind fst snd]. rewrite SO. cbn [negb bind]. exact K1.
Qed.
Lemma lc_gtis times g dt : increasing times -> 0 < dt -> good g -> (forall a b, In (a, b) g -> exists t, In t times /\ a <= t /\ t <= b) ->
  (forall a b, In (a, b) g -> exists n, (1 <= n)%nat /\ b - a == inject_Z (Z.of_nat n) * dt) ->
  exists l, to_lc_iter times g dt None = Ok l /\
    Forall2 (fun iv lc => lc_dt lc = dt /\ lc_gti lc = Some [iv] /\ exists n, snd iv - fst iv == inject_Z (Z.of_nat n) * dt /\ curve_of times dt iv n (lc_time lc) (lc_counts lc)) g l.
Proof.
  intros I Hd (Ng & W & P) Hev Hn. unfold to_lc_iter, generate_indices_of_boundaries, generate_indices_of_gti_boundaries.
  assert (Z0 : 0 / 2 == 0) by reflexivity.
  destruct (gti_border_bins_total g times 0 (1 # 1000)) as (b & Eb); [intros i j x y Hij Hi Hj; apply Qlt_le_weak, (I i j x y); assumption|assumption|lra|lra|lra| |].
  { intros a c Hac. split; [apply (proj1 W); assumption|]. destruct (Hev a c Hac) as (t & Ht & H1 & H2). exists t. split; [assumption|]. unfold bin_inside. split; lra. }
  rewrite Eb. cbn [bind]. pose proof (gti_border_bins_main _ _ _ _ _ I Eb) as F. clear Eb Hev W P Ng. cbv zeta.
  induction F as [|[a c] [i j] g b [F1 F2] F IH]; [exists []; split; [reflexivity|constructor]|].
  destruct IH as (l & IH1 & IH2); [intros x y Hxy; apply Hn; right; assumption|]. cbn [combine map_result fst snd].
  destruct (Hn a c (or_introl eq_refl)) as (n & N1 & N2). cbn [fst snd] in F1, F2.
  destruct (one_curve times dt a c i j n Hd N2 N1) as (lc & E1 & E2 & E3 & E4).
  { intros k t Hk H1 H2. apply (F2 k t Hk). unfold bin_inside. split; lra. }
  exists (lc :: l). rewrite E1. cbn [bind]. rewrite IH1. cbn [bind]. split; [reflexivity|]. constructor; [split; [assumption|split; [assumption|exists n; split; assumption]]|assumption].
Qed.
(* an event counted in two light curves; an event outside of the GTI *)
Lemma lc_twice : exists times g l lc1 lc2, good g /\ gaps_between g /\ increasing times /\ to_lc_iter times g 1 None = Ok l /\ l = [lc1; lc2] /\
  length times = 2%nat /\ sum_of (lc_counts lc1) + sum_of (lc_counts lc2) == 3 /\ exists t, In t times /\ ~ covered [(0, 2995 # 1000)] t /\ sum_of (lc_counts lc1) == 2.
Proof.
  exists [1; 2997 # 1000], [(0, 2995 # 1000); (2996 # 1000, 3996 # 1000)]. do 3 eexists.
  split. { split; [discriminate|]. split; [split|].
    - intros a b [E|[E|[]]]; injection E as <- <-; discriminate.
    - intros i j a b c d Hij Hi Hj. destruct i as [|[|i]], j as [|[|j]]; try lia; try discriminate; try (destruct j; discriminate); try (destruct i; discriminate). cbn in Hi, Hj. injection Hi as <- <-. injection Hj as <- <-. discriminate.
    - intros a b [E|[E|[]]]; injection E as <- <-; reflexivity. }
  split. { intros i j a b c d Hij Hi Hj. destruct i as [|[|i]], j as [|[|j]]; try lia; try discriminate; try (destruct j; discriminate); try (destruct i; discriminate). cbn in Hi, Hj. injection Hi as <- <-. injection Hj as <- <-. reflexivity. }
  split. { intros i j x y Hij Hi Hj. destruct i as [|[|i]], j as [|[|j]]; try lia; try discriminate; try (destruct j; discriminate); try (destruct i; discriminate). cbn in Hi, Hj. injection Hi as <-. injection Hj as <-. reflexivity. }
  split; [vm_compute; reflexivity|]. split; [reflexivity|]. split; [reflexivity|]. split; [vm_compute; reflexivity|]. exists (2997 # 1000). split; [right; left; reflexivity|].
  split; [|vm_compute; reflexivity]. intros (a & b & [E|[]] & H1 & H2). injection E as <- <-. revert H2. vm_compute. congruence.
Qed.
(* ---------- colors and intensities ---------- *)
Lemma analyze_events_r {A} lc srt (func : series -> result A) s g seg : sorts_by t_end srt -> good g -> gti_of s = Some g ->
  nondecreasing (s_time s) -> s_dt s == 0 -> regular s -> 0 < seg -> (exists a b, In (a, b) g /\ seg < b - a + (1 # 100000)) ->
  exists st, segment_grid g seg (1 # 100000) st /\
  analyze_segments lc srt func s (Some seg) 1 =
  (let! res := map_result func (map (fun a => cut_window lc s a (a + seg)) (filter (fun a => Nat.leb 2 (samples_in (s_time s) a (a + seg))) st)) in
   Ok (st, map (fun a => a + seg) st, res)).
Proof.
  intros Hs G Hg Ht Hd R Hseg Hl. destruct (grid_exists g seg _ Hseg Hl) as (st & E). exists st.
  split; [eapply grid_ok; [exact Hseg| |exact E]; lra|]. unfold analyze_segments. rewrite Hg.
  assert (Z : qlt 0 (s_dt s) = false) by (destruct (qlt 0 (s_dt s)) eqn:Z; [qb; lra|reflexivity]). rewrite Z, E. cbn [bind fst snd].
  assert (C : combine st (map (fun a => a + seg) st) = map (fun a => (a, a + seg)) st) by (clear; induction st as [|a st IH]; cbn; [reflexivity|]; now f_equal).
  rewrite C. destruct (touch_fields s g Hg) as (T1 & T2 & T3 & T4 & T5 & T6 & T7).
  rewrite <- T2. rewrite (analyze_windows lc srt func (touch s) g (map (fun a => (a, a + seg)) st) Hs G T1);
    [| now rewrite T2 | rewrite T5; lra | now apply T7 | intros lo hi Hin; apply in_map_iff in Hin; destruct Hin as (a & E' & _); injection E' as <- <-; lra].
  rewrite T2, !map_map. cbn [fst snd].
  assert (I : forall l : list Q, map (fun a => a) l = l) by (intros l; apply map_id). rewrite I. f_equal. f_equal.
  clear - Hg. induction st as [|a st IH]; [reflexivity|]. cbn [map filter fst snd]. destruct (Nat.leb 2 (samples_in (s_time s) a (a + seg))); [|exact IH].
  cbn [map fst snd]. rewrite (window_touch _ _ g) by assumption. now f_equal.
Qed.
Lemma analyze_gtis_r {A} lc srt (func : series -> result A) s g : sorts_by t_end srt -> good g -> gti_of s = Some g ->
  nondecreasing (s_time s) -> 0 <= s_dt s -> regular s ->
  analyze_segments lc srt func s None 1 =
  (let! res := map_result func (map (fun iv => cut_window lc s (fst iv) (snd iv)) (filter (fun iv => Nat.leb 2 (samples_in (s_time s) (fst iv) (snd iv))) g)) in
   Ok (map fst g, map snd g, res)).
Proof.
  intros Hs G Hg Ht Hd R. unfold analyze_segments. rewrite Hg. cbn [bind].
  destruct (touch_fields s g Hg) as (T1 & T2 & T3 & T4 & T5 & T6 & T7). rewrite <- T2.
  rewrite (analyze_windows lc srt func (touch s) g g Hs G T1); [| now rewrite T2 | rewrite T5; lra | now apply T7 |].
  2: { intros lo hi Hin. destruct G as (_ & _ & P). assert (lo < hi) by (apply (P lo hi Hin)). lra. }
  rewrite T2, !map_map. cbn [fst snd]. reflexivity.
Qed.
Lemma count_between lo hi r times e : length e = length times ->
  length (filter (fun b => b) (get_energy_mask (keep (map (in_window lo hi) times) e) r)) = events_between lo hi r times e.
Proof.
  unfold events_between, get_energy_mask. revert e. induction times as [|t times IH]; intros [|x e] L; try discriminate; [reflexivity|].
  cbn [map keep combine filter fst snd]. unfold in_window at 1. specialize (IH e ltac:(cbn in L; lia)).
  destruct (qle lo t && qlt t hi)%bool; cbn [andb]; [|exact IH]. cbn [map filter]. destruct (qle (fst r) x && qlt x (snd r))%bool; [cbn [length]; f_equal|]; exact IH.
Qed.
Lemma energy_count_ok energy e r s lo hi : regular s -> column energy (s_cols s) = Some e -> energy_count energy r (cut_window false s lo hi) = Ok (events_between lo hi r (s_time s) e).
Proof.
  intros [R _] H. unfold energy_count. cbn [cut_window piece_of s_cols]. rewrite find_keep, find_column, H. cbn [option_map]. rewrite count_between; [reflexivity|].
  apply (R energy e). apply find_col_in. rewrite find_column. assumption.
Qed.

Definition busy (s : series) (lo hi : Q) : bool := Nat.leb 2 (samples_in (s_time s) lo hi).
Lemma color_ok energy e r1 r2 s lo hi : regular s -> column energy (s_cols s) = Some e ->
  color energy r1 r2 (cut_window false s lo hi) =
  Ok (let n1 := events_between lo hi r1 (s_time s) e in let n2 := events_between lo hi r2 (s_time s) e in (ratio_of n1 n2, ratio_error n1 n2)).
Proof.
  intros R H. unfold color. rewrite !(energy_count_ok energy e) by assumption. cbn [bind]. cbv zeta. unfold ratio_of, ratio_error.
  destruct (Nat.eqb_spec (events_between lo hi r1 (s_time s) e) 0) as [E1|E1]; cbn [orb]; [reflexivity|].
  destruct (Nat.eqb_spec (events_between lo hi r2 (s_time s) e) 0) as [E2|E2]; cbn [orb]; [reflexivity|].
  assert (S : forall n, n <> 0%nat -> (sqrt (INR n) / INR n = / sqrt (INR n))%R).
  { intros n N. assert (P : (0 < INR n)%R) by (apply lt_0_INR; lia). assert (Q : (0 < sqrt (INR n))%R) by (apply sqrt_lt_R0; exact P). rewrite <- (sqrt_sqrt (INR n)) at 2 by (apply Rlt_le; exact P). field. intros Z. rewrite Z in Q. apply (Rlt_irrefl 0 Q). }
  rewrite !S by assumption. reflexivity.
Qed.
Lemma intensity_ok energy e r s lo hi : regular s -> column energy (s_cols s) = Some e -> lo < hi ->
  intensity energy r (cut_window false s lo hi) =
  Ok (INR (events_between lo hi r (s_time s) e) / Q2R (hi - lo), sqrt (INR (events_between lo hi r (s_time s) e)) / Q2R (hi - lo))%R.
Proof.
  intros R H L. unfold intensity. rewrite (energy_count_ok energy e) by assumption. cbn [bind]. unfold gti_of. cbn [cut_window piece_of s_gti].
  destruct (qeq (hi - lo) 0) eqn:E; [qb; lra|]. reflexivity.
Qed.
Lemma map_result_map {A B C} (f : B -> result C) (g : A -> B) l : map_result f (map g l) = map_result (fun a => f (g a)) l.
Proof. induction l as [|a l IH]; [reflexivity|]. cbn [map map_result]. rewrite IH. reflexivity. Qed.
Lemma color_segments srt energy e r1 r2 seg s g : sorts_by t_end srt -> good g -> gti_of s = Some g -> nondecreasing (s_time s) -> s_dt s == 0 -> regular s ->
  column energy (s_cols s) = Some e -> 0 < seg -> (exists a b, In (a, b) g /\ seg < b - a + (1 # 100000)) ->
  exists st, segment_grid g seg (1 # 100000) st /\
  ((exists a, In a st /\ (2 <= samples_in (s_time s) a (a + seg))%nat) ->
   color_evolution srt energy r1 r2 (Some seg) s =
   Ok (st, map (fun a => a + seg) st,
       map (fun a => ratio_of (events_between a (a + seg) r1 (s_time s) e) (events_between a (a + seg) r2 (s_time s) e)) (filter (fun a => busy s a (a + seg)) st),
       map (fun a => ratio_error (events_between a (a + seg) r1 (s_time s) e) (events_between a (a + seg) r2 (s_time s) e)) (filter (fun a => busy s a (a + seg)) st))).
Proof.
  intros Hs G Hg Ht Hd R He Hseg Hl. destruct (analyze_events_r false srt (color energy r1 r2) s g seg Hs G Hg Ht Hd R Hseg Hl) as (st & S & E). exists st. split; [assumption|].
  intros (a0 & Ha0 & B0). unfold color_evolution. rewrite E. fold (busy s). rewrite map_result_map. rewrite (map_result_total _ _ _ (fun a _ => color_ok energy e r1 r2 s a (a + seg) R He)). cbn [bind fst snd]. cbv zeta.
  change (fun a => Nat.leb 2 (samples_in (s_time s) a (a + seg))) with (fun a => busy s a (a + seg)).
  assert (I : In a0 (filter (fun a => busy s a (a + seg)) st)) by (apply filter_In; split; [assumption|apply Nat.leb_le; assumption]).
  destruct (filter (fun a => busy s a (a + seg)) st) as [|x xs]; [destruct I|]. cbn [map fst snd]. rewrite !map_map. reflexivity.
Qed.
Lemma color_gtis srt energy e r1 r2 s g : sorts_by t_end srt -> good g -> gti_of s = Some g -> nondecreasing (s_time s) -> 0 <= s_dt s -> regular s ->
  column energy (s_cols s) = Some e -> (exists iv, In iv g /\ (2 <= samples_in (s_time s) (fst iv) (snd iv))%nat) ->
  color_evolution srt energy r1 r2 None s =
   Ok (map fst g, map snd g,
       map (fun iv => ratio_of (events_between (fst iv) (snd iv) r1 (s_time s) e) (events_between (fst iv) (snd iv) r2 (s_time s) e)) (filter (fun iv => busy s (fst iv) (snd iv)) g),
       map (fun iv => ratio_error (events_between (fst iv) (snd iv) r1 (s_time s) e) (events_between (fst iv) (snd iv) r2 (s_time s) e)) (filter (fun iv => busy s (fst iv) (snd iv)) g)).
Proof.
  intros Hs G Hg Ht Hd R He (a0 & Ha0 & B0). unfold color_evolution. rewrite (analyze_gtis_r false srt (color energy r1 r2) s g Hs G Hg Ht Hd R).
  rewrite map_result_map. rewrite (map_result_total _ _ _ (fun iv _ => color_ok energy e r1 r2 s (fst iv) (snd iv) R He)). cbn [bind fst snd]. cbv zeta.
  change (fun iv : ivl => Nat.leb 2 (samples_in (s_time s) (fst iv) (snd iv))) with (fun iv : ivl => busy s (fst iv) (snd iv)).
  assert (I : In a0 (filter (fun iv => busy s (fst iv) (snd iv)) g)) by (apply filter_In; split; [assumption|apply Nat.leb_le; assumption]).
  destruct (filter (fun iv => busy s (fst iv) (snd iv)) g) as [|x xs]; [destruct I|]. cbn [map fst snd]. rewrite !map_map. reflexivity.
Qed.
Lemma q2r_seg a seg : Q2R (a + seg - a) = Q2R seg.
Proof. apply Qeq_eqR. lra. Qed.
Lemma intensity_segments srt energy e r seg s g : sorts_by t_end srt -> good g -> gti_of s = Some g -> nondecreasing (s_time s) -> s_dt s == 0 -> regular s ->
  column energy (s_cols s) = Some e -> 0 < seg -> (exists a b, In (a, b) g /\ seg < b - a + (1 # 100000)) ->
  exists st, segment_grid g seg (1 # 100000) st /\
  ((exists a, In a st /\ (2 <= samples_in (s_time s) a (a + seg))%nat) ->
   intensity_evolution srt energy r (Some seg) s =
   Ok (st, map (fun a => a + seg) st,
       map (fun a => (INR (events_between a (a + seg) r (s_time s) e) / Q2R seg)%R) (filter (fun a => busy s a (a + seg)) st),
       map (fun a => (sqrt (INR (events_between a (a + seg) r (s_time s) e)) / Q2R seg)%R) (filter (fun a => busy s a (a + seg)) st))).
Proof.
  intros Hs G Hg Ht Hd R He Hseg Hl. destruct (analyze_events_r false srt (intensity energy r) s g seg Hs G Hg Ht Hd R Hseg Hl) as (st & S & E). exists st. split; [assumption|].
  intros (a0 & Ha0 & B0). unfold intensity_evolution. rewrite E. rewrite map_result_map.
  rewrite (map_result_total _ (fun a => (INR (events_between a (a + seg) r (s_time s) e) / Q2R seg, sqrt (INR (events_between a (a + seg) r (s_time s) e)) / Q2R seg)%R)).
  2: { intros a _. rewrite (intensity_ok energy e) by (try assumption; lra). rewrite q2r_seg. reflexivity. }
  cbn [bind fst snd].
  change (fun a => Nat.leb 2 (samples_in (s_time s) a (a + seg))) with (fun a => busy s a (a + seg)).
  assert (I : In a0 (filter (fun a => busy s a (a + seg)) st)) by (apply filter_In; split; [assumption|apply Nat.leb_le; assumption]).
  destruct (filter (fun a => busy s a (a + seg)) st) as [|x xs]; [destruct I|]. cbn [map fst snd]. rewrite !map_map. reflexivity.
Qed.
Lemma intensity_gtis srt energy e r s g : sorts_by t_end srt -> good g -> gti_of s = Some g -> nondecreasing (s_time s) -> 0 <= s_dt s -> regular s ->
  column energy (s_cols s) = Some e -> (exists iv, In iv g /\ (2 <= samples_in (s_time s) (fst iv) (snd iv))%nat) ->
  intensity_evolution srt energy r None s =
   Ok (map fst g, map snd g,
       map (fun iv => (INR (events_between (fst iv) (snd iv) r (s_time s) e) / Q2R (snd iv - fst iv))%R) (filter (fun iv => busy s (fst iv) (snd iv)) g),
       map (fun iv => (sqrt (INR (events_between (fst iv) (snd iv) r (s_time s) e)) / Q2R (snd iv - fst iv))%R) (filter (fun iv => busy s (fst iv) (snd iv)) g)).
Proof.
  intros Hs G Hg Ht Hd R He (a0 & Ha0 & B0). unfold intensity_evolution. rewrite (analyze_gtis_r false srt (intensity energy r) s g Hs G Hg Ht Hd R).
  rewrite map_result_map. rewrite (map_result_total _ (fun iv => (INR (events_between (fst iv) (snd iv) r (s_time s) e) / Q2R (snd iv - fst iv), sqrt (INR (events_between (fst iv) (snd iv) r (s_time s) e)) / Q2R (snd iv - fst iv))%R)).
  2: { intros iv Hiv. apply filter_In in Hiv. destruct Hiv as [Hiv _]. destruct G as (_ & _ & P). destruct iv as [a b]. cbn [fst snd]. apply intensity_ok; try assumption. apply (P a b Hiv). }
  cbn [bind fst snd].
  change (fun iv : ivl => Nat.leb 2 (samples_in (s_time s) (fst iv) (snd iv))) with (fun iv : ivl => busy s (fst iv) (snd iv)).
  assert (I : In a0 (filter (fun iv => busy s (fst iv) (snd iv)) g)) by (apply filter_In; split; [assumption|apply Nat.leb_le; assumption]).
  destruct (filter (fun iv => busy s (fst iv) (snd iv)) g) as [|x xs]; [destruct I|]. cbn [map fst snd]. rewrite !map_map. reflexivity.
Qed.
(* segments with less than two events are left out of the results but not of the start times *)
Lemma intensity_misaligned : exists s st en rates errs, good [(0, 30)] /\ gti_of s = Some [(0, 30)] /\
  intensity_evolution (isort_by t_end) 0 (0, 10) (Some 10) s = Ok (st, en, rates, errs) /\ length st = 3%nat /\ length rates = 2%nat.
Proof.
  exists (mkSeries [1; 2; 15; 22; 23] [(0%nat, [1; 1; 1; 1; 1])] [] 0 (Some [(0, 30)]) 0 None None). do 4 eexists.
  split. { split; [discriminate|]. split; [apply well_formed_one; discriminate|]. intros a b [E|[]]. injection E as <- <-. reflexivity. }
  split; [reflexivity|]. split; [lazy -[INR sqrt Rdiv Q2R]; reflexivity|]. split; reflexivity.
Qed.
(* all segments with less than two events: an error *)
Lemma evolution_empty srt energy r1 r2 r seg s g : sorts_by t_end srt -> good g -> gti_of s = Some g -> nondecreasing (s_time s) -> s_dt s == 0 -> regular s ->
  0 < seg -> (exists a b, In (a, b) g /\ seg < b - a + (1 # 100000)) -> (length (s_time s) <= 1)%nat ->
  color_evolution srt energy r1 r2 (Some seg) s = Err ValueError /\ intensity_evolution srt energy r (Some seg) s = Err ValueError.
Proof.
  intros Hs G Hg Ht Hd R Hseg Hl L.
  assert (F : forall st, filter (fun a => Nat.leb 2 (samples_in (s_time s) a (a + seg))) st = []).
  { induction st as [|a st IH]; [reflexivity|]. cbn [filter]. replace (Nat.leb 2 (samples_in (s_time s) a (a + seg))) with false; [exact IH|]. symmetry. apply Nat.leb_gt. unfold samples_in.
    assert (K : (length (filter (in_window a (a + seg)) (s_time s)) <= length (s_time s))%nat) by (generalize (s_time s) as l; clear; induction l as [|x l IH]; [reflexivity|]; cbn [filter]; destruct (in_window a (a + seg) x); cbn [length]; lia). lia. }
  split.
  - destruct (analyze_events_r false srt (color energy r1 r2) s g seg Hs G Hg Ht Hd R Hseg Hl) as (st & _ & E). unfold color_evolution. rewrite E, F. reflexivity.
  - destruct (analyze_events_r false srt (intensity energy r) s g seg Hs G Hg Ht Hd R Hseg Hl) as (st & _ & E). unfold intensity_evolution. rewrite E, F. reflexivity.
Qed.
