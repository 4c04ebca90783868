(* P_make2.v: GTIs given to constructors, lists of light curves, dynamical power spectra. *)
From Coq Require Import Reals Qreals.
From Coq Require Import Lqa Lia Sorted.
From Verif Require Import Np Lib S_gti S_seg S_utils S_flux S_fourier M_gti M_seg M_utils M_lc M_exvar Cplx M_fourier M_flux P_seg_cut P_flux P_flux2 P_avg P_flux4 P_gti_cross P_exvar P_segan5 P_seg_split M_make S_make P_make.
Open Scope Q_scope.

Lemma forall2_length {A B} (R : A -> B -> Prop) l l' : Forall2 R l l' -> length l = length l'.
Proof.
  induction 1; cbn [length]; congruence.
Qed.
(* the number of segments with two events, given a computed grid *)
Lemma grid_known g size st en : 0 < size -> time_intervals_from_gtis g size 1 (1 # 100000) = Ok (st, en) ->
  forall st', segment_grid g size (1 # 100000) st' -> Forall2 Qeq st' st.
Proof.
  intros Hs E st' G. eapply grid_unique; [exact G|]. eapply grid_ok; [exact Hs| |exact E]. lra.
Qed.
Lemma busy_count g size st en times : 0 < size -> time_intervals_from_gtis g size 1 (1 # 100000) = Ok (st, en) ->
  forall st', segment_grid g size (1 # 100000) st' ->
  length (filter (fun s => Nat.leb 2 (events_in times s (s + size))) st') = length (filter (fun s => Nat.leb 2 (events_in times s (s + size))) st).
Proof.
  intros Hs E st' G. eapply forall2_length. apply busy_same. eapply grid_known; eassumption.
Qed.

(* two events in each of [0,2), [2,4), [4,6) *)
Definition six_times : list Q := [1 # 2; 1; 5 # 2; 3; 9 # 2; 5].
Lemma six_sorted : nondecreasing six_times.
Proof.
  cut (StronglySorted Qle six_times); [exact (proj1 (ss_nth Qle _))|]. repeat constructor; discriminate.
Qed.
Lemma six_from own g norm : norm <> OtherNorm -> or_own g own = [(0, 6)] -> exists t,
  powerspectrum_from_events true (mkEvl six_times own 0) 1 (Some 2) norm true g false = Ok (t, [(0, 6)]) /\ p_m t = 3%nat.
Proof.
  intros Hn Hg. destruct (from_events true (mkEvl six_times own 0) 1 2 norm g false 2) as (st & G & _ & _ & H); try reflexivity; try lia; try exact six_sorted; try exact Hn.
  { cbn [e_gti]. rewrite Hg. exists 0, 6. split; [left; reflexivity|reflexivity]. }
  cbn [e_gti e_time e_res] in *. rewrite Hg in *.
  pose proof (busy_count [(0, 6)] (nq 2 * suggest_compatible_dt 0 1) [0; 2; 4] [2; 4; 6] six_times ltac:(reflexivity) ltac:(vm_compute; reflexivity) st G) as U.
  assert (U3 : length (filter (fun s => Nat.leb 2 (events_in six_times s (s + nq 2 * suggest_compatible_dt 0 1))) st) = 3%nat) by (rewrite U; vm_compute; reflexivity).
  destruct H as (t & kn & E & _ & M & _); [intros C; rewrite C in U3; discriminate|].
  exists t. split; [exact E|]. rewrite M. exact U3.
Qed.
(* AveragedPowerspectrum(events, gti=g) takes segments outside g *)
Lemma averaged_gti_refuted : exists ev g t gt, good (e_gti ev) /\ good g /\
  new_averaged_powerspectrum true (Events ev) (Some 2) Leahy (Some g) (Some 1) true false = Ok (t, gt) /\
  (forall st, segment_grid g 2 (1 # 100000) st -> length st = 1%nat) /\ p_m t = 3%nat /\ gt <> g.
Proof.
  destruct (six_from [(0, 6)] None Leahy ltac:(discriminate) eq_refl) as (t & E & M).
  exists (mkEvl six_times [(0, 6)] 0), [(0, 2)], t, [(0, 6)].
  assert (W : forall a b : Q, a < b -> good [(a, b)]).
  { intros a b H. split; [discriminate|]. split.
    - split; [intros x y [C|[]]; injection C as <- <-; lra|]. intros [|i] [|j] x y z w L; try lia; destruct j; discriminate.
    - intros x y [C|[]]. injection C as <- <-. exact H. }
  split; [apply W; reflexivity|]. split; [apply W; reflexivity|]. rewrite averaged_is by (discriminate || reflexivity). split; [exact E|]. split; [|split; [exact M|discriminate]].
  intros st G. exact (forall2_length _ _ _ (grid_known [(0, 2)] 2 [0] [2] ltac:(reflexivity) ltac:(vm_compute; reflexivity) st G)).
Qed.
(* powerspectrum_from_events(events, gti=g) takes segments outside the GTIs of the events *)
Lemma own_gti_refuted : exists ev g t gt, good (e_gti ev) /\ good g /\
  powerspectrum_from_events true ev 1 (Some 2) Leahy true (Some g) false = Ok (t, gt) /\
  (forall st, segment_grid (e_gti ev) 2 (1 # 100000) st -> length st = 1%nat) /\ p_m t = 3%nat.
Proof.
  destruct (six_from [(0, 2)] (Some [(0, 6)]) Leahy ltac:(discriminate) eq_refl) as (t & E & M).
  exists (mkEvl six_times [(0, 2)] 0), [(0, 6)], t, [(0, 6)].
  assert (W : forall a b : Q, a < b -> good [(a, b)]).
  { intros a b H. split; [discriminate|]. split.
    - split; [intros x y [C|[]]; injection C as <- <-; lra|]. intros [|i] [|j] x y z w L; try lia; destruct j; discriminate.
    - intros x y [C|[]]. injection C as <- <-. exact H. }
  split; [apply W; reflexivity|]. split; [apply W; reflexivity|]. split; [exact E|]. split; [|exact M].
  intros st G. exact (forall2_length _ _ _ (grid_known [(0, 2)] 2 [0] [2] ltac:(reflexivity) ltac:(vm_compute; reflexivity) st G)).
Qed.

(* ---------- dynamical power spectra ---------- *)
Lemma ratios_map f (u : list R) : forall l, l = map (fun x => (x * f)%R) u ->
  flat_map (fun p => match fdiv (fst p) (snd p) with Some v => [v] | None => [] end) (combine l u) = map (fun _ => f) (filter (fun x => if Req_EM_T x 0 then false else true) u).
Proof.
  intros l ->. induction u as [|x u IH]; [reflexivity|]. cbn [map combine flat_map fst snd filter]. unfold fdiv at 1. destruct (Req_EM_T x 0) as [H|H]; cbn [app map]; [exact IH|].
  rewrite IH. f_equal. field. exact H.
Qed.
Lemma rlsum_const {A} f (l : list A) : rlsum (map (fun _ => f) l) = (INR (length l) * f)%R.
Proof.
  induction l as [|x l IH]; [cbn; ring|]. cbn [map length]. rewrite S_INR. change (rlsum (f :: map (fun _ => f) l)) with (f + rlsum (map (fun _ : A => f) l))%R. rewrite IH. ring.
Qed.
Lemma conv_value f (u : list (list R)) :
  ((forall row x, In row u -> In x row -> x = 0%R) -> nanmean_ratio (map (map (fun x => (x * f)%R)) u) u = None) /\
  ((exists row x, In row u /\ In x row /\ x <> 0%R) -> nanmean_ratio (map (map (fun x => (x * f)%R)) u) u = Some f).
Proof.
  unfold nanmean_ratio, ratios. rewrite (ratios_map f (concat u)) by (symmetry; apply concat_map). set (k := filter _ (concat u)). split; intros H.
  - assert (K : k = []).
    { unfold k. assert (A : forall x, In x (concat u) -> x = 0%R) by (intros x Hx; apply in_concat in Hx; destruct Hx as (row & H1 & H2); eapply H; eassumption).
      clear k H. induction (concat u) as [|x l IH]; [reflexivity|]. cbn [filter]. destruct (Req_EM_T x 0) as [_|C]; [apply IH; intros y Hy; apply A; right; exact Hy|].
      exfalso. apply C, A. left. reflexivity. }
    rewrite K. reflexivity.
  - destruct H as (row & x & H1 & H2 & H3). assert (K : In x k).
    { unfold k. apply filter_In. split; [apply in_concat; exists row; split; assumption|]. destruct (Req_EM_T x 0); [contradiction|reflexivity]. }
    assert (L : (0 < length k)%nat) by (destruct k; [destruct K|cbn; lia]).
    destruct (map (fun _ => f) k) as [|y l] eqn:E; [destruct k; [destruct K|discriminate]|]. rewrite <- E, rlsum_const, map_length. f_equal. field.
    apply not_0_INR. lia.
Qed.
Lemma dynamical_events numba ev rq norm gti dt n : let dt' := suggest_compatible_dt (e_res ev) dt in
  (1 # 1000000000000000) < dt -> 2 * dt <= rq -> 0 < dt' -> (0 < n)%nat -> snd (fix_segment_size rq dt' (1 # 100)) = Z.of_nat n -> nondecreasing (e_time ev) ->
  (exists a b, In (a, b) (e_gti ev) /\ nq n * dt' < b - a + (1 # 100000) /\ rq < b - a + (1 # 100000)) -> norm <> OtherNorm ->
  let size := nq n * dt' in
  exists st starts, segment_grid (e_gti ev) size (1 # 100000) st /\ segment_grid (e_gti ev) rq (1 # 100000) starts /\
    let us := filter (fun s => Nat.leb 2 (events_in (e_time ev) s (s + size))) st in
    let lc s := binned_counts (e_time ev) size n s in
    let nph := avg (fun s => INR (events_in (e_time ev) s (s + size))) us in
    let ks := seq 1 (n_pos n) in
    let res := new_dynamical numba (Events ev) rq norm gti (Some dt) in
    (us = [] -> res = Err AttributeError) /\
    (us <> [] -> exists y kn, res = Ok y /\ kind norm None = Some kn /\ let f := factor kn (Q2R dt') n (nph / INR n) nph in
      y_cols y = map (fun s => map (fun k => (power_at (lc s) k * f)%R) ks) us /\
      y_time y = map (fun s => s + (1 # 2) * rq) starts /\
      y_freq y = map (fun k => (INR k / (INR n * Q2R dt'))%R) ks /\ y_df y = (1 / (Q2R dt' * INR n))%R /\
      y_nphots y = nph /\ y_meanrate y = (nph / INR n / Q2R dt')%R /\
      ((forall s k, In s us -> In k ks -> power_at (lc s) k = 0%R) -> y_conv y = None) /\
      ((exists s k, In s us /\ In k ks /\ power_at (lc s) k <> 0%R) -> y_conv y = Some f)).
Proof.
  intros dt' Hv H2 Hd Hn F Ht (a & b & Hin & Ha & Hb) Hnorm size.
  destruct (from_events numba ev dt rq norm None true n Hd Hn F Ht) as (st & G & _ & H); [exists a, b; split; assumption|exact Hnorm|]. fold dt' in H, G. fold size in G, H. cbn [or_own] in G, H.
  destruct (grid_exists (e_gti ev) rq (1 # 100000)) as (starts & E2); [lra|exists a, b; split; assumption|].
  exists st, starts. split; [exact G|]. split; [eapply grid_ok; [|  |exact E2]; lra|]. intros us lc nph ks res. cbv zeta in H. fold us in H. destruct H as (HA & HB).
  assert (R : res = make_matrix numba (Events ev) rq norm gti (Some dt)).
  { unfold res, new_dynamical. cbn [bind]. assert (Q : qlt rq (2 * dt) = false) by (apply qlt_f; exact H2). rewrite Q. reflexivity. }
  rewrite R. unfold make_matrix. rewrite averaged_is by assumption. split; intros Hu.
  - rewrite (HA Hu). reflexivity.
  - destruct (HB Hu) as (t & kn & E & K & P1 & P2 & P3 & P4 & P5 & P6 & P7 & P8 & P9). rewrite E. cbn [bind fst snd]. rewrite P8, P9, E2. cbn [bind fst].
    eexists. exists kn. split; [reflexivity|]. split; [exact K|]. cbv zeta. cbn [y_cols y_time y_freq y_df y_nphots y_meanrate y_conv]. rewrite P2, P3, P4.
    split; [reflexivity|]. split; [reflexivity|]. split; [exact P6|]. split; [exact P5|]. split; [reflexivity|]. split; [reflexivity|].
    set (f := factor kn (Q2R dt') n _ _).
    assert (X : map (fun s => map (fun k => (power_at (binned_counts (e_time ev) size n s) k * f)%R) (seq 1 (n_pos n))) us =
                map (map (fun x => (x * f)%R)) (map (fun s => map (power_at (binned_counts (e_time ev) size n s)) (seq 1 (n_pos n))) us)).
    { rewrite map_map. apply map_ext. intros s. rewrite map_map. reflexivity. }
    rewrite X. destruct (conv_value f (map (fun s => map (power_at (binned_counts (e_time ev) size n s)) (seq 1 (n_pos n))) us)) as (C1 & C2). split; intros H.
    + apply C1. intros row x Hr Hx. apply in_map_iff in Hr. destruct Hr as (s & <- & Hs). apply in_map_iff in Hx. destruct Hx as (k & <- & Hk). apply H; assumption.
    + apply C2. destruct H as (s & k & Hs & Hk & Hz). exists (map (power_at (lc s)) ks), (power_at (lc s) k).
      split; [apply (in_map (fun s => map (power_at (lc s)) ks)); exact Hs|]. split; [apply in_map; exact Hk|exact Hz].
Qed.
(* when every segment has two events and the segment is a whole number of bins, there is one column for each time *)
Lemma dynamical_matched numba ev rq norm gti dt n y : let dt' := suggest_compatible_dt (e_res ev) dt in
  (1 # 1000000000000000) < dt -> 2 * dt <= rq -> 0 < dt' -> (0 < n)%nat -> rq == nq n * dt' -> nondecreasing (e_time ev) ->
  (exists a b, In (a, b) (e_gti ev) /\ rq < b - a + (1 # 100000)) -> norm <> OtherNorm ->
  (forall st s, segment_grid (e_gti ev) rq (1 # 100000) st -> In s st -> (2 <= events_in (e_time ev) s (s + rq))%nat) ->
  new_dynamical numba (Events ev) rq norm gti (Some dt) = Ok y -> length (y_cols y) = length (y_time y).
Proof.
  intros dt' Hv H2 Hd Hn Er Ht (a & b & Hin & Hb) Hnorm Hall E.
  destruct (dynamical_events numba ev rq norm gti dt n Hv H2 Hd Hn) as (st & starts & G1 & G2 & HA & HB); try assumption.
  { fold dt'. rewrite (fix_exact rq dt' n Hd Er). reflexivity. }
  { exists a, b. split; [exact Hin|]. split; [fold dt'; lra|exact Hb]. }
  fold dt' in G1, HA, HB. set (size := nq n * dt') in *.
  assert (U : filter (fun s => Nat.leb 2 (events_in (e_time ev) s (s + size))) st = st).
  { assert (A : forall s, In s st -> Nat.leb 2 (events_in (e_time ev) s (s + size)) = true).
    { intros s Hs. apply Nat.leb_le. rewrite (events_ext (e_time ev) s (s + size) s (s + rq)) by lra. apply (Hall st s); [|exact Hs]. eapply grid_size; [|exact G1]. symmetry. exact Er. }
    clear - A. induction st as [|s st IH]; [reflexivity|]. cbn [filter]. rewrite A by (left; reflexivity). f_equal. apply IH. intros x Hx. apply A. right. exact Hx. }
  rewrite U in HA, HB. destruct st as [|s0 st0] eqn:Est; [rewrite (HA eq_refl) in E; discriminate|]. rewrite <- Est in *.
  destruct HB as (y' & kn & E' & _ & C & T & _); [rewrite Est; discriminate|]. assert (y' = y) by congruence. subst y'. rewrite C, T, !map_length.
  eapply forall2_length. eapply grid_unique; [|exact G2]. eapply grid_size; [|exact G1]. symmetry. exact Er.
Qed.
(* a segment with fewer than two events has a time and no column *)
Lemma good_one (a b : Q) : a < b -> good [(a, b)].
Proof.
  intros H. split; [discriminate|]. split.
  - split; [intros x y [C|[]]; injection C as <- <-; lra|]. intros [|i] [|j] x y z w L; try lia; destruct j; discriminate.
  - intros x y [C|[]]. injection C as <- <-. exact H.
Qed.
Lemma dynamical_quiet_refuted : exists ev y, good (e_gti ev) /\ nondecreasing (e_time ev) /\
  new_dynamical true (Events ev) 2 Leahy None (Some 1) = Ok y /\ length (y_cols y) = 2%nat /\ length (y_time y) = 3%nat.
Proof.
  set (ev := mkEvl [1 # 2; 1; 9 # 2; 5] [(0, 6)] 0).
  assert (S : nondecreasing (e_time ev)) by (cut (StronglySorted Qle (e_time ev)); [exact (proj1 (ss_nth Qle _))|]; repeat constructor; discriminate).
  destruct (dynamical_events true ev 2 Leahy None 1 2) as (st & starts & G1 & G2 & _ & H); try reflexivity; try lia; try exact S; try discriminate.
  { exists 0, 6. split; [left; reflexivity|]. split; reflexivity. }
  cbn [e_gti e_time e_res ev] in G1, G2, H.
  pose proof (busy_count [(0, 6)] (nq 2 * suggest_compatible_dt 0 1) [0; 2; 4] [2; 4; 6] [1 # 2; 1; 9 # 2; 5] ltac:(reflexivity) ltac:(vm_compute; reflexivity) st G1) as U.
  pose proof (forall2_length _ _ _ (grid_known [(0, 6)] 2 [0; 2; 4] [2; 4; 6] ltac:(reflexivity) ltac:(vm_compute; reflexivity) starts G2)) as T.
  assert (U' : length (filter (fun s => Nat.leb 2 (events_in [1 # 2; 1; 9 # 2; 5] s (s + nq 2 * suggest_compatible_dt 0 1))) st) = 2%nat) by (rewrite U; vm_compute; reflexivity).
  destruct H as (y & kn & E & _ & C & Ty & _); [intros X; rewrite X in U'; discriminate|].
  exists ev, y. split; [apply good_one; reflexivity|]. split; [exact S|]. split; [exact E|]. split; [rewrite C, map_length; exact U'|rewrite Ty, map_length; exact T].
Qed.
(* a segment size that is not a whole number of bins is shortened for the columns, not for the times *)
Lemma dynamical_size_refuted : exists ev y, good (e_gti ev) /\ nondecreasing (e_time ev) /\
  new_dynamical true (Events ev) (5 # 2) Leahy None (Some 1) = Ok y /\ length (y_cols y) = 5%nat /\ length (y_time y) = 4%nat.
Proof.
  set (ts := [1 # 2; 1; 5 # 2; 3; 9 # 2; 5; 13 # 2; 7; 17 # 2; 9]). set (ev := mkEvl ts [(0, 10)] 0).
  assert (S : nondecreasing (e_time ev)) by (cut (StronglySorted Qle (e_time ev)); [exact (proj1 (ss_nth Qle _))|]; repeat constructor; discriminate).
  destruct (dynamical_events true ev (5 # 2) Leahy None 1 2) as (st & starts & G1 & G2 & _ & H); try reflexivity; try lia; try exact S; try discriminate.
  { exists 0, 10. split; [left; reflexivity|]. split; reflexivity. }
  cbn [e_gti e_time e_res ev] in G1, G2, H.
  assert (I1 : exists en, time_intervals_from_gtis [(0, 10)] (nq 2 * suggest_compatible_dt 0 1) 1 (1 # 100000) = Ok ([0; 2; 4; 6; 8], en)) by (eexists; vm_compute; reflexivity).
  assert (I2 : exists x en, time_intervals_from_gtis [(0, 10)] (5 # 2) 1 (1 # 100000) = Ok (x, en) /\ length x = 4%nat) by (do 2 eexists; split; [vm_compute; reflexivity|reflexivity]).
  destruct I1 as (en & I1). destruct I2 as (x & en' & I2 & L).
  pose proof (busy_count [(0, 10)] (nq 2 * suggest_compatible_dt 0 1) _ _ ts ltac:(reflexivity) I1 st G1) as U.
  pose proof (forall2_length _ _ _ (grid_known [(0, 10)] (5 # 2) _ _ ltac:(reflexivity) I2 starts G2)) as T. rewrite L in T.
  assert (U' : length (filter (fun s => Nat.leb 2 (events_in ts s (s + nq 2 * suggest_compatible_dt 0 1))) st) = 5%nat) by (rewrite U; vm_compute; reflexivity).
  destruct H as (y & kn & E & _ & C & Ty & _); [intros X; rewrite X in U'; discriminate|].
  exists ev, y. split; [apply good_one; reflexivity|]. split; [exact S|]. split; [exact E|]. split; [rewrite C, map_length; exact U'|rewrite Ty, map_length; exact T].
Qed.
(* what the constructor refuses *)
Lemma dynamical_checks numba d seg norm gti dt :
  (forall e, d = Events e -> dt = None -> new_dynamical numba d seg norm gti dt = Err ValueError) /\
  (forall e v, d = Events e -> dt = Some v -> seg < 2 * v -> new_dynamical numba d seg norm gti dt = Err ValueError) /\
  (forall c, d = Curve c -> l_tseg c < seg \/ seg < 2 * l_dt c -> new_dynamical numba d seg norm gti dt = Err ValueError).
Proof.
  unfold new_dynamical. split; [|split].
  - intros e -> ->. reflexivity.
  - intros e v -> -> H. cbn [bind]. assert (Q : qlt seg (2 * v) = true) by (apply qlt_t; exact H). rewrite Q. reflexivity.
  - intros c -> H. destruct (qlt (l_tseg c) seg) eqn:E; [reflexivity|]. cbn [bind]. destruct H as [H|H]; [apply qlt_f in E; lra|].
    assert (Q : qlt seg (2 * l_dt c) = true) by (apply qlt_t; exact H). rewrite Q. reflexivity.
Qed.

(* ---------- lists of light curves ---------- *)
Lemma iterate_app numba srt seg c l1 l2 r1 r2 : iterate_lc_counts numba srt seg c l1 = Ok r1 -> iterate_lc_counts numba srt seg c l2 = Ok r2 ->
  iterate_lc_counts numba srt seg c (l1 ++ l2) = Ok (r1 ++ r2).
Proof.
  unfold iterate_lc_counts. revert r1. induction l1 as [|a l1 IH]; intros r1 E1 E2.
  - cbn [map_result bind concat] in E1. assert (r1 = []) by congruence. subst r1. exact E2.
  - cbn [app map_result] in *. destruct (curve_fluxes numba srt seg c a) as [x|]; [|discriminate]. cbn [bind] in *.
    destruct (map_result (curve_fluxes numba srt seg c) l1) as [l|]; [|discriminate]. cbn [bind concat] in *.
    specialize (IH (concat l) eq_refl E2). destruct (map_result (curve_fluxes numba srt seg c) (l1 ++ l2)) as [l'|]; [|discriminate]. cbn [bind concat] in *.
    assert (X : concat l' = concat l ++ r2) by congruence. rewrite X, app_assoc. congruence.
Qed.
Lemma rint_nat size dt n : 0 < dt -> size == nq n * dt -> rint (size / dt) = Z.of_nat n.
Proof.
  intros Hd Es. assert (X : size / dt == inject_Z (Z.of_nat n)) by (rewrite Es; field; lra).
  destruct (rint_half (size / dt)) as [H1 H2]. set (z := rint (size / dt)) in *. clearbody z.
  assert (B1 : inject_Z z < inject_Z (Z.of_nat n + 1)) by (rewrite inject_Z_plus; change (inject_Z 1) with 1; lra).
  assert (B2 : inject_Z (Z.of_nat n) < inject_Z (z + 1)) by (rewrite inject_Z_plus; change (inject_Z 1) with 1; lra).
  rewrite <- Zlt_Qlt in B1, B2. lia.
Qed.
Lemma iterate_form numba srt seg n lcs it : (2 <= n)%nat -> Forall (plain_curve seg n) lcs ->
  iterate_lc_counts numba srt seg None lcs = Ok it ->
  exists sts, Forall2 (fun lc st => st <> [] /\ bin_segments (l_time lc) (l_gti lc) seg (l_dt lc) n st) lcs sts /\ map real_item it = cut_curves n lcs sts.
Proof.
  intros Hn F E. unfold iterate_lc_counts in E. apply bind_ok in E. destruct E as (l & E & E'). assert (it = concat l) by congruence. subst it. clear E'.
  apply map_result_forall2 in E. revert F. induction E as [|lc fl lcs l H E IH]; intros F; [exists []; split; [constructor|reflexivity]|].
  inversion F as [|? ? (P1 & P2 & P3 & P4) F']; subst. destruct (IH F') as (sts & A & B).
  unfold curve_fluxes in H. cbn [bind] in H. destruct (flux_lc _ _ _ _ _ _ _ _ _ n P1 P2 P3 Hn P4 H) as (_ & st & _ & _ & N & S & M).
  exists (st :: sts). split; [constructor; [split; assumption|exact A]|]. cbn [concat]. rewrite map_app, M, B. reflexivity.
Qed.
Lemma iterable_pds numba srt lcs dt seg norm common save n t : (2 <= n)%nat -> Forall (plain_curve seg n) lcs ->
  powerspectrum_from_lc_iterable numba srt lcs dt seg norm common None save = Ok t ->
  exists sts, Forall2 (fun lc st => st <> [] /\ bin_segments (l_time lc) (l_gti lc) seg (l_dt lc) n st) lcs sts /\
  avg_pds (cut_curves n lcs sts) (Q2R dt) norm common save = Ok (Some t).
Proof.
  intros Hn F E. unfold powerspectrum_from_lc_iterable in E. apply bind_ok in E. destruct E as (it & E1 & E). apply bind_ok in E. destruct E as (o & E2 & E).
  destruct (iterate_form _ _ _ _ _ _ Hn F E1) as (sts & A & B). exists sts. split; [exact A|]. rewrite <- B, E2. destruct o; cbn [table_of] in E; congruence.
Qed.
(* one light curve in a list is the light curve *)
Lemma iterable_one numba srt lc seg norm common save n : (2 <= n)%nat -> plain_curve seg n lc -> seg = nq n * l_dt lc ->
  powerspectrum_from_lc_iterable numba srt [lc] (l_dt lc) seg norm common None save =
  let! tg := powerspectrum_from_lightcurve numba lc (Some seg) norm common None save in Ok (fst tg).
Proof.
  intros Hn (P1 & _ & _ & P4) Es. unfold powerspectrum_from_lc_iterable, powerspectrum_from_lightcurve, iterate_lc_counts, avg_pds_from_timeseries, segment_and_bins.
  cbn [map_result]. unfold curve_fluxes. cbn [bind or_own]. rewrite (rint_nat _ _ _ P1 P4), (fix_exact seg (l_dt lc) n P1 P4). cbn [fst snd bind]. rewrite <- Es.
  destruct (get_flux_iterable _ _ _ _ _ _ _ _) as [it|e]; [|reflexivity]. cbn [bind concat]. rewrite app_nil_r.
  destruct (avg_pds _ _ _ _ _) as [[t|]|e]; reflexivity.
Qed.
Lemma iterable_cs numba srt lcs1 lcs2 dt seg norm common fullspec pt save n t : (2 <= n)%nat -> Forall (plain_curve seg n) lcs1 -> Forall (plain_curve seg n) lcs2 ->
  crossspectrum_from_lc_iterable numba srt lcs1 lcs2 dt seg norm common fullspec pt None save = Ok t ->
  exists sts1 sts2, Forall2 (fun lc st => st <> [] /\ bin_segments (l_time lc) (l_gti lc) seg (l_dt lc) n st) lcs1 sts1 /\
  Forall2 (fun lc st => st <> [] /\ bin_segments (l_time lc) (l_gti lc) seg (l_dt lc) n st) lcs2 sts2 /\
  avg_cs (cut_curves n lcs1 sts1) (cut_curves n lcs2 sts2) (Q2R dt) norm common fullspec pt true save = Ok t.
Proof.
  intros Hn F1 F2 E. unfold crossspectrum_from_lc_iterable in E. apply bind_ok in E. destruct E as (i1 & E1 & E). apply bind_ok in E. destruct E as (i2 & E2 & E).
  destruct (iterate_form _ _ _ _ _ _ Hn F1 E1) as (s1 & A1 & B1). destruct (iterate_form _ _ _ _ _ _ Hn F2 E2) as (s2 & A2 & B2). exists s1, s2. rewrite <- B1, <- B2. auto.
Qed.
(* light curves with different GTIs: segments of different times are paired; the count of the bin at time k + 1/2 is k + 1 *)
Definition steps : list Q := [1 # 2; 3 # 2; 5 # 2; 7 # 2; 9 # 2; 11 # 2].
Definition ticks : list Q := [1; 2; 3; 4; 5; 6].
Lemma pairing_refuted : exists lc1 lc2, good (l_gti lc1) /\ good (l_gti lc2) /\ l_time lc1 = l_time lc2 /\ l_counts lc1 = l_counts lc2 /\ forall srt,
  iterate_lc_counts true srt 2 None [lc1] = Ok [Some ([1; 2], None); Some ([3; 4], None)] /\
  iterate_lc_counts true srt 2 None [lc2] = Ok [Some ([3; 4], None); Some ([5; 6], None)].
Proof.
  exists (mkCurve steps ticks [(0, 4)] 1 6 None), (mkCurve steps ticks [(2, 6)] 1 6 None).
  split; [apply good_one; reflexivity|]. split; [apply good_one; reflexivity|]. split; [reflexivity|]. split; [reflexivity|]. intros srt. split; vm_compute; reflexivity.
Qed.
