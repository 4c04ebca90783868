(* P_flux2.v: proofs about averaged spectra and count rates of event lists and light curves. *)
From Coq Require Import Reals Qreals Lqa Lia.
From Verif Require Import Np Lib M_gti M_seg M_utils Cplx M_fourier M_flux S_gti S_seg S_utils S_flux S_fourier P_hist P_lc_make P_seg_cut P_seg_bins P_helpers P_base2 P_avg P_avg2 P_flux.
Open Scope Q_scope.

(* ---- numbers of events ---- *)
Lemma events_ext times a b a' b' : a == a' -> b == b' -> events_in times a b = events_in times a' b'.
Proof.
  intros A B. unfold events_in. rewrite <- !count_filter_len. apply count_ext. intros t _. apply eq_true_iff_eq.
  rewrite !andb_true_iff, !qle_t, !qlt_t. split; intros [H H']; split; lra.
Qed.
Lemma events_split times a b c : a <= b -> b <= c -> (events_in times a b + events_in times b c = events_in times a c)%nat.
Proof.
  intros A B. unfold events_in. induction times as [|t l IH]; [reflexivity|]. cbn [filter].
  destruct (qle a t) eqn:E1, (qlt t b) eqn:E2, (qle b t) eqn:E3, (qlt t c) eqn:E4; qb; try lra; cbn [andb length]; lia.
Qed.
Lemma events_point times a : events_in times a a = 0%nat.
Proof. unfold events_in. induction times as [|t l IH]; [reflexivity|]. cbn [filter]. destruct (qle a t) eqn:E1, (qlt t a) eqn:E2; qb; try lra; exact IH. Qed.
Lemma binned_sum times size n s : 0 < size -> (0 < n)%nat -> rlsum (binned_counts times size n s) = INR (events_in times s (s + size)).
Proof.
  intros Hs Hn. assert (P : 0 < nq n) by (pose proof (zof_lt 0 n ltac:(lia)) as Z; change (nq 0) with 0 in Z; lra).
  assert (W : 0 < size / nq n) by (apply Qlt_shift_div_l; lra).
  assert (G : forall m, rlsum (map (fun k => INR (events_in times (s + nq k * (size / nq n)) (s + nq (S k) * (size / nq n)))) (seq 0 m)) =
                        INR (events_in times s (s + nq m * (size / nq n)))).
  { induction m as [|m IH].
    - cbn [seq map]. rewrite (events_ext times s (s + nq 0 * (size / nq n)) s s); [now rewrite events_point|reflexivity|]. change (nq 0) with 0. lra.
    - rewrite seq_S, map_app, rlsum_app, IH. cbn [map rlsum fold_right Nat.add]. rewrite Rplus_0_r, <- plus_INR. f_equal.
      pose proof (zof_0 m). pose proof (zof_le m (S m) ltac:(lia)). apply events_split; [nra|].
      assert (nq m * (size / nq n) <= nq (S m) * (size / nq n)) by (apply Qmult_le_compat_r; lra). lra. }
  unfold binned_counts. rewrite G. f_equal. apply events_ext; [reflexivity|].
  assert (E : nq n * (size / nq n) == size) by (field; lra). lra.
Qed.
Lemma binned_len times size n s : length (binned_counts times size n s) = n.
Proof. unfold binned_counts. now rewrite map_length, seq_length. Qed.

(* ---- the usable segments ---- *)
Definition busy (times : list Q) (size : Q) (st : list Q) : list Q := filter (fun s => Nat.leb 2 (events_in times s (s + size))) st.
Lemma rlsum_zero l : existsb (fun x => if Req_EM_T x 0 then false else true) l = false -> rlsum l = 0%R.
Proof. induction l as [|x l IH]; [reflexivity|]. cbn [existsb rlsum fold_right]. destruct (Req_EM_T x 0) as [->|]; [|discriminate]. intros H. rewrite Rplus_0_l. now apply IH. Qed.
Lemma busy_nonzero times size n s : 0 < size -> (0 < n)%nat -> (2 <= events_in times s (s + size))%nat ->
  nonzero {| s_flux := binned_counts times size n s; s_err := None |} = true.
Proof.
  intros Hs Hn H. unfold nonzero. cbn [s_flux]. destruct (existsb _ _) eqn:E; [reflexivity|]. apply rlsum_zero in E.
  rewrite binned_sum in E by assumption. apply (INR_eq _ 0) in E. lia.
Qed.
Lemma usable_counts times size n st : 0 < size -> (0 < n)%nat ->
  usable (map (counts_segment times size n) st) = map (fun s => {| s_flux := binned_counts times size n s; s_err := None |}) (busy times size st).
Proof.
  intros Hs Hn. induction st as [|s st IH]; [reflexivity|]. cbn [map usable flat_map]. fold (usable (map (counts_segment times size n) st)).
  rewrite IH. unfold counts_segment at 1, busy. cbn [filter].
  destruct (Nat.ltb_spec (events_in times s (s + size)) 2) as [L|L].
  - rewrite (proj2 (Nat.leb_gt 2 _) L). reflexivity.
  - rewrite (proj2 (Nat.leb_le 2 _) L). rewrite busy_nonzero by assumption. reflexivity.
Qed.
Lemma counts_plain times size n st : plain (map (counts_segment times size n) st).
Proof.
  intros u H. apply in_map_iff in H. destruct H as (s & E & _). unfold counts_segment in E. destruct (Nat.ltb _ _); [discriminate|].
  assert (IO : forall x y : seg, Some x = Some y -> x = y) by congruence. apply IO in E. now subst.
Qed.

(* ---- averaged power spectra ---- *)
Lemma fix_exact rq dt n : 0 < dt -> rq == nq n * dt -> fix_segment_size rq dt (1 # 100) = (nq n * dt, Z.of_nat n).
Proof.
  intros Hd E. pose proof (fix_segment_exact (Z.of_nat n) dt (1 # 100) Hd) as F. unfold fix_segment_size in *. cbn [snd fst] in *.
  assert (Ef : rq / dt == nq n * dt / dt) by (apply Qdiv_comp; [exact E|reflexivity]).
  assert (B : qlt (inject_Z (Qceiling (nq n * dt / dt)) - rq / dt) (1 # 100) = qlt (inject_Z (Qceiling (nq n * dt / dt)) - nq n * dt / dt) (1 # 100)).
  { apply eq_true_iff_eq. rewrite !qlt_t. split; intros H; lra. }
  rewrite (Qceiling_comp _ _ Ef), (Qfloor_comp _ _ Ef), B, F. reflexivity.
Qed.
Lemma size_pos n dt : (0 < n)%nat -> 0 < dt -> 0 < nq n * dt.
Proof. intros Hn Hd. pose proof (zof_lt 0 n ltac:(lia)) as Z. change (nq 0) with 0 in Z. nra. Qed.
Lemma pds_events numba times g rq dt norm common subcs n : 0 < dt -> (0 < n)%nat -> rq == nq n * dt -> nondecreasing times ->
  (exists a b, In (a, b) g /\ rq < b - a + (1 # 100000)) ->
  exists st, segment_grid g (nq n * dt) (1 # 100000) st /\ st <> [] /\
    avg_pds_from_timeseries numba times g (Some rq) dt norm common None None subcs =
    avg_pds (map (counts_segment times (nq n * dt) n) st) (Q2R dt) norm common subcs.
Proof.
  intros Hd Hn Er Ht (a & b & Hin & Hlt). pose proof (fix_exact rq dt n Hd Er) as F.
  destruct (flux_events numba times g (nq n * dt) n dt None (size_pos n dt Hn Hd) Hn Ht) as (st & l & G & N & E & M); [exists a, b; split; [assumption|lra]|].
  exists st. split; [exact G|]. split; [exact N|]. unfold avg_pds_from_timeseries, segment_and_bins. rewrite F. cbn [bind fst snd].
  rewrite Nat2Z.id, E. cbn [bind]. now rewrite M.
Qed.
Lemma map_const_err {A} (f : A -> seg) (l : list A) : (forall a, s_err (f a) = None) -> mean_present (map err2 (map f l)) = None.
Proof.
  intros H. unfold mean_present. assert (E : present (map err2 (map f l)) = []); [|now rewrite E].
  induction l as [|a l IH]; [reflexivity|]. cbn [map present flat_map]. unfold err2 at 1. rewrite H. exact IH.
Qed.
Lemma avg_map {A B} (f : A -> B) (h : B -> R) l : avg h (map f l) = avg (fun a => h (f a)) l.
Proof. unfold avg. rewrite map_map, map_length. reflexivity. Qed.
Lemma avg_ext {A} (f h : A -> R) l : (forall a, In a l -> f a = h a) -> avg f l = avg h l.
Proof. intros H. unfold avg. f_equal. now apply rlsum_map. Qed.
Lemma pds_events_common numba times g rq dt norm subcs n : 0 < dt -> (0 < n)%nat -> rq == nq n * dt -> nondecreasing times ->
  (exists a b, In (a, b) g /\ rq < b - a + (1 # 100000)) -> norm <> OtherNorm ->
  let size := nq n * dt in
  exists st, segment_grid g size (1 # 100000) st /\
    let us := filter (fun s => Nat.leb 2 (events_in times s (s + size))) st in
    let lc s := binned_counts times size n s in
    let nph := avg (fun s => INR (events_in times s (s + size))) us in
    let res := avg_pds_from_timeseries numba times g (Some rq) dt norm true None None subcs in
    (us = [] -> res = Ok None) /\
    (us <> [] -> exists t kn, res = Ok (Some t) /\ kind norm None = Some kn /\
      p_m t = length us /\ p_n t = n /\ p_nphots t = nph /\ p_mean t = (nph / INR n)%R /\ p_df t = (1 / (Q2R dt * INR n))%R /\
      p_freq t = map (fun k => (INR k / (INR n * Q2R dt))%R) (seq 1 (n_pos n)) /\
      p_unnorm t = map (fun k => avg (fun s => power_at (lc s) k) us) (seq 1 (n_pos n)) /\
      p_power t = map (fun k => (avg (fun s => power_at (lc s) k) us * factor kn (Q2R dt) n (nph / INR n) nph)%R) (seq 1 (n_pos n))).
Proof.
  intros Hd Hn Er Ht Hg Hnorm size. pose proof (size_pos n dt Hn Hd) as Hs. fold size in Hs.
  destruct (pds_events numba times g rq dt norm true subcs n Hd Hn Er Ht Hg) as (st & G & N & E). fold size in G, E.
  exists st. split; [exact G|]. intros us lc nph res. unfold res. rewrite E.
  assert (C : tuples_nonzero (map (counts_segment times size n) st)).
  { intros u Hu He. apply counts_plain in Hu. contradiction. }
  pose proof (usable_counts times size n st Hs Hn) as U. change (busy times size st) with us in U.
  rewrite (avg_pds_common _ _ norm subcs n Hn C); [|rewrite U; intros u Hu; apply in_map_iff in Hu; destruct Hu as (s & <- & _); apply binned_len].
  rewrite U. rewrite map_const_err by reflexivity. rewrite map_length, !avg_map.
  assert (A : avg (fun s => photons {| s_flux := binned_counts times size n s; s_err := None |}) us = nph).
  { apply avg_ext. intros s _. unfold photons. cbn [s_flux]. now apply binned_sum. }
  rewrite A. clear A E U C N. split; intros Hu.
  - rewrite Hu. reflexivity.
  - destruct us as [|u us']; [contradiction|]. set (us := u :: us') in *. cbn [map].
    destruct (kind norm None) as [kn|] eqn:K; [|destruct norm; try discriminate; contradiction].
    eexists. exists kn. split; [reflexivity|]. split; [reflexivity|]. cbn [p_m p_n p_nphots p_mean p_df p_freq p_unnorm p_power].
    split; [reflexivity|]. split; [reflexivity|]. split; [reflexivity|]. split; [reflexivity|]. split; [reflexivity|]. split; [reflexivity|].
    split; apply map_ext; intros k.
    + change (avg (fun u0 : seg => power_at (s_flux u0) k) (map (fun s => {| s_flux := binned_counts times size n s; s_err := None |}) us) = avg (fun s => power_at (lc s) k) us).
      now rewrite avg_map.
    + f_equal. change (avg (fun u0 : seg => power_at (s_flux u0) k) (map (fun s => {| s_flux := binned_counts times size n s; s_err := None |}) us) = avg (fun s => power_at (lc s) k) us).
      now rewrite avg_map.
Qed.

(* ---- averaged cross spectra ---- *)
Lemma cs_events numba times1 times2 g rq dt norm common fullspec silent pt auxil subcs n : 0 < dt -> (0 < n)%nat -> rq == nq n * dt ->
  nondecreasing times1 -> nondecreasing times2 -> (exists a b, In (a, b) g /\ rq < b - a + (1 # 100000)) ->
  exists st, segment_grid g (nq n * dt) (1 # 100000) st /\ st <> [] /\
    avg_cs_from_timeseries numba times1 times2 g (Some rq) dt norm common fullspec silent pt None None None None auxil subcs =
    avg_cs (map (counts_segment times1 (nq n * dt) n) st) (map (counts_segment times2 (nq n * dt) n) st) (Q2R dt) norm common fullspec pt auxil subcs.
Proof.
  intros Hd Hn Er Ht1 Ht2 (a & b & Hin & Hlt). pose proof (fix_exact rq dt n Hd Er) as F.
  assert (Hg : exists a b, In (a, b) g /\ nq n * dt < b - a + (1 # 100000)) by (exists a, b; split; [assumption|lra]).
  assert (Hs := size_pos n dt Hn Hd).
  destruct (unbinned_form times1 g (nq n * dt) Hs Ht1 Hg) as (st & G & N & E1 & F1).
  destruct (unbinned_form times2 g (nq n * dt) Hs Ht2 Hg) as (st2 & _ & _ & E2 & F2).
  assert (st2 = st) as ->.
  { unfold segments_unbinned in E1, E2. destruct (time_intervals_from_gtis g (nq n * dt) 1 (1 # 100000)) as [[s0 e0]|]; [|discriminate]. cbn [bind fst snd] in E1, E2.
    assert (IO : forall x y : segment_indices, Ok x = Ok y -> x = y) by congruence. apply IO in E1, E2.
    apply (f_equal (map (fun x : Q * Q * (nat * nat) => fst (fst x)))) in E1, E2. rewrite !map_map in E1, E2. cbn [fst snd] in E1, E2.
    rewrite map_id in E1, E2. congruence. }
  exists st. split; [exact G|]. split; [exact N|].
  unfold avg_cs_from_timeseries, segment_and_bins. rewrite F. cbn [bind fst snd]. rewrite Nat2Z.id.
  unfold get_flux_iterable. rewrite E1, E2. cbn [bind fst snd]. rewrite !map_map.
  assert (M : forall times, (forall s, In s st -> let i := searchsorted_left times s in let j := searchsorted_left times (s + nq n * dt) in
      (i <= j <= length times)%nat /\ slice times i j = filter (fun t => qle s t && qlt t (s + nq n * dt))%bool times /\
      events_in times s (s + nq n * dt) = (j - i)%nat) -> forall s, In s st ->
      real_item (if (Z.of_nat (searchsorted_left times (s + nq n * dt)) - Z.of_nat (searchsorted_left times s) <? 2)%Z then None
       else Some (histogram numba (map (fun t => t - s) (slice times (searchsorted_left times s) (searchsorted_left times (s + nq n * dt)))) n (0, nq n * dt), None)) =
      counts_segment times (nq n * dt) n s).
  { intros times Ft s Hst. destruct (Ft s Hst) as (Hij & Sl & Ev). unfold counts_segment. rewrite Ev.
    set (i := searchsorted_left times s) in *. set (j := searchsorted_left times (s + nq n * dt)) in *.
    destruct (Z.ltb_spec (Z.of_nat j - Z.of_nat i) 2) as [L|L].
    - rewrite (proj2 (Nat.ltb_lt (j - i) 2)) by lia. reflexivity.
    - rewrite (proj2 (Nat.ltb_ge (j - i) 2)) by lia. cbn [real_item option_map fst snd]. do 2 f_equal. rewrite Sl. now apply bin_counts. }
  rewrite (map_ext_in _ _ st (M times1 F1)), (map_ext_in _ _ st (M times2 F2)).
  destruct (true && silent && common && match pt with PAll => true | _ => false end && negb fullspec && negb auxil && negb subcs)%bool eqn:B; [|reflexivity].
  rewrite quick_main by apply counts_plain. destruct silent, common, pt, fullspec, auxil, subcs; try discriminate. reflexivity.
Qed.

(* ---- binned data ---- *)
Lemma binned_form times g size dt l : 0 < dt -> well_formed g -> increasing times ->
  generate_indices_of_segment_boundaries_binned times g size dt = Ok l ->
  let nbin := Z.to_nat (rint (size / dt)) in
  exists st, (0 < nbin)%nat /\ st <> [] /\ map snd l = map (fun s => (s, s + nbin)%nat) st /\
  (forall s, In s st -> exists a b, In (a, b) g /\
     forall k, (s <= k < s + nbin)%nat -> exists t, nth_error times k = Some t /\ bin_inside t dt ((1 # 1000) * dt) a b) /\
  (forall i j s s', (i < j)%nat -> nth_error st i = Some s -> nth_error st j = Some s' -> (s + nbin <= s')%nat) /\
  (forall a b p, In (a, b) g -> size <= b - a + 3 * (1 # 1000) * dt ->
     (forall k, (p <= k < p + nbin)%nat -> exists t, nth_error times k = Some t /\ bin_inside t dt ((1 # 1000) * dt) a b) ->
     exists s, In s st /\ (s <= p < s + nbin)%nat).
Proof.
  intros Hd Hw Hi E nbin. unfold generate_indices_of_segment_boundaries_binned in E. apply bind_ok in E. destruct E as ([st en] & E1 & E).
  destruct (bin_intervals_main g size times dt (1 # 1000) st en Hd ltac:(lra) ltac:(lra) Hw Hi E1) as (A1 & A2 & A3 & A4 & A5 & A6).
  fold nbin in A1, A3, A4, A5, A6. exists st. split; [exact A1|]. split; [exact A2|]. split; [|split; [exact A4|]; split; [exact A5|exact A6]].
  cbn [fst snd] in E. assert (G : map snd l = combine st en).
  { clear - E. revert l E. generalize (combine st en) as c. induction c as [|[i0 i1] c IH]; intros l E; [injection E as <-; reflexivity|].
    apply bind_ok in E. destruct E as (ta & _ & E). apply bind_ok in E. destruct E as (tb & _ & E). apply bind_ok in E. destruct E as (r & Er & E).
    injection E as <-. cbn [map snd]. f_equal. now apply IH. }
  rewrite G, A3. clear. induction st as [|s st IH]; cbn; [reflexivity|]. now f_equal.
Qed.
Lemma flux_binned numba times g size n dt f errors l : 0 < dt -> well_formed g -> increasing times ->
  get_flux_iterable numba times g (Some size) n dt (Some f) errors = Ok l ->
  let nbin := Z.to_nat (rint (size / dt)) in
  exists st, st <> [] /\
  l = map (fun s => if Nat.ltb nbin 2 then None else Some (firstn nbin (skipn s f), option_map (fun e => firstn nbin (skipn s e)) errors)) st /\
  (forall s, In s st -> exists a b, In (a, b) g /\
     forall k, (s <= k < s + nbin)%nat -> exists t, nth_error times k = Some t /\ bin_inside t dt ((1 # 1000) * dt) a b) /\
  (forall i j s s', (i < j)%nat -> nth_error st i = Some s -> nth_error st j = Some s' -> (s + nbin <= s')%nat) /\
  (forall a b p, In (a, b) g -> size <= b - a + 3 * (1 # 1000) * dt ->
     (forall k, (p <= k < p + nbin)%nat -> exists t, nth_error times k = Some t /\ bin_inside t dt ((1 # 1000) * dt) a b) ->
     exists s, In s st /\ (s <= p < s + nbin)%nat).
Proof.
  intros Hd Hw Hi E nbin. unfold get_flux_iterable in E.
  assert (E' : exists l0, generate_indices_of_segment_boundaries_binned times g size dt = Ok l0 /\
     l = map (fun s : Q * Q * (nat * nat) => let '(start, _, (idx0, idx1)) := s in if (Z.of_nat idx1 - Z.of_nat idx0 <? 2)%Z then None
               else Some (slice f idx0 idx1, option_map (fun e => slice e idx0 idx1) errors)) l0).
  { destruct n; apply bind_ok in E; destruct E as ([sz l0] & E1 & E); apply bind_ok in E1; destruct E1 as (l1 & E1 & E2);
    assert (IO : forall x y : list flux_item, Ok x = Ok y -> x = y) by congruence; apply IO in E; subst l; injection E2 as <- <-; exists l1; split; assumption || reflexivity. }
  destruct E' as (l0 & E1 & ->). destruct (binned_form times g size dt l0 Hd Hw Hi E1) as (st & A1 & A2 & A3 & A4). exists st. split; [exact A2|]. split; [|exact A4].
  fold nbin in A3, A1. clear - A3 A1. revert st A3. induction l0 as [|[[ta tb] [i0 i1]] l0 IH]; intros [|s st] A3; try discriminate; [reflexivity|].
  cbn [map snd] in A3. assert (X : i0 = s /\ i1 = (s + nbin)%nat /\ map snd l0 = map (fun s => (s, s + nbin)%nat) st) by (injection A3; auto).
  destruct X as (-> & -> & A4). cbn [map]. f_equal; [|now apply IH].
  replace (Z.of_nat (s + nbin) - Z.of_nat s)%Z with (Z.of_nat nbin) by lia. unfold slice. replace (s + nbin - s)%nat with nbin by lia.
  destruct (Z.ltb_spec (Z.of_nat nbin) 2), (Nat.ltb_spec nbin 2); try lia; reflexivity.
Qed.

(* ---- average count rate ---- *)
Lemma fold_plus {A} (f : A -> Q) l : forall acc, fold_left (fun acc s => acc + f s) l acc == acc + fold_right (fun s r => f s + r) 0 l.
Proof. induction l as [|s l IH]; intros acc; cbn [fold_left fold_right]; [lra|]. rewrite IH. lra. Qed.
Lemma ctrate_events times g size : 0 < size -> nondecreasing times -> (exists a b, In (a, b) g /\ size < b - a + (1 # 100000)) ->
  exists st r, segment_grid g size (1 # 100000) st /\ get_average_ctrate times g size None = Ok r /\
    r == nq (fold_right (fun s n => events_in times s (s + size) + n)%nat 0%nat st) / (nq (length st) * size).
Proof.
  intros Hs Ht Hg. destruct (unbinned_form times g size Hs Ht Hg) as (st & G & N & E & F). exists st. eexists. split; [exact G|].
  unfold get_average_ctrate. rewrite E. cbn [bind]. split; [reflexivity|]. rewrite map_length. apply Qdiv_comp; [|reflexivity].
  rewrite fold_plus, Qplus_0_l. clear - F. induction st as [|s st IH]; [reflexivity|]. cbn [map fold_right fst snd].
  rewrite IH by (intros u Hu; apply F; now right). destruct (F s (or_introl eq_refl)) as (Hij & _ & Ev). rewrite Ev.
  rewrite Nat2Z.inj_add, inject_Z_plus, Nat2Z.inj_sub by lia. reflexivity.
Qed.
Lemma ctrate_binned times g size f r dt : 0 < dt -> well_formed g -> increasing times -> median (diffs times) = Some dt ->
  get_average_ctrate times g size (Some f) = Ok r ->
  exists l, get_flux_iterable true times g (Some size) None dt (Some f) None = Ok l /\
    ((2 <= rint (size / dt))%Z -> r == fold_right (fun it s => match it with Some fe => qsum (fst fe) | None => 0 end + s) 0 l / (nq (length l) * size)).
Proof.
  intros Hd Hw Hi Em E. unfold get_average_ctrate in E. rewrite Em in E. apply bind_ok in E. destruct E as (l0 & E1 & E).
  unfold get_flux_iterable. rewrite E1. cbn [bind fst snd]. eexists. split; [reflexivity|]. intros Hn.
  destruct (binned_form times g size dt l0 Hd Hw Hi E1) as (st & A1 & A2 & A3 & _).
  assert (IO : forall x y : Q, Ok x = Ok y -> x = y) by congruence. apply IO in E. subst r. rewrite map_length. apply Qdiv_comp; [|reflexivity].
  rewrite fold_plus, Qplus_0_l. clear - A3 Hn. revert st A3. induction l0 as [|[[ta tb] [i0 i1]] l0 IH]; intros [|s st] A3; try discriminate; [reflexivity|].
  cbn [map fold_right fst snd] in *. set (nbin := Z.to_nat (rint (size / dt))) in *.
  assert (X : i0 = s /\ i1 = (s + nbin)%nat /\ map snd l0 = map (fun s => (s, s + nbin)%nat) st) by (injection A3; auto).
  destruct X as (-> & -> & A4). rewrite (IH st A4).
  replace (Z.of_nat (s + nbin) - Z.of_nat s)%Z with (Z.of_nat nbin) by lia.
  destruct (Z.ltb_spec (Z.of_nat nbin) 2); [unfold nbin in *; lia|]. cbn [fst]. reflexivity.
Qed.
