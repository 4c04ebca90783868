(* P_mkcross3.v: cross spectra of whole observations; the event lists after the call; resolutions that differ. *)
From Coq Require Import Reals Qreals.
From Coq Require Import Lqa Lia Sorted.
From Verif Require Import Np Lib S_gti S_seg S_utils S_flux S_fourier M_gti M_seg M_utils M_lc M_base M_exvar Cplx M_fourier M_flux P_seg_cut P_flux P_flux2 P_avg P_avgcs P_avg2 P_flux4 P_gti_cross P_exvar M_norm M_make P_make P_make2 M_vspec M_mkcross P_mkcross.
Open Scope Q_scope.

Lemma all_inside times a b : (forall t, In t times -> a <= t /\ t < b) -> events_in times a b = length times.
Proof.
  intros H. unfold events_in. f_equal. induction times as [|t l IH]; [reflexivity|]. cbn [filter]. destruct (H t (or_introl eq_refl)) as [A B].
  assert (E1 : qle a t = true) by (apply Qle_bool_iff; exact A). assert (E2 : qlt t b = true) by (qb; lra). rewrite E1, E2. cbn [andb]. f_equal. apply IH. intros x Hx. apply H. now right.
Qed.
Lemma cross_whole numba srt ev1 ev2 dt norm fullspec silent pt gti save n a b : or_common srt gti (e_gti ev1) (e_gti ev2) = Ok [(a, b)] ->
  let dt' := suggest_compatible_dt (e_res ev1) dt in
  a < b -> (0 < n)%nat -> snd (fix_segment_size (b - a) dt' (1 # 100)) = Z.of_nat n ->
  (forall t, In t (e_time ev1) -> a <= t /\ t < b) -> (forall t, In t (e_time ev2) -> a <= t /\ t < b) -> norm <> OtherNorm -> pt <> POther ->
  let lc1 := binned_counts (e_time ev1) (b - a) n a in
  let lc2 := binned_counts (e_time ev2) (b - a) n a in
  let nph1 := INR (length (e_time ev1)) in
  let nph2 := INR (length (e_time ev2)) in
  let nph := gmean nph1 nph2 in
  let ks := bins fullspec n in
  let res := crossspectrum_from_events numba srt ev1 ev2 dt None norm true fullspec silent pt gti save in
  ((length (e_time ev1) < 2 \/ length (e_time ev2) < 2)%nat -> res = Err AttributeError) /\
  ((2 <= length (e_time ev1) /\ 2 <= length (e_time ev2))%nat -> exists t kn, res = Ok t /\ kind norm None = Some kn /\
    let f m := factor kn (Q2R dt') n (m / INR n)%R m in
    c_m t = 1%nat /\ c_n t = n /\ c_dt t = Q2R dt' /\ c_nphots1 t = nph1 /\ c_nphots2 t = nph2 /\ c_nphots t = nph /\
    c_freq t = map (bin_freq n (Q2R dt')) ks /\ c_unnorm t = map (cross_at lc1 lc2) ks /\ c_power t = map (fun k => as_type pt (cscal (cross_at lc1 lc2 k) (f nph))) ks /\
    c_auxil t = Some (map (fun k => as_type_r pt (power_at lc1 k * f nph1)%R) ks, map (fun k => as_type_r pt (power_at lc2 k * f nph2)%R) ks, (map (power_at lc1) ks, map (power_at lc2) ks))).
Proof.
  intros Hg0 dt' Hab Hn F2 H1 H2 Hnorm Hpt lc1 lc2 nph1 nph2 nph ks res.
  assert (S0 : 0 < b - a) by lra.
  assert (EV : forall times, (forall t, In t times -> a <= t /\ t < b) -> events_in times a (a + (b - a)) = length times).
  { intros times H. rewrite <- (all_inside times a b H). apply events_ext; lra. }
  assert (FW : forall times, (forall t, In t times -> a <= t /\ t < b) -> exists it, get_flux_iterable numba times [(a, b)] None (Some n) dt' None None = Ok [it] /\ real_item it = counts_segment times (b - a) n a).
  { intros times H. destruct (flux_whole numba times a b [] n dt' None Hab Hn) as (it & E & R).
    - intros t Ht Eq. cbn in Eq. destruct (H t Ht). lra.
    - exists it. split; [exact E|]. rewrite R. unfold counts_segment. rewrite (EV times H). reflexivity. }
  destruct (FW _ H1) as (i1 & E1 & R1). destruct (FW _ H2) as (i2 & E2 & R2).
  assert (SB : segment_and_bins [(a, b)] None dt' None = Ok (None, n)).
  { unfold segment_and_bins, flatten. cbn [flat_map fst snd app]. unfold qmax_list, qmin_list. cbn [fold_left bind].
    assert (W : forall hi lo, hi = b -> lo = a -> Ok (@None Q, Z.to_nat (snd (fix_segment_size (hi - lo) dt' (1 # 100)))) = Ok (None, n)).
    { intros hi lo -> ->. rewrite F2, Nat2Z.id. reflexivity. }
    apply W.
    - unfold qmax. destruct (qle a b) eqn:X; [reflexivity|]; qb; exfalso; lra.
    - unfold qmin. destruct (qle a b) eqn:X; [reflexivity|]; qb; exfalso; lra. }
  assert (E0 : avg_cs_from_timeseries numba (e_time ev1) (e_time ev2) [(a, b)] None dt' norm true fullspec (silent || true) pt None None None None true save =
               avg_cs (map (counts_segment (e_time ev1) (b - a) n) [a]) (map (counts_segment (e_time ev2) (b - a) n) [a]) (Q2R dt') norm true fullspec pt true save).
  { unfold avg_cs_from_timeseries. rewrite SB. cbn [bind fst snd]. rewrite E1, E2. cbn [bind map]. rewrite R1, R2.
    replace (true && (silent || true) && true && match pt with PAll => true | _ => false end && negb fullspec && negb true && negb save)%bool with false
      by (destruct silent, pt, fullspec; reflexivity). reflexivity. }
  unfold res, crossspectrum_from_events. rewrite Hg0. cbn [bind]. fold dt'. cbv zeta. rewrite E0.
  destruct (counts_cross (e_time ev1) (e_time ev2) [a] (b - a) dt' norm fullspec pt save n S0 Hn Hnorm Hpt) as [C1 C2].
  cbn [filter] in C1, C2. rewrite (EV _ H1), (EV _ H2) in C1, C2. split.
  - intros Hl. apply C1. destruct Hl as [Hl|Hl]; [rewrite (proj2 (Nat.leb_gt 2 _) Hl)|rewrite (proj2 (Nat.leb_gt 2 _) Hl), Bool.andb_false_r]; reflexivity.
  - intros [L1 L2]. rewrite (proj2 (Nat.leb_le 2 _) L1), (proj2 (Nat.leb_le 2 _) L2) in C2. cbn [andb] in C2. destruct C2 as (t & kn & Et & K & X); [discriminate|].
    exists t, kn. split; [exact Et|]. split; [exact K|]. cbv zeta in X |- *.
    assert (AV : forall h : Q -> R, avg h [a] = h a) by (intros h; unfold avg; cbn; field).
    assert (CV : forall h : Q -> cx, cavg h [a] = h a) by (intros h; unfold cavg; rewrite !AV; now destruct (h a)).
    rewrite !AV, (EV _ H1), (EV _ H2) in X. destruct X as (X1 & X2 & X3 & X4 & X5 & X6 & X7 & X8 & X9 & X10 & _).
    repeat (split; [assumption|]). split; [rewrite X8; apply map_ext; intros k; now rewrite CV|]. split; [rewrite X9; apply map_ext; intros k; now rewrite CV|].
    rewrite X10. f_equal. f_equal; f_equal; apply map_ext; intros k; now rewrite AV.
Qed.

(* ---------- the inputs after the call ---------- *)
Lemma inputs_kept numba srt av ev1 ev2 norm gti dt seg common fullspec silent pt save r :
  new_cross_events numba srt av ev1 ev2 norm gti dt (Some seg) common fullspec silent pt save = Ok r -> snd r = (ev1, ev2).
Proof.
  intros E. unfold new_cross_events in E. apply bind_ok in E. destruct E as (_ & _ & E). apply bind_ok in E. destruct E as (_ & _ & E).
  destruct dt as [dt|]; [|discriminate]. apply bind_ok in E. destruct E as (t & _ & E). assert (r = (t, (ev1, ev2))) by congruence. now subst r.
Qed.
Lemma inputs_common numba srt av ev1 ev2 norm gti dt common fullspec silent pt save t a b :
  new_cross_events numba srt av ev1 ev2 norm gti dt None common fullspec silent pt save = Ok (t, (a, b)) ->
  av = false /\ exists g, cross_two_gtis srt (e_gti ev1) (e_gti ev2) = Ok g /\ e_gti a = g /\ e_gti b = g /\
  e_time a = e_time ev1 /\ e_time b = e_time ev2 /\ e_res a = e_res ev1 /\ e_res b = e_res ev2.
Proof.
  intros E. unfold new_cross_events in E. apply bind_ok in E. destruct E as (_ & _ & E). apply bind_ok in E. destruct E as (u & I & E).
  destruct dt as [dt|]; [|discriminate]. apply bind_ok in E. destruct E as (g & G & E). apply bind_ok in E. destruct E as (x & _ & E). apply bind_ok in E. destruct E as (y & _ & E).
  apply bind_ok in E. destruct E as (t' & _ & E).
  assert (Ea : a = mkEvl (e_time ev1) g (e_res ev1)) by congruence. assert (Eb : b = mkEvl (e_time ev2) g (e_res ev2)) by congruence. subst a b. split.
  - destruct av; [|reflexivity]. exfalso. unfold initial_checks in I. destruct norm; try discriminate; destruct gti as [[|? [|? ?]]|]; cbn in I; try discriminate; destruct (qle dt _); discriminate.
  - exists g. repeat split; assumption || reflexivity.
Qed.
Definition few1 : evlist := mkEvl [3; 4] [(0, 10)] 0.
Definition few2 : evlist := mkEvl [3; 5] [(2, 8)] 0.
Lemma few_cross numba gti : (gti = None \/ gti = Some [(2, 8)]) -> exists t, new_cross_events numba (isort_by t_end) false few1 few2 Frac gti (Some 1) None true false true PAll false =
  Ok (t, (mkEvl [3; 4] [(2, 8)] 0, mkEvl [3; 5] [(2, 8)] 0)) /\ c_m t = 1%nat /\ c_n t = 6%nat.
Proof.
  intros Hg.
  assert (W : or_common (isort_by t_end) gti (e_gti (mkEvl [3; 4] [(2, 8)] 0)) (e_gti (mkEvl [3; 5] [(2, 8)] 0)) = Ok [(2, 8)]) by (destruct Hg as [-> | ->]; reflexivity).
  destruct (cross_whole numba (isort_by t_end) (mkEvl [3; 4] [(2, 8)] 0) (mkEvl [3; 5] [(2, 8)] 0) 1 Frac false true PAll gti false 6 2 8 W) as [_ H]; try reflexivity; try discriminate; try lia.
  - intros t [<-|[<-|[]]]; split; (discriminate || reflexivity).
  - intros t [<-|[<-|[]]]; split; (discriminate || reflexivity).
  - destruct H as (t & kn & E & _ & M & N & _); [cbn; lia|]. exists t. split; [|split; assumption].
    unfold new_cross_events. replace (initial_checks false (Events few1) Frac gti (Some 1) None) with (@Ok unit tt) by (destruct Hg as [-> | ->]; reflexivity).
    cbn [bind]. replace (cross_two_gtis (isort_by t_end) (e_gti few1) (e_gti few2)) with (Ok [(2, 8)]) by reflexivity. cbn [bind].
    replace (restricted numba [(2, 8)] few1) with (Ok (mkEvl [3; 4] [(2, 8)] 0)) by (destruct numba; vm_compute; reflexivity).
    replace (restricted numba [(2, 8)] few2) with (Ok (mkEvl [3; 5] [(2, 8)] 0)) by (destruct numba; vm_compute; reflexivity).
    cbn [bind]. rewrite E. reflexivity.
Qed.
(* ---------- different resolutions ---------- *)
Definition coarse2 : evlist := mkEvl [0; 2; 4] [(0, 12)] 2.
Definition coarse3 : evlist := mkEvl [0; 3; 6] [(0, 12)] 3.
Lemma coarse_cross srt ev1 ev2 dt' n norm : suggest_compatible_dt (e_res ev1) 1 = dt' -> 0 < dt' -> (0 < n)%nat -> snd (fix_segment_size 12 dt' (1 # 100)) = Z.of_nat n -> nq n * dt' == 12 ->
  nondecreasing (e_time ev1) -> nondecreasing (e_time ev2) -> (2 <= events_in (e_time ev1) 0 12)%nat -> (2 <= events_in (e_time ev2) 0 12)%nat -> norm <> OtherNorm ->
  exists t, crossspectrum_from_events true srt ev1 ev2 1 (Some 12) norm true false true PAll (Some [(0, 12)]) false = Ok t /\ c_dt t = Q2R dt' /\ c_n t = n.
Proof.
  intros Ed Hd Hn F Hsz T1 T2 L1 L2 Hnorm.
  pose proof (cross_events true srt ev1 ev2 1 12 norm false true PAll (Some [(0, 12)]) false n [(0, 12)] eq_refl) as H. cbv zeta in H. rewrite Ed in H.
  destruct H as (st & G & Nst & _ & H); try assumption; try discriminate.
  { exists 0, 12. split; [left; reflexivity|]. lra. }
  destruct H as (t & kn & E & _ & _ & N & D & _).
  - assert (GG : exists ls, Forall2 (grid_of (nq n * dt') (1 # 100000)) [(0, 12)] ls /\ st = concat ls) by exact G.
    assert (F0 : Forall2 Qeq st [0]).
    { apply (grid_known [(0, 12)] 12 [0] [12] ltac:(reflexivity) ltac:(vm_compute; reflexivity)). eapply grid_size; [exact Hsz|exact G] || (apply (grid_size _ _ _ _ _ Hsz); exact G). }
    inversion F0 as [|s x l l' Es Fl Q1 Q2]; subst. inversion Fl; subst. cbn [filter].
    rewrite (events_ext (e_time ev1) s (s + nq n * suggest_compatible_dt (e_res ev1) 1) 0 12), (events_ext (e_time ev2) s (s + nq n * suggest_compatible_dt (e_res ev1) 1) 0 12) by lra.
    rewrite (proj2 (Nat.leb_le 2 _) L1), (proj2 (Nat.leb_le 2 _) L2). discriminate.
  - exists t. auto.
Qed.
Lemma coarse_sorted : nondecreasing (e_time coarse2) /\ nondecreasing (e_time coarse3).
Proof.
  split; [cut (StronglySorted Qle (e_time coarse2))|cut (StronglySorted Qle (e_time coarse3))]; try exact (proj1 (ss_nth Qle _)); repeat constructor; discriminate.
Qed.
Lemma resolution_refuted srt norm : norm <> OtherNorm -> exists t t',
  crossspectrum_from_events true srt coarse2 coarse3 1 (Some 12) norm true false true PAll (Some [(0, 12)]) false = Ok t /\
  crossspectrum_from_events true srt coarse3 coarse2 1 (Some 12) norm true false true PAll (Some [(0, 12)]) false = Ok t' /\ c_dt t = 2%R /\ c_dt t' = 3%R /\ c_n t = 6%nat /\ c_n t' = 4%nat.
Proof.
  intros Hn. destruct coarse_sorted as [S2 S3].
  destruct (coarse_cross srt coarse2 coarse3 2 6 norm) as (t & E & D & N); try assumption; try reflexivity; try lia; try (vm_compute; lia).
  destruct (coarse_cross srt coarse3 coarse2 3 4 norm) as (t' & E' & D' & N'); try assumption; try reflexivity; try lia; try (vm_compute; lia).
  exists t, t'. rewrite D, D'. repeat (split; [assumption|]). split; [unfold Q2R; cbn; field|]. split; [unfold Q2R; cbn; field|]. now split.
Qed.
Lemma resolution_exists_refuted : exists ev1 ev2 dt seg g t t', good g /\ nondecreasing (e_time ev1) /\ nondecreasing (e_time ev2) /\
  (forall srt, crossspectrum_from_events true srt ev1 ev2 dt (Some seg) Leahy true false true PAll (Some g) false = Ok t /\
               crossspectrum_from_events true srt ev2 ev1 dt (Some seg) Leahy true false true PAll (Some g) false = Ok t') /\ c_dt t <> c_dt t' /\ c_n t <> c_n t'.
Proof.
  destruct (resolution_refuted (fun l => l) Leahy ltac:(discriminate)) as (t & t' & E & E' & D & D' & N & N').
  exists coarse2, coarse3, 1, 12, [(0, 12)], t, t'. split; [apply good_one; reflexivity|]. split; [apply coarse_sorted|]. split; [apply coarse_sorted|].
  split; [intros srt; split; [exact E|exact E']|]. split; [rewrite D, D'; intros C; apply eq_IZR in C; discriminate|rewrite N, N'; discriminate].
Qed.
Lemma changed_refuted : exists srt ev1 ev2 dt t a b, sorts_by t_end srt /\ good (e_gti ev1) /\ good (e_gti ev2) /\
  new_cross_events true srt false ev1 ev2 Frac None (Some dt) None true false true PAll false = Ok (t, (a, b)) /\ e_gti a <> e_gti ev1.
Proof.
  destruct (few_cross true None (or_introl eq_refl)) as (t & E & _). exists (isort_by t_end), few1, few2, 1, t. do 2 eexists.
  split; [apply isort_sorts|]. split; [apply good_one; reflexivity|]. split; [apply good_one; reflexivity|]. split; [exact E|]. cbn. discriminate.
Qed.
(* ---------- light curves with Poisson errors ---------- *)
Lemma curve_cross numba srt lc1 lc2 rq norm fullspec silent pt gti save n g t : or_common srt gti (l_gti lc1) (l_gti lc2) = Ok g ->
  0 < l_dt lc1 -> well_formed g -> S_seg.increasing (l_time lc1) -> l_time lc2 = l_time lc1 -> length (l_counts lc1) = length (l_time lc1) -> length (l_counts lc2) = length (l_time lc1) ->
  l_err lc1 = None -> (2 <= n)%nat -> rq == nq n * l_dt lc1 ->
  crossspectrum_from_lightcurve numba srt lc1 lc2 (Some rq) norm true fullspec silent pt gti save = Ok t ->
  exists st kn, bin_segments (l_time lc1) g (nq n * l_dt lc1) (l_dt lc1) n st /\ kind norm None = Some kn /\
  let us := usable2 (map (lc_segment (l_counts lc1) None n) st) (map (lc_segment (l_counts lc2) None n) st) in
  let nph1 := avg (fun p => photons (fst p)) us in
  let nph2 := avg (fun p => photons (snd p)) us in
  let nph := gmean nph1 nph2 in
  let f m := factor kn (Q2R (l_dt lc1)) n (m / INR n)%R m in
  let ks := bins fullspec n in
  let z k := cavg (fun p => cross_at (s_flux (fst p)) (s_flux (snd p)) k) us in
  let u1 k := avg (fun p => power_at (s_flux (fst p)) k) us in
  let u2 k := avg (fun p => power_at (s_flux (snd p)) k) us in
  us <> [] /\ c_m t = length us /\ c_n t = n /\ c_dt t = Q2R (l_dt lc1) /\ c_nphots1 t = nph1 /\ c_nphots2 t = nph2 /\ c_nphots t = nph /\
  c_freq t = map (bin_freq n (Q2R (l_dt lc1))) ks /\ c_unnorm t = map z ks /\ c_power t = map (fun k => as_type pt (cscal (z k) (f nph))) ks /\
  c_auxil t = Some (map (fun k => as_type_r pt (u1 k * f nph1)%R) ks, map (fun k => as_type_r pt (u2 k * f nph2)%R) ks, (map u1 ks, map u2 ks)).
Proof.
  intros Hg Hd W Hi Et L1 L2 Ee Hn Er E. unfold crossspectrum_from_lightcurve in E. rewrite Hg in E. cbn [bind] in E. apply bind_ok in E. destruct E as (o & E & Eo).
  rewrite Et, Ee in E. destruct o as [t'|]; [|discriminate]. cbn [cs_of] in Eo. assert (t' = t) by congruence. subst t'.
  destruct (cs_lc _ _ _ _ _ _ _ _ _ _ _ _ _ _ _ _ n _ Hd W Hi Hn Er E) as (st & Nst & B & A).
  assert (LEN : forall s, In s st -> (s + n <= length (l_time lc1))%nat).
  { intros s Hs. destruct (proj1 B s Hs) as (a & b & _ & H). destruct (H (s + n - 1)%nat ltac:(lia)) as (x & Hx & _).
    assert (Y : (s + n - 1 < length (l_time lc1))%nat) by (apply nth_error_Some; congruence). lia. }
  assert (PL : forall c, plain (map (lc_segment c None n) st)).
  { intros c u Hu. apply in_map_iff in Hu. destruct Hu as (s & Es & _). unfold lc_segment in Es. cbn [option_map] in Es.
    assert (IO : forall x y : seg, Some x = Some y -> x = y) by congruence. apply IO in Es. now subst u. }
  set (us := usable2 (map (lc_segment (l_counts lc1) None n) st) (map (lc_segment (l_counts lc2) None n) st)) in *.
  assert (UL : forall p, In p us -> length (s_flux (fst p)) = n /\ length (s_flux (snd p)) = n).
  { intros p Hp. unfold us, usable2 in Hp. apply in_flat_map in Hp. destruct Hp as ([[a|] [b|]] & Hc & Hp); try destruct Hp.
    destruct (S_fourier.nonzero a && S_fourier.nonzero b)%bool; [|destruct Hp]. destruct Hp as [<-|[]]. cbn [fst snd].
    assert (Q1 := in_combine_l _ _ _ _ Hc). assert (Q2 := in_combine_r _ _ _ _ Hc). apply in_map_iff in Q1. apply in_map_iff in Q2.
    destruct Q1 as (s & Es & Hs). destruct Q2 as (s' & Es' & Hs'). unfold lc_segment in Es, Es'.
    assert (IO : forall x y : seg, Some x = Some y -> x = y) by congruence. apply IO in Es. apply IO in Es'. subst a b. cbn [s_flux].
    rewrite !map_length, !firstn_length, !skipn_length. pose proof (LEN s Hs). pose proof (LEN s' Hs'). lia. }
  rewrite (avg_cs_common _ _ _ norm fullspec pt true save n ltac:(lia) (plain_nonzero _ (PL _)) (plain_nonzero _ (PL _))) in A by exact UL. fold us in A.
  assert (N1 : mean_present (map pvar1 us) = None).
  { apply none_present. intros p Hp. destruct (plain_pair _ _ p (PL _) (PL _) Hp) as [Q1 Q2]. unfold pvar1, err2_pair, err2. rewrite Q1. reflexivity. }
  assert (N2 : mean_present (map pvar2 us) = None).
  { apply none_present. intros p Hp. destruct (plain_pair _ _ p (PL _) (PL _) Hp) as [Q1 Q2]. unfold pvar2, err2_pair, err2. rewrite Q1, Q2. reflexivity. }
  rewrite N1, N2 in A. cbn [gmean_opt] in A. assert (Us : us = usable2 (map (lc_segment (l_counts lc1) None n) st) (map (lc_segment (l_counts lc2) None n) st)) by reflexivity. clearbody us.
  assert (NE : us <> []) by (intros U; rewrite U in A; discriminate).
  assert (Em : forall {T} (x y : T), match us with [] => x | _ => y end = y) by (intros; destruct us; [congruence|reflexivity]). rewrite Em in A.
  destruct (refused norm None || bad_type pt)%bool eqn:RF; [discriminate|]. apply Bool.orb_false_iff in RF. destruct RF as [RF _]. unfold refused in RF.
  destruct (kind norm None) as [kn|] eqn:K; [|discriminate]. exists st, kn. split; [exact B|]. split; [reflexivity|]. cbv zeta. rewrite <- Us.
  assert (IO : forall x y : cs_table, Ok (Some x) = Ok (Some y) -> x = y) by congruence. apply IO in A. subst t. unfold fac. rewrite K.
  cbn [c_m c_n c_dt c_nphots1 c_nphots2 c_nphots c_freq c_unnorm c_power c_auxil c_subcs]. split; [exact NE|]. repeat split.
Qed.
