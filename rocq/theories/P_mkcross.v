(* P_mkcross.v: cross spectra of two event lists: value, exchange of the channels. *)
From Coq Require Import Reals Qreals.
From Coq Require Import Lqa Lia.
From Verif Require Import Np Lib S_gti S_seg S_utils S_flux S_fourier M_gti M_seg M_utils M_lc M_base M_exvar Cplx M_fourier M_flux P_seg_cut P_flux P_flux2 P_avg P_avgcs P_avg2 P_flux4 P_gti_cross P_gti_final P_lag P_exvar M_norm M_make P_make M_vspec M_mkcross.
Open Scope Q_scope.

(* segments with at least two events of both lists *)
Lemma usable2_counts t1 t2 size n st : 0 < size -> (0 < n)%nat ->
  usable2 (map (counts_segment t1 size n) st) (map (counts_segment t2 size n) st) =
  map (fun s => ({| s_flux := binned_counts t1 size n s; s_err := None |}, {| s_flux := binned_counts t2 size n s; s_err := None |}))
    (filter (fun s => Nat.leb 2 (events_in t1 s (s + size)) && Nat.leb 2 (events_in t2 s (s + size)))%bool st).
Proof.
  intros Hs Hn. induction st as [|s st IH]; [reflexivity|]. cbn [map combine usable2 flat_map]. unfold usable2 in IH |- *. cbn [combine flat_map map].
  rewrite IH. clear IH. cbn [filter]. unfold counts_segment at 1 2.
  destruct (Nat.ltb_spec (events_in t1 s (s + size)) 2) as [L|L].
  - rewrite (proj2 (Nat.leb_gt 2 _) L). reflexivity.
  - rewrite (proj2 (Nat.leb_le 2 _) L). destruct (Nat.ltb_spec (events_in t2 s (s + size)) 2) as [L2|L2].
    + rewrite (proj2 (Nat.leb_gt 2 _) L2). reflexivity.
    + rewrite (proj2 (Nat.leb_le 2 _) L2). cbn [andb map]. rewrite !busy_nonzero by assumption. reflexivity.
Qed.
Lemma map_pair_err {A} (f : A -> seg * seg) (l : list A) (h : seg * seg -> option R) : (forall a, h (f a) = None) -> mean_present (map h (map f l)) = None.
Proof.
  intros H. unfold mean_present. assert (E : present (map h (map f l)) = []); [|now rewrite E].
  induction l as [|a l IH]; [reflexivity|]. cbn [map present flat_map]. rewrite H. exact IH.
Qed.
Lemma cavg_map {A B} (f : A -> B) (h : B -> cx) l : cavg h (map f l) = cavg (fun a => h (f a)) l.
Proof.
  unfold cavg. now rewrite !avg_map.
Qed.
Lemma counts_cross t1 t2 st size dt' norm fullspec pt save n : 0 < size -> (0 < n)%nat -> norm <> OtherNorm -> pt <> POther ->
    let us := filter (fun s => Nat.leb 2 (events_in t1 s (s + size)) && Nat.leb 2 (events_in t2 s (s + size)))%bool st in
    let lc1 s := binned_counts t1 size n s in
    let lc2 s := binned_counts t2 size n s in
    let nph1 := avg (fun s => INR (events_in t1 s (s + size))) us in
    let nph2 := avg (fun s => INR (events_in t2 s (s + size))) us in
    let nph := gmean nph1 nph2 in
    let ks := bins fullspec n in
    let res := let! t := avg_cs (map (counts_segment t1 size n) st) (map (counts_segment t2 size n) st) (Q2R dt') norm true fullspec pt true save in cs_of t in
    (us = [] -> res = Err AttributeError) /\
    (us <> [] -> exists t kn, res = Ok t /\ kind norm None = Some kn /\
      let f m := factor kn (Q2R dt') n (m / INR n)%R m in
      let z k := cavg (fun s => cross_at (lc1 s) (lc2 s) k) us in
      let u1 k := avg (fun s => power_at (lc1 s) k) us in
      let u2 k := avg (fun s => power_at (lc2 s) k) us in
      c_m t = length us /\ c_n t = n /\ c_dt t = Q2R dt' /\ c_nphots1 t = nph1 /\ c_nphots2 t = nph2 /\ c_nphots t = nph /\
      c_freq t = map (bin_freq n (Q2R dt')) ks /\ c_unnorm t = map z ks /\ c_power t = map (fun k => as_type pt (cscal (z k) (f nph))) ks /\
      c_auxil t = Some (map (fun k => as_type_r pt (u1 k * f nph1)%R) ks, map (fun k => as_type_r pt (u2 k * f nph2)%R) ks, (map u1 ks, map u2 ks)) /\
      c_subcs t = (if save then Some (map (fun s => map (fun k => as_type pt (cscal (cross_at (lc1 s) (lc2 s) k) (f nph))) ks) us,
                                      map (fun s => map (cross_at (lc1 s) (lc2 s)) ks) us) else None)).
Proof.
  intros Hs Hn Hnorm Hpt us lc1 lc2 nph1 nph2 nph ks res. unfold res.
  assert (C : forall t, tuples_nonzero (map (counts_segment t size n) st)).
  { intros t u Hu He. apply counts_plain in Hu. contradiction. }
  pose proof (usable2_counts t1 t2 size n st Hs Hn) as U. fold us in U.
  rewrite (avg_cs_common _ _ _ norm fullspec pt true save n Hn (C _) (C _)); [|rewrite U; intros u Hu; apply in_map_iff in Hu; destruct Hu as (s & <- & _); split; apply binned_len].
  rewrite U. rewrite !map_pair_err by reflexivity. rewrite map_length, !avg_map. cbn [fst snd gmean_opt].
  assert (A1 : avg (fun s => photons {| s_flux := binned_counts t1 size n s; s_err := None |}) us = nph1).
  { apply avg_ext. intros s _. unfold photons. cbn [s_flux]. now apply binned_sum. }
  assert (A2 : avg (fun s => photons {| s_flux := binned_counts t2 size n s; s_err := None |}) us = nph2).
  { apply avg_ext. intros s _. unfold photons. cbn [s_flux]. now apply binned_sum. }
  rewrite A1, A2. clear A1 A2 U C. split; intros Hu.
  - rewrite Hu. reflexivity.
  - destruct (kind norm None) as [kn|] eqn:K; [|destruct norm; try discriminate; contradiction].
    assert (Em : forall {B} (x y : B), match map (fun s => ({| s_flux := binned_counts t1 size n s; s_err := None |}, {| s_flux := binned_counts t2 size n s; s_err := None |})) us with [] => x | _ => y end = y)
      by (intros; destruct us; [congruence|reflexivity]).
    rewrite Em. unfold refused. rewrite K. replace (bad_type pt) with false by (destruct pt; try reflexivity; contradiction). cbn [orb bind cs_of].
    eexists. exists kn. split; [reflexivity|]. split; [reflexivity|]. unfold fac. rewrite K. cbv zeta.
    cbn [c_m c_n c_dt c_nphots1 c_nphots2 c_nphots c_freq c_unnorm c_power c_auxil c_subcs]. do 7 (split; [reflexivity|]).
    split; [apply map_ext; intros k; now rewrite cavg_map|]. split; [apply map_ext; intros k; now rewrite cavg_map|]. split.
    + f_equal. f_equal; [f_equal; apply map_ext; intros k; now rewrite avg_map|f_equal; apply map_ext; intros k; now rewrite avg_map].
    + destruct save; [|reflexivity]. rewrite !map_map. reflexivity.
Qed.

(* ---------- exchange of the channels ---------- *)
Lemma cross_events numba srt ev1 ev2 dt rq norm fullspec silent pt gti save n g : or_common srt gti (e_gti ev1) (e_gti ev2) = Ok g ->
  let dt' := suggest_compatible_dt (e_res ev1) dt in
  0 < dt' -> (0 < n)%nat -> snd (fix_segment_size rq dt' (1 # 100)) = Z.of_nat n -> nondecreasing (e_time ev1) -> nondecreasing (e_time ev2) ->
  (exists a b, In (a, b) g /\ nq n * dt' < b - a + (1 # 100000)) -> norm <> OtherNorm -> pt <> POther ->
  let size := nq n * dt' in
  exists st, segment_grid g size (1 # 100000) st /\ st <> [] /\
    let us := filter (fun s => Nat.leb 2 (events_in (e_time ev1) s (s + size)) && Nat.leb 2 (events_in (e_time ev2) s (s + size)))%bool st in
    let lc1 s := binned_counts (e_time ev1) size n s in
    let lc2 s := binned_counts (e_time ev2) size n s in
    let nph1 := avg (fun s => INR (events_in (e_time ev1) s (s + size))) us in
    let nph2 := avg (fun s => INR (events_in (e_time ev2) s (s + size))) us in
    let nph := gmean nph1 nph2 in
    let ks := bins fullspec n in
    let res := crossspectrum_from_events numba srt ev1 ev2 dt (Some rq) norm true fullspec silent pt gti save in
    (us = [] -> res = Err AttributeError) /\
    (us <> [] -> exists t kn, res = Ok t /\ kind norm None = Some kn /\
      let f m := factor kn (Q2R dt') n (m / INR n)%R m in
      let z k := cavg (fun s => cross_at (lc1 s) (lc2 s) k) us in
      let u1 k := avg (fun s => power_at (lc1 s) k) us in
      let u2 k := avg (fun s => power_at (lc2 s) k) us in
      c_m t = length us /\ c_n t = n /\ c_dt t = Q2R dt' /\ c_nphots1 t = nph1 /\ c_nphots2 t = nph2 /\ c_nphots t = nph /\
      c_freq t = map (bin_freq n (Q2R dt')) ks /\ c_unnorm t = map z ks /\ c_power t = map (fun k => as_type pt (cscal (z k) (f nph))) ks /\
      c_auxil t = Some (map (fun k => as_type_r pt (u1 k * f nph1)%R) ks, map (fun k => as_type_r pt (u2 k * f nph2)%R) ks, (map u1 ks, map u2 ks)) /\
      c_subcs t = (if save then Some (map (fun s => map (fun k => as_type pt (cscal (cross_at (lc1 s) (lc2 s) k) (f nph))) ks) us,
                                      map (fun s => map (cross_at (lc1 s) (lc2 s)) ks) us) else None)).
Proof.
  intros Hg0 dt' Hd Hn F2 Ht1 Ht2 Hg Hnorm Hpt size. assert (F1 : fst (fix_segment_size rq dt' (1 # 100)) = nq n * dt') by (rewrite <- F2; reflexivity).
  pose proof (size_pos n dt' Hn Hd) as Hs. fold size in Hs.
  destruct (cs_events numba (e_time ev1) (e_time ev2) g size dt' norm true fullspec (silent || false) pt true save n Hd Hn (Qeq_refl _) Ht1 Ht2 Hg) as (st & G & N & E). fold size in G, E.
  exists st. split; [exact G|]. split; [exact N|]. intros us lc1 lc2 nph1 nph2 nph ks res.
  assert (E0 : avg_cs_from_timeseries numba (e_time ev1) (e_time ev2) g (Some rq) dt' norm true fullspec (silent || false) pt None None None None true save =
               avg_cs (map (counts_segment (e_time ev1) size n) st) (map (counts_segment (e_time ev2) size n) st) (Q2R dt') norm true fullspec pt true save).
  { rewrite <- E. unfold avg_cs_from_timeseries, segment_and_bins. unfold size. rewrite (fix_exact (nq n * dt') dt' n Hd (Qeq_refl _)), F1, F2. reflexivity. }
  unfold res, crossspectrum_from_events. rewrite Hg0. cbn [bind]. fold dt'. cbv zeta. rewrite E0.
  exact (counts_cross (e_time ev1) (e_time ev2) st size dt' norm fullspec pt save n Hs Hn Hnorm Hpt).
Qed.
Lemma cross_swap x y k : cross_at y x k = cconj (cross_at x y k).
Proof.
  unfold cross_at, cconj. cbn [re im fst snd]. unfold re, im. cbn [fst snd]. f_equal; Lra.lra.
Qed.
Lemma avg_neg {A} (f g : A -> R) l : (forall a, In a l -> f a = (- g a)%R) -> avg f l = (- avg g l)%R.
Proof.
  intros H. unfold avg. assert (E : rlsum (map f l) = (- rlsum (map g l))%R); [|rewrite E; unfold Rdiv; ring].
  induction l as [|a l IH]; [cbn; ring|]. cbn [map]. change (rlsum (?x :: ?y)) with (x + rlsum y)%R. rewrite IH by (intros b Hb; apply H; right; exact Hb).
  rewrite (H a (or_introl eq_refl)). ring.
Qed.
Definition flip {A B} (p : A * B) : B * A := (snd p, fst p).
Lemma usable2_flip l1 l2 : usable2 l2 l1 = map flip (usable2 l1 l2).
Proof.
  unfold usable2. revert l2. induction l1 as [|[a|] l1 IH]; intros [|[b|] l2]; cbn [combine flat_map map app]; try reflexivity; try apply IH.
  rewrite map_app, <- IH. f_equal. rewrite Bool.andb_comm. destruct (S_fourier.nonzero a && S_fourier.nonzero b)%bool; reflexivity.
Qed.
Lemma cavg_conj us k : cavg (fun p => cpower p k) (map flip us) = cconj (cavg (fun p => cpower p k) us).
Proof.
  rewrite cavg_map. unfold cavg, cconj. cbn [re im fst snd]. unfold re, im. cbn [fst snd]. f_equal.
  - apply avg_ext. intros p _. unfold cpower, flip. cbn [fst snd]. rewrite cross_swap. reflexivity.
  - apply avg_neg. intros p _. unfold cpower, flip. cbn [fst snd]. rewrite cross_swap. reflexivity.
Qed.
Lemma gmean_comm a b : gmean a b = gmean b a.
Proof.
  unfold gmean. f_equal. ring.
Qed.
Lemma conj_scale z r : cscal (cconj z) r = cconj (cscal z r).
Proof.
  unfold cscal, cconj. cbn [re im fst snd]. unfold re, im. cbn [fst snd]. f_equal. ring.
Qed.
Lemma plain_pair l1 l2 p : plain l1 -> plain l2 -> In p (usable2 l1 l2) -> s_err (fst p) = None /\ s_err (snd p) = None.
Proof.
  intros P1 P2 H. unfold usable2 in H. apply in_flat_map in H. destruct H as ([[a|] [b|]] & Hc & Hp); try destruct Hp.
  destruct (S_fourier.nonzero a && S_fourier.nonzero b)%bool; [|destruct Hp]. destruct Hp as [<-|[]]. cbn [fst snd]. split; [apply P1; eapply in_combine_l; exact Hc|apply P2; eapply in_combine_r; exact Hc].
Qed.
Lemma plain_nonzero l : plain l -> tuples_nonzero l.
Proof.
  intros P s H E. elim E. apply P. exact H.
Qed.
Lemma none_present {A} (h : A -> option R) l : (forall a, In a l -> h a = None) -> mean_present (map h l) = None.
Proof.
  intros H. unfold mean_present. assert (E : present (map h l) = []); [|now rewrite E].
  induction l as [|a l IH]; [reflexivity|]. cbn [map present flat_map]. rewrite (H a (or_introl eq_refl)). apply IH. intros b Hb. apply H. right. exact Hb.
Qed.
Lemma avg_cs_swap l1 l2 dt norm fullspec save n t : (0 < n)%nat -> plain l1 -> plain l2 ->
  (forall p, In p (usable2 l1 l2) -> length (s_flux (fst p)) = n /\ length (s_flux (snd p)) = n) ->
  avg_cs l1 l2 dt norm true fullspec PAll true save = Ok (Some t) ->
  exists t', avg_cs l2 l1 dt norm true fullspec PAll true save = Ok (Some t') /\ c_freq t' = c_freq t /\ c_m t' = c_m t /\ c_n t' = c_n t /\ c_nphots t' = c_nphots t /\
  c_nphots1 t' = c_nphots2 t /\ c_nphots2 t' = c_nphots1 t /\ c_unnorm t' = map cconj (c_unnorm t) /\ c_power t' = map cconj (c_power t) /\
  exists p1 p2 u1 u2, c_auxil t = Some (p1, p2, (u1, u2)) /\ c_auxil t' = Some (p2, p1, (u2, u1)).
Proof.
  intros Hn P1 P2 HL E.
  assert (V : forall (h : seg * seg -> option R) us, (forall p, In p us -> err2_pair p = None) -> (forall p, err2_pair p = None -> h p = None) -> mean_present (map h us) = None).
  { intros h us H1 H2. apply none_present. intros p Hp. apply H2, H1, Hp. }
  assert (N1 : forall p, In p (usable2 l1 l2) -> err2_pair p = None).
  { intros p Hp. destruct (plain_pair _ _ _ P1 P2 Hp) as (A & B). unfold err2_pair, err2. rewrite A. reflexivity. }
  assert (N2 : forall p, In p (usable2 l2 l1) -> err2_pair p = None).
  { intros p Hp. destruct (plain_pair _ _ _ P2 P1 Hp) as (A & B). unfold err2_pair, err2. rewrite A. reflexivity. }
  rewrite (avg_cs_common _ _ _ norm fullspec PAll true save n Hn (plain_nonzero _ P1) (plain_nonzero _ P2) HL) in E.
  rewrite (avg_cs_common _ _ _ norm fullspec PAll true save n Hn (plain_nonzero _ P2) (plain_nonzero _ P1)).
  2:{ rewrite usable2_flip. intros p Hp. apply in_map_iff in Hp. destruct Hp as (q & <- & Hq). unfold flip. cbn [fst snd]. destruct (HL q Hq). split; assumption. }
  rewrite (V pvar1 _ N1), (V pvar2 _ N1) in E by (intros p Hp; unfold pvar1, pvar2; rewrite Hp; reflexivity).
  rewrite (V pvar1 _ N2), (V pvar2 _ N2) by (intros p Hp; unfold pvar1, pvar2; rewrite Hp; reflexivity).
  rewrite usable2_flip. set (us := usable2 l1 l2) in *. rewrite map_length, !avg_map.
  change (fun a : seg * seg => photons (fst (flip a))) with (fun a : seg * seg => photons (snd a)). change (fun a : seg * seg => photons (snd (flip a))) with (fun a : seg * seg => photons (fst a)).
  rewrite (gmean_comm (avg (fun a : seg * seg => photons (snd a)) us)). cbn [gmean_opt bad_type] in *. rewrite Bool.orb_false_r in *. unfold refused in *.
  destruct us as [|u0 us0] eqn:Eu; [discriminate|]. cbn [map]. rewrite <- Eu in *. change (flip u0 :: map flip us0) with (map flip (u0 :: us0)). rewrite <- Eu.
  destruct (kind norm None) as [kn|]; [|discriminate]. eexists. split; [reflexivity|].
  match type of E with Ok (Some ?x) = _ => assert (Et : t = x) by congruence end. rewrite Et. clear Et E.
  cbn [c_freq c_m c_n c_nphots c_nphots1 c_nphots2 c_unnorm c_power c_auxil as_type as_type_r]. do 6 (split; [reflexivity|]).
  split; [rewrite map_map; apply map_ext; intros k; apply cavg_conj|]. split; [rewrite map_map; apply map_ext; intros k; rewrite cavg_conj; apply conj_scale|].
  eexists _, _, _, _. split; [reflexivity|]. f_equal. f_equal; [f_equal|f_equal]; apply map_ext; intros k; rewrite avg_map; reflexivity.
Qed.
Lemma segment_ext t size n s s' : s == s' -> counts_segment t size n s = counts_segment t size n s'.
Proof.
  intros H. unfold counts_segment. rewrite (events_ext t s (s + size) s' (s' + size)) by lra.
  destruct (Nat.ltb _ _); [reflexivity|]. do 2 f_equal. unfold binned_counts. apply map_ext. intros k. f_equal. apply events_ext; lra.
Qed.
Lemma segments_ext t size n st st' : Forall2 Qeq st st' -> map (counts_segment t size n) st = map (counts_segment t size n) st'.
Proof.
  induction 1 as [|a b l l' H F IH]; [reflexivity|]. cbn [map]. rewrite IH, (segment_ext _ _ _ _ _ H). reflexivity.
Qed.
(* channels exchanged: complex conjugate powers, if both lists have the same resolution *)
Lemma events_swap numba srt ev1 ev2 dt rq norm fullspec silent g save n t : e_res ev1 = e_res ev2 -> let dt' := suggest_compatible_dt (e_res ev1) dt in
  0 < dt' -> (0 < n)%nat -> snd (fix_segment_size rq dt' (1 # 100)) = Z.of_nat n -> nondecreasing (e_time ev1) -> nondecreasing (e_time ev2) ->
  (exists a b, In (a, b) g /\ nq n * dt' < b - a + (1 # 100000)) ->
  crossspectrum_from_events numba srt ev1 ev2 dt (Some rq) norm true fullspec silent PAll (Some g) save = Ok t ->
  exists t', crossspectrum_from_events numba srt ev2 ev1 dt (Some rq) norm true fullspec silent PAll (Some g) save = Ok t' /\
  c_freq t' = c_freq t /\ c_m t' = c_m t /\ c_n t' = c_n t /\ c_nphots t' = c_nphots t /\ c_nphots1 t' = c_nphots2 t /\ c_nphots2 t' = c_nphots1 t /\
  c_unnorm t' = map cconj (c_unnorm t) /\ c_power t' = map cconj (c_power t) /\
  exists p1 p2 u1 u2, c_auxil t = Some (p1, p2, (u1, u2)) /\ c_auxil t' = Some (p2, p1, (u2, u1)).
Proof.
  intros Er dt' Hd Hn F2 Ht1 Ht2 Hg E. assert (F1 : fst (fix_segment_size rq dt' (1 # 100)) = nq n * dt') by (rewrite <- F2; reflexivity).
  pose proof (size_pos n dt' Hn Hd) as Hs. set (size := nq n * dt') in *.
  destruct (cs_events numba (e_time ev1) (e_time ev2) g size dt' norm true fullspec (silent || false) PAll true save n Hd Hn (Qeq_refl _) Ht1 Ht2 Hg) as (st & G & N & C1). fold size in G, C1.
  destruct (cs_events numba (e_time ev2) (e_time ev1) g size dt' norm true fullspec (silent || false) PAll true save n Hd Hn (Qeq_refl _) Ht2 Ht1 Hg) as (st' & G' & N' & C2). fold size in G', C2.
  pose proof (grid_unique _ _ _ _ _ G' G) as U. rewrite (segments_ext (e_time ev1) size n _ _ U), (segments_ext (e_time ev2) size n _ _ U) in C2.
  assert (X : forall a b, avg_cs_from_timeseries numba a b g (Some rq) dt' norm true fullspec (silent || false) PAll None None None None true save =
    avg_cs_from_timeseries numba a b g (Some size) dt' norm true fullspec (silent || false) PAll None None None None true save).
  { intros a b. unfold avg_cs_from_timeseries, segment_and_bins. unfold size. rewrite (fix_exact (nq n * dt') dt' n Hd (Qeq_refl _)), F1, F2. reflexivity. }
  unfold crossspectrum_from_events, or_common in *. cbn [bind] in *. cbv zeta in *. rewrite <- Er. fold dt' in E |- *. rewrite X in *. rewrite C1 in E. rewrite C2.
  destruct (avg_cs (map (counts_segment (e_time ev1) size n) st) (map (counts_segment (e_time ev2) size n) st) (Q2R dt') norm true fullspec PAll true save) as [[t0|]|] eqn:A; cbn [bind cs_of] in E; try discriminate.
  assert (t0 = t) by congruence. subst t0.
  destruct (avg_cs_swap (map (counts_segment (e_time ev1) size n) st) (map (counts_segment (e_time ev2) size n) st) (Q2R dt') norm fullspec save n t Hn (counts_plain _ _ _ _) (counts_plain _ _ _ _)) as (t' & E' & R); [|exact A|].
  - rewrite usable2_counts by assumption. intros p Hp. apply in_map_iff in Hp. destruct Hp as (s & <- & _). split; apply binned_len.
  - exists t'. rewrite E'. cbn [bind cs_of]. split; [reflexivity|]. exact R.
Qed.
