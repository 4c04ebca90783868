(* P_vspec.v: spectra against energy: selection of photons, tables of averaged spectra for any list of segments. *)
From Coq Require Import Reals Qreals Lqa.
From Verif Require Import Np Lib M_gti M_seg M_utils M_exvar Cplx M_fourier M_flux M_vspec S_gti S_seg S_utils S_flux S_fourier S_vspec P_avg P_avg2 P_avgcs P_flux P_flux2.
From Coq Require Import List Bool Arith Sorting.Sorted Lia.
Import ListNotations.
Open Scope Q_scope.

(* ---- selection ---- *)
Lemma mask_get_map {A} (f : A -> bool) (l : list A) : mask_get (map f l) l = Ok (filter f l).
Proof.
  unfold mask_get. rewrite map_length, Nat.eqb_refl. f_equal. induction l as [|a l IH]; [reflexivity|]. cbn [map combine filter snd]. destruct (f a); cbn [map fst]; now rewrite IH.
Qed.
Lemma mask_get_two {A B} (f : B -> bool) (l : list A) (m : list B) : length m = length l -> mask_get (map f m) l = Ok (map fst (filter (fun p => f (snd p)) (combine l m))).
Proof.
  intros L. unfold mask_get. rewrite map_length, L, Nat.eqb_refl. f_equal. revert l L. induction m as [|b m IH]; intros [|a l] L; try discriminate; [reflexivity|]. cbn [map combine filter snd].
  destruct (f b); cbn [map fst]; rewrite IH by (cbn in L; congruence); reflexivity.
Qed.
Lemma mask_get_maps {A} (g : nat -> bool) (h : nat -> A) (ks : list nat) : mask_get (map g ks) (map h ks) = Ok (map h (filter g ks)).
Proof.
  unfold mask_get. rewrite !map_length, Nat.eqb_refl. f_equal. induction ks as [|k ks IH]; [reflexivity|]. cbn [map combine filter snd]. destruct (g k); cbn [map fst]; now rewrite IH.
Qed.
Lemma times_ok ev en r : ev_energy ev = Some en -> length en = length (ev_time ev) -> times_from_energy false ev r = Ok (band_times (ev_time ev) en r).
Proof. intros E L. unfold times_from_energy. rewrite E. now apply mask_get_two. Qed.
Lemma band_sorted times en r : nondecreasing times -> nondecreasing (band_times times en r).
Proof.
  intros H. apply (proj2 (ss_nth Qle _)) in H. unfold band_times. cut (StronglySorted Qle (map fst (filter (fun p => in_range r (snd p)) (combine times en)))); [exact (proj1 (ss_nth Qle _))|].
  revert en. induction H as [|a l S IH F]; intros en; [constructor|]. destruct en as [|e en]; [constructor|]. cbn [combine filter snd]. destruct (in_range r e); [|apply IH]. cbn [map fst]. constructor; [apply IH|].
  apply Forall_forall. intros x Hx. apply in_map_iff in Hx. destruct Hx as ([x' y] & <- & Hx). apply filter_In in Hx. destruct Hx as [Hx _]. apply in_combine_l in Hx. cbn [fst]. rewrite Forall_forall in F. now apply F.
Qed.
(* ---- segments ---- *)
Lemma grid_eq size size' eps iv l l' : size == size' -> grid_of size eps iv l -> grid_of size' eps iv l' -> Forall2 Qeq l l'.
Proof.
  intros E [L N] [L' N']. assert (LL : length l = length l').
  { apply Nat.le_antisymm; apply Nat.nlt_ge; intros H; [apply L in H|apply L' in H]; [assert (length l' < length l')%nat by (apply L'; rewrite <- E; exact H)|assert (length l < length l)%nat by (apply L; rewrite E; exact H)]; lia. }
  assert (X : forall k a b, nth_error l k = Some a -> nth_error l' k = Some b -> a == b) by (intros k a b A B; rewrite (N k a A), (N' k b B), E; reflexivity).
  clear N N' L L'. revert l' LL X. induction l as [|a l IH]; intros [|b l'] LL X; try discriminate; [constructor|]. constructor; [apply (X 0%nat); reflexivity|]. apply IH; [cbn in LL; congruence|]. intros k x y A B. now apply (X (S k)).
Qed.
Lemma segment_grid_eq g size size' eps st st' : size == size' -> segment_grid g size eps st -> segment_grid g size' eps st' -> Forall2 Qeq st st'.
Proof.
  intros E (ls & F & ->) (ls' & F' & ->). revert ls' F'. induction F as [|iv l g ls G F IH]; intros ls' F'; inversion F'; subst; [constructor|]. cbn [concat]. apply Forall2_app; [now apply (grid_eq size size' eps iv)|]. now apply IH.
Qed.
Lemma map_qeq {B} (f h : Q -> B) l l' : (forall s s', s == s' -> f s = h s') -> Forall2 Qeq l l' -> map f l = map h l'.
Proof. intros H F. induction F as [|a b l l' E F IH]; [reflexivity|]. cbn [map]. now rewrite IH, (H a b E). Qed.
Lemma filter_qeq (f h : Q -> bool) l l' : (forall s s', s == s' -> f s = h s') -> Forall2 Qeq l l' -> Forall2 Qeq (filter f l) (filter h l').
Proof. intros H F. induction F as [|a b l l' E F IH]; [constructor|]. cbn [filter]. rewrite (H a b E). destruct (h b); [constructor; assumption|exact IH]. Qed.
Lemma avg_qeq (f h : Q -> R) l l' : (forall s s', s == s' -> f s = h s') -> Forall2 Qeq l l' -> avg f l = avg h l'.
Proof.
  intros H F. unfold avg. rewrite (map_qeq f h l l' H F). assert (L : length l = length l') by (clear H; induction F; cbn; congruence). now rewrite L.
Qed.
Lemma nil_qeq l l' : Forall2 Qeq l l' -> (l = [] <-> l' = []).
Proof. intros F. inversion F; split; intros; congruence. Qed.
Lemma len_qeq l l' : Forall2 Qeq l l' -> length l = length l'.
Proof. intros F. induction F; cbn; congruence. Qed.
Lemma events_size times size size' s s' : size == size' -> s == s' -> events_in times s (s + size) = events_in times s' (s' + size').
Proof. intros E E'. apply events_ext; [exact E'|now rewrite E, E']. Qed.
Lemma binned_ext times size n s s' : s == s' -> binned_counts times size n s = binned_counts times size n s'.
Proof. intros E. unfold binned_counts. apply map_ext. intros k. f_equal. apply events_ext; rewrite E; reflexivity. Qed.
Lemma busy_qeq times size size' st st' : size == size' -> Forall2 Qeq st st' -> Forall2 Qeq (busy_in times size st) (busy_in times size' st').
Proof. intros E F. apply filter_qeq; [|exact F]. intros s s' E'. now rewrite (events_size times size size' s s' E E'). Qed.
Lemma busy2_qeq a b size size' st st' : size == size' -> Forall2 Qeq st st' -> Forall2 Qeq (busy_both a b size st) (busy_both a b size' st').
Proof. intros E F. apply filter_qeq; [|exact F]. intros s s' E'. now rewrite (events_size a size size' s s' E E'), (events_size b size size' s s' E E'). Qed.

Definition lc_of (times : list Q) (size : Q) (n : nat) (s : Q) : seg := {| s_flux := binned_counts times size n s; s_err := None |}.
Lemma usable2_counts a b size n st : 0 < size -> (0 < n)%nat ->
  usable2 (map (counts_segment a size n) st) (map (counts_segment b size n) st) = map (fun s => (lc_of a size n s, lc_of b size n s)) (busy_both a b size st).
Proof.
  intros Hs Hn. unfold usable2. induction st as [|s st IH]; [reflexivity|]. cbn [map combine flat_map]. rewrite IH. unfold counts_segment at 1 2, busy_both. cbn [filter].
  destruct (Nat.ltb_spec (events_in a s (s + size)) 2) as [L|L]; [rewrite (proj2 (Nat.leb_gt 2 _) L); reflexivity|]. rewrite (proj2 (Nat.leb_le 2 _) L).
  destruct (Nat.ltb_spec (events_in b s (s + size)) 2) as [L'|L']; [rewrite (proj2 (Nat.leb_gt 2 _) L'); reflexivity|]. rewrite (proj2 (Nat.leb_le 2 _) L').
  rewrite !busy_nonzero by assumption. reflexivity.
Qed.
Lemma no_variance (f : seg * seg -> option R) us : (forall p, In p us -> f p = None) -> mean_present (map f us) = None.
Proof. intros H. unfold mean_present. assert (X : present (map f us) = []); [|now rewrite X]. induction us as [|p us IH]; [reflexivity|]. cbn [map present flat_map]. rewrite (H p) by now left. apply IH. intros q Hq. apply H. now right. Qed.

Section Obs.
Variables (numba : bool) (g : gtis) (rq dt : Q) (n : nat) (st : list Q).
Hypotheses (Hd : 0 < dt) (Hn : (0 < n)%nat) (Er : rq == nq n * dt) (Hg : exists a b, In (a, b) g /\ rq < b - a + (1 # 100000)).
Let size := nq n * dt.
Hypothesis Hst : segment_grid g size (1 # 100000) st.

Lemma rate_at times : nondecreasing times -> exists r, get_average_ctrate times g rq None = Ok r /\ Q2R r = (mean_photons times size st / length_of n dt)%R /\ st <> [].
Proof.
  intros Ht. pose proof (size_pos n dt Hn Hd) as Hs. fold size in Hs. assert (Hr : 0 < rq) by (rewrite Er; exact Hs).
  destruct (ctrate_events times g rq Hr Ht Hg) as (st' & r & G & E & V). exists r. split; [exact E|].
  assert (F : Forall2 Qeq st' st) by (apply (segment_grid_eq g rq size (1 # 100000)); assumption).
  assert (NE : st' <> []).
  { destruct G as (ls & F2 & ->). destruct Hg as (a & b & I & L). clear - F2 I L. induction F2 as [|iv l g ls G F2 IH]; [destruct I|]. destruct I as [->|I].
    - destruct G as [G _]. cbn [fst snd] in G. assert (0 < length l)%nat by (apply G; change (nq 1) with 1; lra). destruct l; [cbn in *; lia|discriminate].
    - cbn [concat]. intros X. apply app_eq_nil in X. now apply (IH I). }
  split; [|intros X; apply (proj2 (nil_qeq st' st F)) in X; contradiction].
  rewrite (Qeq_eqR _ _ V). assert (LP : (0 < length st')%nat) by (destruct st'; [contradiction|cbn; lia]).
  assert (P1 : ~ nq (length st') * rq == 0). { assert (0 < nq (length st')) by (rewrite <- (Zlt_Qlt 0); lia). intros X. assert (0 < nq (length st') * rq) by (apply Qmult_lt_0_compat; assumption). lra. }
  rewrite Q2R_div by exact P1. rewrite Q2R_mult, (Qeq_eqR _ _ Er), Q2R_mult. unfold mean_photons, length_of.
  rewrite (avg_qeq _ (fun s => INR (events_in times s (s + rq))) st st').
  - unfold avg. assert (A : forall l, Q2R (nq (fold_right (fun s m => events_in times s (s + rq) + m)%nat 0%nat l)) = rlsum (map (fun s => INR (events_in times s (s + rq))) l)).
    { intros l. induction l as [|s l IH]; [unfold Q2R; cbn; field|]. cbn [fold_right map rlsum]. rewrite Nat2Z.inj_add, inject_Z_plus, Q2R_plus, IH. f_equal. unfold Q2R, inject_Z. cbn [Qnum Qden]. rewrite INR_IZR_INZ. field. }
    rewrite A. assert (B : forall m, Q2R (nq m) = INR m) by (intros m; unfold Q2R, inject_Z; cbn [Qnum Qden]; rewrite INR_IZR_INZ; field). rewrite !B. field.
    assert (0 < Q2R dt)%R by (rewrite <- RMicromega.Q2R_0; now apply Qlt_Rlt). repeat split; try (apply not_0_INR; lia). apply Rgt_not_eq. assumption.
  - intros s s' E'. f_equal. apply events_size; [symmetry; exact Er|exact E'].
  - clear - F. induction F; constructor; [symmetry|]; assumption.
Qed.
Lemma pds_at times norm kn : nondecreasing times -> kind norm None = Some kn ->
  let us := busy_in times size st in
  let nph := mean_photons times size us in
  let res := avg_pds_from_timeseries numba times g (Some rq) dt norm true None None false in
  (us = [] -> res = Ok None) /\
  (us <> [] -> exists t, res = Ok (Some t) /\ p_m t = length us /\ p_mean t = (nph / INR n)%R /\
     p_freq t = map (freq_of n dt) (seq 1 (n_pos n)) /\
     p_power t = map (fun k => (raw_power times dt n us k * factor kn (Q2R dt) n (nph / INR n) nph)%R) (seq 1 (n_pos n))).
Proof.
  intros Ht K us nph res. assert (NO : norm <> OtherNorm) by (intros ->; discriminate K).
  destruct (pds_events_common numba times g rq dt norm false n Hd Hn Er Ht Hg NO) as (st' & G & H). cbv zeta in H. fold size in G, H.
  assert (F : Forall2 Qeq st' st) by (apply (segment_grid_eq g size size (1 # 100000)); [reflexivity|assumption|assumption]).
  pose proof (busy_qeq times size size st' st (Qeq_refl _) F) as FB. unfold busy_in at 1 in FB. fold us in FB.
  set (us' := filter (fun s => Nat.leb 2 (events_in times s (s + size))) st') in *. destruct H as [H1 H2]. split; intros U.
  - apply H1. now apply (nil_qeq us' us FB).
  - destruct H2 as (t & kn' & E & K' & M & _ & _ & MN & _ & FR & _ & PW); [intros X; apply U; now apply (nil_qeq us' us FB)|].
    assert (kn' = kn) as -> by congruence. exists t. split; [exact E|]. split; [now rewrite M, (len_qeq us' us FB)|].
    assert (NP : avg (fun s => INR (events_in times s (s + size))) us' = nph). { unfold nph, mean_photons. apply avg_qeq; [|exact FB]. intros s s' E'. f_equal. now apply events_size. }
    rewrite NP in MN, PW. split; [exact MN|]. split; [exact FR|]. rewrite PW. apply map_ext. intros k. f_equal. unfold raw_power. apply avg_qeq; [|exact FB]. intros s s' E'. cbv beta; unfold size; now rewrite (binned_ext times (nq n * dt) n s s' E').
Qed.
Lemma cs_at a b norm kn : nondecreasing a -> nondecreasing b -> kind norm None = Some kn ->
  let us := busy_both a b size st in
  let nph := gmean (mean_photons a size us) (mean_photons b size us) in
  let res := avg_cs_from_timeseries numba a b g (Some rq) dt norm true false true PAll None None None None false false in
  (us = [] -> res = Ok None) /\
  (us <> [] -> exists t, res = Ok (Some t) /\ c_m t = length us /\ c_mean t = (nph / INR n)%R /\
     c_power t = map (fun k => cscal (raw_cross a b dt n us k) (factor kn (Q2R dt) n (nph / INR n) nph)) (seq 1 (n_pos n))).
Proof.
  intros Ha Hb K us nph res. pose proof (size_pos n dt Hn Hd) as Hs. fold size in Hs.
  destruct (cs_events numba a b g rq dt norm true false true PAll false false n Hd Hn Er Ha Hb Hg) as (st' & G & _ & E). fold size in G, E. fold res in E.
  assert (F : Forall2 Qeq st' st) by (apply (segment_grid_eq g size size (1 # 100000)); [reflexivity|assumption|assumption]).
  pose proof (busy2_qeq a b size size st' st (Qeq_refl _) F) as FB. fold us in FB. set (us' := busy_both a b size st') in *.
  assert (U : usable2 (map (counts_segment a size n) st') (map (counts_segment b size n) st') = map (fun s => (lc_of a size n s, lc_of b size n s)) us') by now apply usable2_counts.
  assert (C : forall x, tuples_nonzero (map (counts_segment x size n) st')) by (intros x u Hu He; apply counts_plain in Hu; contradiction).
  pose proof (avg_cs_common (map (counts_segment a size n) st') (map (counts_segment b size n) st') (Q2R dt) norm false PAll false false n Hn (C a) (C b)) as X. cbv zeta in X. rewrite U in X.
  rewrite X in E; [|intros p Hp; apply in_map_iff in Hp; destruct Hp as (s & <- & _); cbn [fst snd lc_of s_flux]; split; apply binned_len]. clear X.
  assert (NV : mean_present (map pvar1 (map (fun s => (lc_of a size n s, lc_of b size n s)) us')) = None) by (apply no_variance; intros p Hp; apply in_map_iff in Hp; destruct Hp as (s & <- & _); reflexivity).
  rewrite NV in E. cbn [gmean_opt] in E. assert (RF : refused norm None = false) by (unfold refused; now rewrite K). assert (FC : forall x y, fac norm None (Q2R dt) n x y = factor kn (Q2R dt) n x y) by (intros; unfold fac; now rewrite K).
  rewrite RF in E. cbn [orb bad_type] in E.
  assert (PH : forall x (p : (seg * seg) -> seg), (forall s, p (lc_of a size n s, lc_of b size n s) = lc_of x size n s) -> avg (fun q => photons (p q)) (map (fun s => (lc_of a size n s, lc_of b size n s)) us') = mean_photons x size us).
  { intros x p Hp. rewrite avg_map. unfold mean_photons. apply avg_qeq; [|exact FB]. intros s s' E'. rewrite Hp. unfold photons, lc_of. cbn [s_flux]. rewrite binned_sum by assumption. f_equal. now apply events_size. }
  split; intros HU.
  - rewrite E. assert (N : us' = []) by (now apply (nil_qeq us' us FB)). now rewrite N.
  - assert (N : us' <> []) by (intros Y; apply HU; now apply (nil_qeq us' us FB)).
    rewrite (PH a fst) in E by reflexivity. rewrite (PH b snd) in E by reflexivity. fold nph in E. rewrite map_length in E.
    destruct (map (fun s => (lc_of a size n s, lc_of b size n s)) us') as [|p0 r0] eqn:EM; [destruct us'; [contradiction|discriminate EM]|]. rewrite <- EM in E.
    eexists. split; [exact E|]. cbn [c_m c_mean c_power]. split; [now rewrite (len_qeq us' us FB)|]. split; [reflexivity|]. unfold bins. apply map_ext. intros k. rewrite FC. unfold as_type. f_equal.
    unfold raw_cross, cavg. rewrite !avg_map. f_equal; apply avg_qeq; try exact FB; intros s s' E'; unfold cpower, lc_of; cbn [fst snd s_flux]; unfold size; now rewrite (binned_ext a (nq n * dt) n s s' E'), (binned_ext b (nq n * dt) n s s' E').
Qed.
End Obs.
