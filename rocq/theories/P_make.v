(* P_make.v: spectra made from event lists and light curves. *)
From Coq Require Import Reals Qreals.
From Coq Require Import Lqa Lia.
From Verif Require Import Np Lib S_gti S_seg S_utils S_flux S_fourier M_gti M_seg M_utils M_lc M_exvar Cplx M_fourier M_flux P_seg_cut P_flux P_flux2 P_avg P_flux4 P_gti_cross P_exvar P_sim M_make.
Open Scope Q_scope.

(* the grid of segments is determined by the intervals *)
Lemma grid_of_unique size eps iv l : forall l', grid_of size eps iv l -> grid_of size eps iv l' -> Forall2 Qeq l l'.
Proof.
  intros l' (A1 & A2) (B1 & B2). assert (L : length l = length l').
  { destruct (Nat.lt_trichotomy (length l) (length l')) as [C|[C|C]]; [|exact C|].
    - exfalso. apply B1 in C. apply A1 in C. lia.
    - exfalso. apply A1 in C. apply B1 in C. lia. }
  apply forall2_nth; [exact L|]. intros k a b Ha Hb. rewrite (A2 _ _ Ha), (B2 _ _ Hb). reflexivity.
Qed.
Lemma grid_unique g size eps st st' : segment_grid g size eps st -> segment_grid g size eps st' -> Forall2 Qeq st st'.
Proof.
  intros (ls & A & ->) (ls' & B & ->). revert ls' B. induction A as [|iv l g ls H A IH]; intros ls' B; inversion B; subst; [constructor|].
  cbn [concat]. apply Forall2_app; [eapply grid_of_unique; eassumption|apply IH; assumption].
Qed.
Lemma busy_same times size st st' : Forall2 Qeq st st' ->
  Forall2 Qeq (filter (fun s => Nat.leb 2 (events_in times s (s + size))) st) (filter (fun s => Nat.leb 2 (events_in times s (s + size))) st').
Proof.
  induction 1 as [|a b l l' H F IH]; [constructor|]. cbn [filter]. rewrite (events_ext times a (a + size) b (b + size)) by lra.
  destruct (Nat.leb 2 (events_in times b (b + size))); [constructor; assumption|exact IH].
Qed.

(* ---------- GTIs given to the constructors are not used ---------- *)
Lemma averaged_ignores numba d seg norm gti gti' dt common save :
  new_averaged_powerspectrum numba d (Some seg) norm gti dt common save = new_averaged_powerspectrum numba d (Some seg) norm gti' dt common save.
Proof.
  unfold new_averaged_powerspectrum, initial_checks. destruct norm; reflexivity.
Qed.
Lemma single_ignores numba d norm iv dt : new_powerspectrum numba d norm (Some [iv]) dt = new_powerspectrum numba d norm None dt.
Proof.
  unfold new_powerspectrum, initial_checks. destruct norm; reflexivity.
Qed.
Lemma single_several numba d norm iv iv' l dt : new_powerspectrum numba d norm (Some (iv :: iv' :: l)) dt = Err TypeError \/ norm = OtherNorm.
Proof.
  unfold new_powerspectrum, initial_checks. destruct norm; try (left; reflexivity). right; reflexivity.
Qed.
(* GTIs given to the functions replace those of the data *)
Lemma events_replaced numba t own res dt seg norm common g save :
  powerspectrum_from_events numba (mkEvl t own res) dt seg norm common (Some g) save = powerspectrum_from_events numba (mkEvl t g res) dt seg norm common None save.
Proof.
  reflexivity.
Qed.
Lemma curve_replaced numba t c own d ts e seg norm common g save :
  powerspectrum_from_lightcurve numba (mkCurve t c own d ts e) seg norm common (Some g) save = powerspectrum_from_lightcurve numba (mkCurve t c g d ts e) seg norm common None save.
Proof.
  reflexivity.
Qed.
(* what the constructors refuse *)
Lemma averaged_checks numba d seg norm gti dt common save :
  (norm = OtherNorm \/ (norm <> OtherNorm /\ seg = None /\ (match gti with Some g => (length g <= 1)%nat | None => True end)) ->
   new_averaged_powerspectrum numba d seg norm gti dt common save = Err ValueError) /\
  (forall e, d = Events e -> (dt = None \/ exists v, dt = Some v /\ v <= (1 # 1000000000000000)) -> seg <> None -> new_averaged_powerspectrum numba d seg norm gti dt common save = Err ValueError).
Proof.
  unfold new_averaged_powerspectrum, initial_checks. split.
  - intros [->|(N & -> & G)]; [reflexivity|]. assert (B : match gti with Some g => Nat.ltb 1 (length g) | None => false end = false) by (destruct gti; [apply Nat.ltb_ge; exact G|reflexivity]).
    rewrite B. destruct norm; try congruence; (destruct d; [|reflexivity]); destruct dt as [v|]; try reflexivity; destruct (qle v (1 # 1000000000000000)); reflexivity.
  - intros e -> H Hs. destruct seg as [sg|]; [|congruence]. assert (B : match dt with None => true | Some v => qle v (1 # 1000000000000000) end = true).
    { destruct H as [->|(v & -> & H)]; [reflexivity|]. apply qle_t. exact H. }
    destruct norm; try reflexivity; rewrite B; reflexivity.
Qed.

(* ---------- spectra of event lists ---------- *)
Lemma grid_size g size size' eps st : size == size' -> segment_grid g size eps st -> segment_grid g size' eps st.
Proof.
  intros E (ls & A & ->). exists ls. split; [|reflexivity]. induction A as [|iv l g ls (H1 & H2) A IH]; constructor; [|exact IH]. split.
  - intros k. rewrite (H1 k), E. reflexivity.
  - intros k s H. rewrite (H2 k s H), E. reflexivity.
Qed.
Lemma from_events numba ev dt rq norm gti save n : let dt' := suggest_compatible_dt (e_res ev) dt in let g := or_own gti (e_gti ev) in
  0 < dt' -> (0 < n)%nat -> snd (fix_segment_size rq dt' (1 # 100)) = Z.of_nat n -> nondecreasing (e_time ev) ->
  (exists a b, In (a, b) g /\ nq n * dt' < b - a + (1 # 100000)) -> norm <> OtherNorm ->
  let size := nq n * dt' in
  exists st, segment_grid g size (1 # 100000) st /\ st <> [] /\
    let us := filter (fun s => Nat.leb 2 (events_in (e_time ev) s (s + size))) st in
    let lc s := binned_counts (e_time ev) size n s in
    let nph := avg (fun s => INR (events_in (e_time ev) s (s + size))) us in
    let res := powerspectrum_from_events numba ev dt (Some rq) norm true gti save in
    (us = [] -> res = Err AttributeError) /\
    (us <> [] -> exists t kn, res = Ok (t, g) /\ kind norm None = Some kn /\ let f := factor kn (Q2R dt') n (nph / INR n) nph in
      p_m t = length us /\ p_n t = n /\ p_nphots t = nph /\ p_dt t = Q2R dt' /\ p_df t = (1 / (Q2R dt' * INR n))%R /\
      p_freq t = map (fun k => (INR k / (INR n * Q2R dt'))%R) (seq 1 (n_pos n)) /\
      p_power t = map (fun k => (avg (fun s => power_at (lc s) k) us * f)%R) (seq 1 (n_pos n)) /\
      p_subcs t = (if save then Some (map (fun s => map (fun k => (power_at (lc s) k * f)%R) (seq 1 (n_pos n))) us) else None) /\
      p_unnorm_subcs t = (if save then Some (map (fun s => map (power_at (lc s)) (seq 1 (n_pos n))) us) else None)).
Proof.
  intros dt' g Hd Hn F2 Ht Hg Hnorm size. assert (F1 : fst (fix_segment_size rq dt' (1 # 100)) = nq n * dt') by (rewrite <- F2; reflexivity). pose proof (size_pos n dt' Hn Hd) as Hs. fold size in Hs.
  destruct (pds_events numba (e_time ev) g size dt' norm true save n Hd Hn (Qeq_refl _) Ht Hg) as (st & G & N & E). fold size in G, E.
  exists st. split; [exact G|]. split; [exact N|]. intros us lc nph res.
  assert (E0 : avg_pds_from_timeseries numba (e_time ev) g (Some rq) dt' norm true None None save = avg_pds (map (counts_segment (e_time ev) size n) st) (Q2R dt') norm true save).
  { rewrite <- E. unfold avg_pds_from_timeseries, segment_and_bins. unfold size. rewrite (fix_exact (nq n * dt') dt' n Hd (Qeq_refl _)), F1, F2. reflexivity. }
  unfold res, powerspectrum_from_events. fold dt' g. cbv zeta. rewrite E0.
  assert (C : tuples_nonzero (map (counts_segment (e_time ev) size n) st)).
  { intros u Hu He. apply counts_plain in Hu. contradiction. }
  pose proof (usable_counts (e_time ev) size n st Hs Hn) as U. change (busy (e_time ev) size st) with us in U.
  rewrite (avg_pds_common _ _ norm save n Hn C); [|rewrite U; intros u Hu; apply in_map_iff in Hu; destruct Hu as (s & <- & _); apply binned_len].
  rewrite U. rewrite map_const_err by reflexivity. rewrite map_length, !avg_map.
  assert (A : avg (fun s => photons {| s_flux := binned_counts (e_time ev) size n s; s_err := None |}) us = nph).
  { apply avg_ext. intros s _. unfold photons. cbn [s_flux]. now apply binned_sum. }
  rewrite A. clear A E E0 U C N. split; intros Hu.
  - rewrite Hu. reflexivity.
  - destruct (kind norm None) as [kn|] eqn:K; [|destruct norm; try discriminate; contradiction].
    assert (Em : forall {B} (x y : B), match map (fun s => {| s_flux := binned_counts (e_time ev) size n s; s_err := None |}) us with [] => x | _ => y end = y)
      by (intros; destruct us; [congruence|reflexivity]).
    rewrite Em. eexists. exists kn. cbn [bind table_of]. split; [reflexivity|]. split; [reflexivity|]. cbv zeta.
    cbn [p_m p_n p_nphots p_dt p_df p_freq p_power p_subcs p_unnorm_subcs]. do 6 (split; [reflexivity|]). split; [|split].
    + apply map_ext. intros k. now rewrite avg_map.
    + destruct save; [|reflexivity]. now rewrite map_map.
    + destruct save; [|reflexivity]. now rewrite map_map.
Qed.
(* the constructor of averaged spectra makes the spectrum of the GTIs of the data *)
Lemma averaged_is numba ev seg norm gti dt common save : (1 # 1000000000000000) < dt -> norm <> OtherNorm ->
  new_averaged_powerspectrum numba (Events ev) (Some seg) norm gti (Some dt) common save = powerspectrum_from_events numba ev dt (Some seg) norm common None save.
Proof.
  intros Hv Hn. unfold new_averaged_powerspectrum, initial_checks. assert (Q : qle dt (1 # 1000000000000000) = false) by (apply qle_f; exact Hv). rewrite Q.
  destruct norm; try congruence; reflexivity.
Qed.
Lemma averaged_curve numba lc seg norm gti dt common save : norm <> OtherNorm ->
  new_averaged_powerspectrum numba (Curve lc) (Some seg) norm gti dt common save = powerspectrum_from_lightcurve numba lc (Some seg) norm common None save.
Proof.
  intros Hn. unfold new_averaged_powerspectrum, initial_checks. destruct norm; try congruence; reflexivity.
Qed.
