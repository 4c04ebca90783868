(* P_vspec3.v: the lag and covariance spectra. *)
From Coq Require Import Reals Qreals.
From Verif Require Import Np Lib M_gti M_seg M_utils M_exvar Cplx M_fourier M_flux M_vspec S_gti S_seg S_utils S_flux S_fourier S_vspec P_exvar P_helpers P_segan P_norm P_avg P_rms2 P_flux P_flux2 P_vspec P_vspec2.
From Coq Require Import Reals Qreals List Bool Arith Lra Lia.
Import ListNotations.
Open Scope R_scope.

Lemma bias_ok p1 p2 n1 n2 n : bias_term p1 p2 n1 n2 n 1 = bias_of p1 p2 n1 n2 n.
Proof.
  unfold bias_term, bias_of. destruct (Nat.ltb 500 n) eqn:E; destruct (le_lt_dec n 500).
  - apply Nat.ltb_lt in E. lia.
  - ring.
  - f_equal. ring.
  - apply Nat.ltb_ge in E. lia.
Qed.
Lemma fsqrt_when (a : Prop) x (o : option R) (x' : R) : (a -> o = Some x) -> (~ a -> o = None) -> (a \/ ~ a) ->
  defined_when (a /\ 0 <= x) (sqrt x) (flet q := o in fsqrt q).
Proof.
  intros H1 H2 [A|A].
  - rewrite (H1 A). split.
    + intros [_ X]. now apply fsqrt_some.
    + intros N. apply fsqrt_none. destruct (Rle_dec 0 x); [exfalso; tauto|lra].
  - rewrite (H2 A). split; [tauto|reflexivity].
Qed.
Lemma phase_error_ok common z ps pr n ns nr : (0 < n)%nat -> phase_error_is common z ps pr n ns nr (phase_error common z ps pr n ns nr).
Proof.
  intros Hn. assert (0 < INR n) by (apply lt_0_INR; lia). unfold phase_error_is, phase_error. cbv zeta. destruct common.
  - rewrite bias_ok. set (b := bias_of ps pr ns nr n). destruct (Req_EM_T (cnorm2 z) b) as [E|E].
    { replace (cnorm2 z - b) with 0 by lra. rewrite fdiv_none. split; [tauto|reflexivity]. }
    rewrite (fdiv_some ps) by lra. destruct (Req_EM_T pr nr) as [E2|E2].
    { replace (pr - nr) with 0 by lra. rewrite fdiv_none. split; [tauto|reflexivity]. }
    rewrite (fdiv_some 1) by lra. rewrite fdiv_some by lra. split.
    + intros (_ & _ & X). now apply fsqrt_some.
    + intros N. apply fsqrt_none. apply Rnot_le_lt. tauto.
  - unfold oraw_coherence. rewrite bias_ok. set (b := bias_of ps pr ns nr n). set (num := if Rlt_dec (cnorm2 z - b) 0 then cnorm2 z else cnorm2 z - b).
    destruct (Req_EM_T (ps * pr) 0) as [E|E].
    { rewrite E, fdiv_none. split; [tauto|reflexivity]. }
    rewrite (fdiv_some num) by assumption. destruct (Req_EM_T (num / (ps * pr)) 0) as [E2|E2].
    { rewrite E2. replace (2 * 0 * INR n) with 0 by ring. rewrite fdiv_none. split; [tauto|reflexivity]. }
    rewrite fdiv_some by (apply Rmult_integral_contrapositive; split; lra). split.
    + intros (_ & _ & X). now apply fsqrt_some.
    + intros N. apply fsqrt_none. apply Rnot_le_lt. tauto.
Qed.
Lemma modulus_error_ok common z ps pr n ns nr : (0 < n)%nat -> modulus_error_is common z ps pr n ns nr (modulus_error common z ps pr n ns nr).
Proof.
  intros Hn. assert (0 < INR n) by (apply lt_0_INR; lia). unfold modulus_error_is, modulus_error. cbv zeta. destruct common.
  - rewrite bias_ok. set (b := bias_of ps pr ns nr n). destruct (Req_EM_T pr nr) as [E2|E2].
    { replace (pr - nr) with 0 by lra. rewrite fdiv_none. split; [tauto|reflexivity]. }
    rewrite (fdiv_some (cnorm2 z - b)) by lra. rewrite fdiv_some by lra. split.
    + intros (_ & X). now apply fsqrt_some.
    + intros N. apply fsqrt_none. apply Rnot_le_lt. tauto.
  - rewrite fdiv_some by lra. split; [apply fsqrt_some|]. intros N. apply fsqrt_none. lra.
Qed.
Lemma combine_maps {A B C} (f : A -> B) (h : A -> C) l : combine (map f l) (map h l) = map (fun a => (f a, h a)) l.
Proof. induction l as [|a l IH]; [reflexivity|]. cbn. now rewrite IH. Qed.
Lemma rlsum_nonneg_in l : (forall x, In x l -> 0 <= x) -> 0 <= rlsum l.
Proof.
  induction l as [|a l IH]; intros H; [cbn; lra|]. change (rlsum (a :: l)) with (a + rlsum l). assert (0 <= a) by (apply H; now left). assert (0 <= rlsum l) by (apply IH; intros; apply H; now right). lra.
Qed.
Lemma rlsum_le {A} (f h : A -> R) l : (forall a, In a l -> f a <= h a) -> rlsum (map f l) <= rlsum (map h l).
Proof.
  induction l as [|a l IH]; intros H; [cbn; lra|]. change (f a + rlsum (map f l) <= h a + rlsum (map h l)). assert (f a <= h a) by (apply H; now left). assert (rlsum (map f l) <= rlsum (map h l)) by (apply IH; intros; apply H; now right). lra.
Qed.
Lemma rlsum_scale {A} (f : A -> R) c l : rlsum (map (fun a => c * f a) l) = c * rlsum (map f l).
Proof. induction l as [|a l IH]; [cbn; ring|]. change (c * f a + rlsum (map (fun a => c * f a) l) = c * (f a + rlsum (map f l))). rewrite IH. ring. Qed.
Lemma freq_lower n dt k f0 f1 : In k (chosen n dt f0 f1) -> f0 <= freq_of n dt k < f1 /\ (1 <= k)%nat.
Proof.
  intros H. apply filter_In in H. destruct H as [I H]. apply in_seq in I. apply andb_true_iff in H. destruct H as [A B]. destruct (Rle_dec f0 (freq_of n dt k)); [|discriminate]. destruct (Rlt_dec (freq_of n dt k) f1); [|discriminate]. split; [lra|lia].
Qed.
Lemma freq_first n dt k : (0 < n)%nat -> (0 < dt)%Q -> (1 <= k)%nat -> 1 / length_of n dt <= freq_of n dt k.
Proof.
  intros Hn Hd Hk. pose proof (length_pos n dt Hn Hd). unfold freq_of. apply Rmult_le_compat_r; [left; now apply Rinv_0_lt_compat|]. change 1 with (INR 1). now apply le_INR.
Qed.
Lemma mean_freq_ge n dt (x : nat -> cx) ks c : (forall k, In k ks -> c <= freq_of n dt k) -> rlsum (map (fun k => cabs (x k)) ks) <> 0 -> c <= mean_freq n dt x ks.
Proof.
  intros H W. assert (W0 : 0 <= rlsum (map (fun k => cabs (x k)) ks)) by (apply rlsum_nonneg_in; intros y Hy; apply in_map_iff in Hy; destruct Hy as (k & <- & _); apply sqrt_pos).
  unfold mean_freq. apply (Rmult_le_reg_r (rlsum (map (fun k => cabs (x k)) ks))); [lra|]. 
  replace (rlsum (map (fun k => freq_of n dt k * cabs (x k)) ks) / rlsum (map (fun k => cabs (x k)) ks) * rlsum (map (fun k => cabs (x k)) ks)) with (rlsum (map (fun k => freq_of n dt k * cabs (x k)) ks)) by (field; exact W).
  rewrite <- rlsum_scale. apply rlsum_le. intros k Hk. apply Rmult_le_compat_r; [apply sqrt_pos|now apply H].
Qed.
Lemma raw_one x n a : factor KNone x n a a = 1. Proof. reflexivity. Qed.
Lemma cscal_one z : cscal z 1 = z.
Proof. destruct z. unfold cscal. cbn. f_equal; ring. Qed.

Lemma mr_rel_in {A B} (f : A -> result B) (P : A -> B -> Prop) l : (forall a, In a l -> exists b, f a = Ok b /\ P a b) -> exists r, map_result f l = Ok r /\ Forall2 P l r.
Proof.
  induction l as [|a l IH]; intros H; [exists []; split; [reflexivity|constructor]|]. destruct (H a (or_introl eq_refl)) as (b & Eb & Pb). destruct IH as (r & E & F); [intros; apply H; now right|]. exists (b :: r). cbn [map_result]. rewrite Eb. cbn [bind]. rewrite E. split; [reflexivity|now constructor].
Qed.
Section LagCov.
Variables (numba : bool) (srt : list tagged -> list tagged) (f0 f1 : R) (g : gtis) (seg dt : Q) (n : nat) (st : list Q).
Hypotheses (Hd : (0 < dt)%Q) (Hn : (0 < n)%nat) (Er : (seg == nq n * dt)%Q) (Hg : exists a b, In (a, b) g /\ (seg < b - a + (1 # 100000))%Q).
Hypothesis Hst : segment_grid g (nq n * dt) (1 # 100000) st.
Let ks := chosen n dt f0 f1.
Let size := (nq n * dt)%Q.

Lemma busy_both_l a b us s : In s (busy_both a b (nq n * dt) us) -> In s (busy_in a (nq n * dt) us).
Proof. unfold busy_both, busy_in. rewrite !filter_In, andb_true_iff. tauto. Qed.
Lemma both_some a b us : busy_both a b (nq n * dt) us <> [] -> busy_in a (nq n * dt) us <> [].
Proof. intros H E. destruct (busy_both a b (nq n * dt) us) as [|s l] eqn:B; [contradiction|]. assert (X : In s (busy_in a (nq n * dt) us)) by (apply (busy_both_l a b); rewrite B; now left). rewrite E in X. destruct X. Qed.

Definition same_lists (e2 : option events) : bool := match e2 with None => true | Some _ => false end.
Definition ref_list (e1 : events) (e2 : option events) : events := match e2 with Some e => e | None => e1 end.

Lemma lag_main (up : bool) e1 e2 en1 en2 ivs rb : 
  common_gti srt e1 e2 = Ok g ->
  nondecreasing (ev_time e1) -> ev_energy e1 = Some en1 -> length en1 = length (ev_time e1) ->
  nondecreasing (ev_time (ref_list e1 e2)) -> ev_energy (ref_list e1 e2) = Some en2 -> length en2 = length (ev_time (ref_list e1 e2)) ->
  let ref := band_times (ev_time (ref_list e1 e2)) en2 rb in
  (forall iv, In iv ivs -> exists l, cross_two_gtis srt [iv] [rb] = Ok l) ->
  (busy_in ref size st = [] -> lag_spectrum numba srt up e1 e2 ivs [rb] f0 f1 dt seg = Err AttributeError) /\
  (busy_in ref size st <> [] -> exists rows, lag_spectrum numba srt up e1 e2 ivs [rb] f0 f1 dt seg = Ok rows /\
     Forall2 (fun iv v => exists common, overlaps srt (same_lists e2) iv [rb] = Ok common /\ lag_is common (band_times (ev_time e1) en1 iv) ref n dt st ks v) ivs rows).
Proof.
  intros Eg Ht1 Ee1 El1 Ht2 Ee2 El2 ref OV. assert (Hr : nondecreasing ref) by now apply band_sorted.
  unfold lag_spectrum. rewrite Eg. cbn [bind get nth_error]. fold (ref_list e1 e2). rewrite (times_ok _ en2 rb Ee2 El2). cbn [bind]. fold ref.
  destruct (pds_at numba g seg dt n st Hd Hn Er Hg Hst ref NoNorm KNone Hr eq_refl) as [B0 B]. cbv zeta in B0, B. fold size in B0, B.
  split; [intros E; rewrite (B0 E); reflexivity|]. intros NR. destruct (B NR) as (t & Et & Em & _ & Ef & Ep). rewrite Et. cbn [bind poisson_level]. rewrite Ef, Ep, good_ok, !mask_get_maps. cbn [bind].
  change (filter (good_k n dt f0 f1) (seq 1 (n_pos n))) with ks. clear B0 B.
  apply mr_rel_in. intros iv Hiv.
  rewrite (times_ok e1 en1 iv Ee1 El1). cbn [bind]. set (sub := band_times (ev_time e1) en1 iv). assert (Hs : nondecreasing sub) by now apply band_sorted.
    assert (O : exists common, overlaps srt (same_lists e2) iv [rb] = Ok common).
    { unfold overlaps. destruct (same_lists e2); [|eauto]. destruct (OV iv Hiv) as [l El]. rewrite El. cbn [bind]. eauto. }
    destruct O as [common Ec]. fold (same_lists e2). rewrite Ec.
    destruct (cs_at numba g seg dt n st Hd Hn Er Hg Hst sub ref NoNorm KNone Hs Hr eq_refl) as [C0 C1]. cbv zeta in C0, C1. fold size in C0, C1.
    destruct (pds_at numba g seg dt n st Hd Hn Er Hg Hst sub NoNorm KNone Hs eq_refl) as [P0 P1]. cbv zeta in P0, P1. fold size in P0, P1.
    set (us := busy_both sub ref size st) in *. set (ua := busy_in sub size st) in *. set (ur := busy_in ref size st) in *.
    destruct us as [|u0 us'] eqn:EU.
    { rewrite (C0 eq_refl). cbn [bind]. assert (PV : exists o, avg_pds_from_timeseries numba sub g (Some seg) dt NoNorm true None None false = Ok o).
      { destruct ua as [|x l] eqn:EA; [eauto|]. destruct P1 as (t' & Et' & _); [discriminate|eauto]. }
      destruct PV as [o Eo]. rewrite Eo. cbn [bind]. exists (None, None). split; [reflexivity|]. exists common. split; [reflexivity|]. unfold lag_is. fold size us. rewrite EU. split; [reflexivity|]. intros X. contradiction. }
    rewrite <- EU in *. assert (NU : us <> []) by (rewrite EU; discriminate). clear EU u0 us' C0. assert (NA : ua <> []) by (unfold ua; now apply (both_some sub ref st)).
    destruct (C1 NU) as (c & Ecs & _ & _ & Ecp). destruct (P1 NA) as (p & Eps & Epm & _ & _ & Epp). rewrite Ecs, Eps. cbn [bind poisson_level]. rewrite Ecp, Epp, !mask_get_maps. cbn [bind]. change (filter (good_k n dt f0 f1) (seq 1 (n_pos n))) with ks.
    eexists. split; [reflexivity|]. exists common. split; [reflexivity|]. unfold lag_is. fold size us ua ur. set (x := raw_cross sub ref dt n us). 
    assert (EX : map (fun k => cscal (x k) (factor KNone (Q2R dt) n (gmean (mean_photons sub size us) (mean_photons ref size us) / INR n) (gmean (mean_photons sub size us) (mean_photons ref size us)))) ks = map x ks).
    { apply map_ext. intros k. apply cscal_one. }
    rewrite EX. assert (EP : forall z us' h1 h2, map (fun k => raw_power z dt n us' k * factor KNone (Q2R dt) n h1 h2) ks = map (raw_power z dt n us') ks) by (intros; apply map_ext; intros; cbn; ring). rewrite !EP. clear EX EP Ecp Epp C1 P0 P1.
    rewrite n_good_ok. change (filter (good_k n dt f0 f1) (seq 1 (n_pos n))) with ks. rewrite Em, Epm.
    assert (K0 : ks = [] -> match ocmean (map x ks) with Some cm => Some cm | None => None end = None) by (intros ->; reflexivity).
    destruct (list_eq_dec Nat.eq_dec ks []) as [KE|KE].
    { rewrite KE. split; [reflexivity|]. intros _ X. contradiction. }
    rewrite (ocmean_ok x ks KE), (omean_ok _ ks KE), (omean_ok _ ks KE).
    unfold lag_row. rewrite !map_map, combine_maps, map_map. cbn [fst snd]. set (W := rlsum (map (fun k => cabs (x k)) ks)). set (F := rlsum (map (fun k => freq_of n dt k * cabs (x k)) ks)).
    destruct (Req_EM_T W 0) as [W0|W0].
    { rewrite W0, fdiv_none. split; [|intros _ _ X; lra]. intros _. destruct (phase_error _ _ _ _ _ _ _); reflexivity. }
    rewrite (fdiv_some F W W0). assert (FM : F / W = mean_freq n dt x ks) by reflexivity. rewrite FM.
    assert (MF : 0 < mean_freq n dt x ks).
    { apply (Rlt_le_trans _ (1 / length_of n dt)); [apply Rdiv_lt_0_compat; [lra|now apply length_pos]|]. apply mean_freq_ge; [|exact W0]. intros k Hk. apply freq_first; auto. now apply (freq_lower n dt k f0 f1). }
    assert (PP : 2 * PI * mean_freq n dt x ks <> 0) by (pose proof PI_RGT_0; apply Rgt_not_eq; apply Rmult_lt_0_compat; lra). 
    split; [intros [X|[X|X]]; contradiction|]. intros _ _ _. rewrite (fdiv_some _ _ PP). split; [reflexivity|].
    exists (phase_error common (cavg x ks) (avg (raw_power sub dt n ua) ks) (avg (raw_power ref dt n ur) ks) (length ks * length ur) (INR (length sub) / INR (length ua)) (INR (length ref) / INR (length ur))). split.
    - apply phase_error_ok. destruct ks; [contradiction|]. destruct ur; [contradiction|]. cbn [length]. nia.
    - destruct (phase_error _ _ _ _ _ _ _); cbn [option_map snd]; [now rewrite (fdiv_some _ _ PP)|reflexivity].
Qed.

Lemma cov_main (up complex frac : bool) (minph : Q) e1 e2 en1 en2 ivs rb :
  common_gti srt e1 e2 = Ok g ->
  nondecreasing (ev_time e1) -> ev_energy e1 = Some en1 -> length en1 = length (ev_time e1) ->
  nondecreasing (ev_time (ref_list e1 e2)) -> ev_energy (ref_list e1 e2) = Some en2 -> length en2 = length (ev_time (ref_list e1 e2)) ->
  let ref := band_times (ev_time (ref_list e1 e2)) en2 rb in
  (forall iv, In iv ivs -> exists l, cross_two_gtis srt [iv] [rb] = Ok l) ->
  (busy_in ref size st = [] -> covariance_spectrum numba srt up complex frac minph e1 e2 ivs [rb] f0 f1 dt seg = Err TypeError) /\
  (busy_in ref size st <> [] -> exists rows, covariance_spectrum numba srt up complex frac minph e1 e2 ivs [rb] f0 f1 dt seg = Ok rows /\
     Forall2 (fun iv v => exists common, overlaps srt (same_lists e2) iv [rb] = Ok common /\ covariance_is complex frac (Q2R minph) common (band_times (ev_time e1) en1 iv) ref n dt st ks v) ivs rows).
Proof.
  intros Eg Ht1 Ee1 El1 Ht2 Ee2 El2 ref OV. assert (Hr : nondecreasing ref) by now apply band_sorted.
  pose proof (length_pos n dt Hn Hd) as HL. pose proof (q2r_pos dt Hd) as HD. assert (IN : 0 < INR n) by (apply lt_0_INR; lia).
  unfold covariance_spectrum. rewrite Eg. cbn [bind get nth_error]. fold (ref_list e1 e2). rewrite (times_ok _ en2 rb Ee2 El2). cbn [bind]. fold ref.
  destruct (rate_at g seg dt n st Hd Hn Er Hg Hst ref Hr) as (rr & Err & Vrr & Nst). rewrite Err. cbn [bind poisson_level]. fold size in Vrr. 
  assert (NRV : 2 * Q2R rr = abs_noise (mean_photons ref size st) n dt) by (rewrite Vrr; reflexivity). rewrite NRV.
  destruct (pds_at numba g seg dt n st Hd Hn Er Hg Hst ref AbsNorm KAbs Hr eq_refl) as [B0 B]. cbv zeta in B0, B. fold size in B0, B.
  split; [intros E; rewrite (B0 E); reflexivity|]. intros NR. destruct (B NR) as (t & Et & Em & _ & Ef & Ep). rewrite Et. cbn [bind]. rewrite Ef, Ep, good_ok, n_good_ok, mask_get_maps. cbn [bind].
  change (filter (good_k n dt f0 f1) (seq 1 (n_pos n))) with ks. clear B0 B.
  assert (WE : INR (length ks) * (1 / Q2R seg) = INR (length ks) / length_of n dt) by (rewrite (q2r_seg n dt seg Er); field; lra). rewrite WE. set (width := INR (length ks) / length_of n dt).
  apply mr_rel_in. intros iv Hiv.
  rewrite (times_ok e1 en1 iv Ee1 El1). cbn [bind]. set (sub := band_times (ev_time e1) en1 iv). assert (Hs : nondecreasing sub) by now apply band_sorted.
    assert (O : exists common, overlaps srt (same_lists e2) iv [rb] = Ok common).
    { unfold overlaps. destruct (same_lists e2); [|eauto]. destruct (OV iv Hiv) as [l El]. rewrite El. cbn [bind]. eauto. }
    destruct O as [common Ec]. fold (same_lists e2). rewrite Ec.
    destruct (rate_at g seg dt n st Hd Hn Er Hg Hst sub Hs) as (ra & Era & Vra & _). fold size in Vra. rewrite Era. cbn [bind poisson_level]. rewrite (enough_ok ra seg _ _ minph Vra (q2r_seg n dt seg Er) HL).
    set (pa := mean_photons sub size st) in *. assert (NAV : 2 * Q2R ra = abs_noise pa n dt) by (rewrite Vra; reflexivity). rewrite NAV.
    destruct (Rle_dec (Q2R minph) pa) as [PA|PA]; cbn [negb].
    2:{ exists (None, None). split; [reflexivity|]. exists common. split; [reflexivity|]. unfold covariance_is. fold size. fold pa. split; [reflexivity|]. intros X. contradiction. }
    destruct (cs_at numba g seg dt n st Hd Hn Er Hg Hst sub ref AbsNorm KAbs Hs Hr eq_refl) as [C0 C1]. cbv zeta in C0, C1. fold size in C0, C1.
    destruct (pds_at numba g seg dt n st Hd Hn Er Hg Hst sub AbsNorm KAbs Hs eq_refl) as [P0 P1]. cbv zeta in P0, P1. fold size in P0, P1.
    set (us := busy_both sub ref size st) in *. set (ua := busy_in sub size st) in *. set (ur := busy_in ref size st) in *.
    destruct us as [|u0 us'] eqn:EU.
    { rewrite (C0 eq_refl). cbn [bind]. assert (PV : exists o, avg_pds_from_timeseries numba sub g (Some seg) dt AbsNorm true None None false = Ok o).
      { destruct ua as [|x l] eqn:EA; [eauto|]. destruct P1 as (t' & Et' & _); [discriminate|eauto]. }
      destruct PV as [o Eo]. rewrite Eo. cbn [bind]. exists (None, None). split; [reflexivity|]. exists common. split; [reflexivity|]. unfold covariance_is. fold size us. rewrite EU. split; [reflexivity|]. intros _ X. contradiction. }
    rewrite <- EU in *. assert (NU : us <> []) by (rewrite EU; discriminate). clear EU u0 us' C0. assert (NA : ua <> []) by (unfold ua; now apply (both_some sub ref st)).
    destruct (C1 NU) as (c & Ecs & _ & _ & Ecp). destruct (P1 NA) as (p & Eps & Epm & Epmean & _ & Epp). rewrite Ecs, Eps. cbn [bind]. rewrite Ecp, Epp, !mask_get_maps. cbn [bind]. change (filter (good_k n dt f0 f1) (seq 1 (n_pos n))) with ks.
    eexists. split; [reflexivity|]. exists common. split; [reflexivity|]. unfold covariance_is. fold size. fold pa us ua ur width. clear Ecp Epp C1 P0 P1.
    assert (FA : forall a b, factor KAbs (Q2R dt) n a b = abs_factor n dt) by reflexivity.
    rewrite !FA.
    destruct (list_eq_dec Nat.eq_dec ks []) as [KE|KE].
    { rewrite KE. split; [reflexivity|]. intros _ _ X. contradiction. }
    rewrite (ocmean_ok _ ks KE), (omean_ok _ ks KE), (omean_ok _ ks KE).
    set (mc := cavg (fun k => cscal (raw_cross sub ref dt n us k) (abs_factor n dt)) ks). set (ps := avg (fun k => raw_power sub dt n ua k * abs_factor n dt) ks). set (pf := avg (fun k => raw_power ref dt n ur k * abs_factor n dt) ks).
    replace (p_mean p / Q2R dt) with (mean_photons sub size ua / length_of n dt) by (rewrite Epmean; unfold length_of; field; lra). rewrite Em.
    set (rate := mean_photons sub size ua / length_of n dt). set (z := if common then csub mc (rtoc (abs_noise pa n dt)) else mc). set (nr := abs_noise (mean_photons ref size st) n dt).
    assert (RP : 0 < rate) by (apply Rdiv_lt_0_compat; [assert (2 <= mean_photons sub size ua) by (apply (busy_photons sub size st); auto); lra|exact HL]).
    assert (KP : (0 < length ks)%nat) by (destruct ks; [contradiction|cbn; lia]). assert (WP : 0 < width) by (apply Rdiv_lt_0_compat; [now apply lt_0_INR|exact HL]).
    unfold covariance_row. destruct (Rle_dec pf nr) as [NP|NP].
    - assert (X : (flet q := fdiv width (pf - nr) in fsqrt q) = None).
      { destruct (Req_EM_T pf nr) as [Z|Z]; [replace (pf - nr) with 0 by lra; rewrite fdiv_none; reflexivity|]. rewrite fdiv_some by lra. apply fsqrt_none. 
        replace (width / (pf - nr)) with (- (width / (nr - pf))) by (field; lra). assert (0 < width / (nr - pf)) by (apply Rdiv_lt_0_compat; lra). lra. }
      rewrite X. split; [|intros _ _ _ Y; lra]. intros _. destruct (modulus_error _ _ _ _ _ _ _), frac; reflexivity.
    - assert (X : (flet q := fdiv width (pf - nr) in fsqrt q) = Some (sqrt (width / (pf - nr)))).
      { rewrite fdiv_some by lra. apply fsqrt_some. left. apply Rdiv_lt_0_compat; lra. }
      rewrite X. split; [intros [Y|[Y|[Y|Y]]]; [lra|contradiction|contradiction|lra]|]. intros _ _ _ _. split.
      + destruct frac; cbn [fst]; [|reflexivity]. rewrite fdiv_some by lra. unfold cscaled_by. do 2 f_equal. unfold Rdiv. ring.
      + exists (modulus_error common z ps pf (length ur * length ks) (abs_noise pa n dt) nr). split.
        * apply modulus_error_ok. destruct ur; [contradiction|]. cbn [length]. nia.
        * destruct (modulus_error _ _ _ _ _ _ _), frac; cbn [snd option_map scaled_by]; try reflexivity. now rewrite fdiv_some by lra.
Qed.
End LagCov.
