(* P_vspec2.v: the rms spectrum. *)
From Coq Require Import Reals Qreals.
From Verif Require Import Np Lib M_gti M_seg M_utils M_exvar Cplx M_fourier M_flux M_vspec S_gti S_seg S_utils S_flux S_fourier S_vspec P_exvar P_helpers P_segan P_norm P_avg P_rms2 P_flux P_flux2 P_vspec.
From Coq Require Import Reals Qreals List Bool Arith Lra Lia.
Import ListNotations.
Open Scope R_scope.

Lemma q2r_pos q : (0 < q)%Q -> 0 < Q2R q.
Proof. intros H. rewrite <- RMicromega.Q2R_0. now apply Qlt_Rlt. Qed.
Lemma length_pos n dt : (0 < n)%nat -> (0 < dt)%Q -> 0 < length_of n dt.
Proof. intros Hn Hd. unfold length_of. apply Rmult_lt_0_compat; [apply lt_0_INR; lia|now apply q2r_pos]. Qed.
Lemma q2r_nat m : Q2R (nq m) = INR m.
Proof. unfold Q2R, inject_Z; cbn [Qnum Qden]; rewrite INR_IZR_INZ; field. Qed.
Lemma q2r_seg n dt seg : (seg == nq n * dt)%Q -> Q2R seg = length_of n dt.
Proof. intros E. rewrite (Qeq_eqR _ _ E), Q2R_mult, q2r_nat. reflexivity. Qed.
Lemma filter_none {A} (f : A -> bool) l : (forall a, In a l -> f a = false) -> filter f l = [].
Proof. induction l as [|a l IH]; intros H; [reflexivity|]. cbn [filter]. rewrite (H a) by now left. apply IH. intros b Hb. apply H. now right. Qed.
Lemma filter_all {A} (f : A -> bool) l : (forall a, In a l -> f a = true) -> filter f l = l.
Proof. induction l as [|a l IH]; intros H; [reflexivity|]. cbn [filter]. rewrite (H a) by now left. rewrite IH; [reflexivity|]. intros b Hb. apply H. now right. Qed.
Lemma default_ok n dt seg : (0 < dt)%Q -> (0 < n)%nat -> (seg == nq n * dt)%Q -> default_freq seg dt = map (freq_of n dt) (seq 1 (n_pos n)).
Proof.
  intros Hd Hn E. unfold default_freq. assert (R : rint (seg / dt) = Z.of_nat n).
  { rewrite <- (rint_int (Z.of_nat n)). apply rint_comp. rewrite E. field. intros X. rewrite X in Hd. now apply Qlt_irrefl in Hd. }
  rewrite R, Nat2Z.id. pose proof (length_pos n dt Hn Hd) as L. unfold fftfreq. rewrite filter_app. replace ((n - 1) / 2 + 1)%nat with (S (n_pos n)) by (unfold n_pos; lia). cbn [seq map filter].
  rewrite filter_all with (l := map _ (seq 1 _)).
  - rewrite filter_none with (l := map _ (seq 0 (n / 2))).
    + rewrite app_nil_r. destruct (Rlt_dec 0 (INR 0 / (INR n * Q2R dt))) as [H|H]; [|reflexivity]. exfalso. cbn [INR] in H. unfold Rdiv in H. rewrite Rmult_0_l in H. lra.
    + intros f Hf. apply in_map_iff in Hf. destruct Hf as (i & <- & Hi). apply in_seq in Hi. destruct (Rlt_dec 0 ((INR i - INR (n / 2)) / (INR n * Q2R dt))) as [H|H]; [|reflexivity]. exfalso.
      assert (INR i < INR (n / 2)) by (apply lt_INR; lia). assert (0 < / (INR n * Q2R dt)) by (now apply Rinv_0_lt_compat). unfold Rdiv in H. nra.
  - intros f Hf. apply in_map_iff in Hf. destruct Hf as (i & <- & Hi). apply in_seq in Hi. destruct (Rlt_dec 0 (INR i / (INR n * Q2R dt))) as [H|H]; [reflexivity|]. exfalso. apply H. apply Rdiv_lt_0_compat; [apply lt_0_INR; lia|exact L].
Qed.
Definition good_k (n : nat) (dt : Q) (f0 f1 : R) (k : nat) : bool :=
  ((if Rle_dec f0 (freq_of n dt k) then true else false) && (if Rlt_dec (freq_of n dt k) f1 then true else false))%bool.
Lemma good_ok n dt f0 f1 : good_bins f0 f1 (map (freq_of n dt) (seq 1 (n_pos n))) = map (good_k n dt f0 f1) (seq 1 (n_pos n)).
Proof. unfold good_bins. rewrite map_map. reflexivity. Qed.
Lemma n_good_ok (f : nat -> bool) l : n_good (map f l) = length (filter f l).
Proof. unfold n_good. induction l as [|a l IH]; [reflexivity|]. cbn [map filter]. destruct (f a); cbn [length]; now rewrite IH. Qed.
Lemma omean_ok {A} (f : A -> R) l : l <> [] -> omean (map f l) = Some (avg f l).
Proof. destruct l as [|a l]; [contradiction|]. intros _. unfold omean, avg. rewrite map_length. reflexivity. Qed.
Lemma ocmean_ok {A} (f : A -> cx) l : l <> [] -> ocmean (map f l) = Some (cavg f l).
Proof. intros H. destruct l as [|a l]; [contradiction|]. unfold ocmean. rewrite <- P_avgcs.cavg_clsum, map_length. reflexivity. Qed.
Lemma rms_row_ok frac power dnu ns m k rate : 0 <= power -> 0 <= dnu -> 0 <= ns -> (0 < m)%nat -> (0 < k)%nat -> rate <> 0 -> rms_pair_is frac power dnu ns m k rate (rms_row frac power dnu ns m k rate).
Proof.
  intros Hp Hd Hs Hm Hk Hr. unfold rms_pair_is, rms_row, rms_of. set (r := sqrt (power * dnu)). assert (R0 : 0 <= r) by apply sqrt_pos.
  assert (Im : 0 < INR m) by (apply lt_0_INR; lia). assert (Ik : 0 < INR k) by (apply lt_0_INR; lia).
  assert (E : r <> 0 -> (flet q := fdiv (r ^ 4 + ns ^ 4 + 2 * r * ns) (4 * INR m * INR k * r ^ 2) in fsqrt q) = Some (rms_error r ns m k)).
  { intros H. assert (0 < r) by lra. assert (D : 0 < 4 * INR m * INR k * r ^ 2) by (repeat apply Rmult_lt_0_compat; try lra; apply pow_lt; lra). rewrite fdiv_some by lra. apply fsqrt_some. apply Rle_mult_inv_pos; [|exact D].
    assert (0 <= r ^ 4) by (apply pow_le; lra). assert (0 <= ns ^ 4) by (apply pow_le; lra). nra. }
  assert (E0 : r = 0 -> (flet q := fdiv (r ^ 4 + ns ^ 4 + 2 * r * ns) (4 * INR m * INR k * r ^ 2) in fsqrt q) = None).
  { intros H. replace (4 * INR m * INR k * r ^ 2) with 0 by (rewrite H; ring). now rewrite fdiv_none. }
  unfold scaled_by. destruct frac; cbn [fst snd].
  - split; [now apply fdiv_some|]. split; intros H; [rewrite (E H); now apply fdiv_some|now rewrite (E0 H)].
  - split; [reflexivity|]. split; intros H; [exact (E H)|exact (E0 H)].
Qed.
Lemma rlsum_bound {A} (f : A -> R) l c : (forall a, In a l -> f a <= c) -> rlsum (map f l) <= INR (length l) * c.
Proof.
  induction l as [|a l IH]; intros H; [cbn; lra|]. change (rlsum (map f (a :: l))) with (f a + rlsum (map f l)). cbn [length]. rewrite S_INR. assert (f a <= c) by (apply H; now left). assert (rlsum (map f l) <= INR (length l) * c) by (apply IH; intros b Hb; apply H; now right). lra.
Qed.
Lemma rlsum_bound_low {A} (f : A -> R) l c : (forall a, In a l -> c <= f a) -> INR (length l) * c <= rlsum (map f l).
Proof.
  induction l as [|a l IH]; intros H; [cbn; lra|]. change (rlsum (map f (a :: l))) with (f a + rlsum (map f l)). cbn [length]. rewrite S_INR. assert (c <= f a) by (apply H; now left). assert (INR (length l) * c <= rlsum (map f l)) by (apply IH; intros b Hb; apply H; now right). lra.
Qed.
Lemma avg_low {A} (f : A -> R) l c : l <> [] -> (forall a, In a l -> c <= f a) -> c <= avg f l.
Proof.
  intros N H. unfold avg. assert (0 < INR (length l)) by (apply lt_0_INR; destruct l; [contradiction|cbn; lia]). apply (Rmult_le_reg_r (INR (length l))); [assumption|]. replace (rlsum (map f l) / INR (length l) * INR (length l)) with (rlsum (map f l)) by (field; lra). rewrite Rmult_comm. now apply rlsum_bound_low.
Qed.
Lemma avg_high {A} (f : A -> R) l c : l <> [] -> (forall a, In a l -> f a <= c) -> avg f l <= c.
Proof.
  intros N H. unfold avg. assert (0 < INR (length l)) by (apply lt_0_INR; destruct l; [contradiction|cbn; lia]). apply (Rmult_le_reg_r (INR (length l))); [assumption|]. replace (rlsum (map f l) / INR (length l) * INR (length l)) with (rlsum (map f l)) by (field; lra). rewrite (Rmult_comm c). now apply rlsum_bound.
Qed.
Lemma busy_some sub size st : st <> [] -> 10 <= mean_photons sub size st -> busy_in sub size st <> [].
Proof.
  intros N H E. assert (mean_photons sub size st <= 1); [|lra]. apply avg_high; [exact N|]. intros s Hs. destruct (Nat.leb 2 (events_in sub s (s + size))) eqn:B.
  - assert (X : In s (busy_in sub size st)) by (apply filter_In; auto). rewrite E in X. destruct X.
  - apply Nat.leb_gt in B. change 1 with (INR 1). apply le_INR. lia.
Qed.
Lemma busy_photons sub size st us : us <> [] -> (forall s, In s us -> In s (busy_in sub size st)) -> 2 <= mean_photons sub size us.
Proof.
  intros N H. apply avg_low; [exact N|]. intros s Hs. apply H in Hs. apply filter_In in Hs. destruct Hs as [_ B]. apply Nat.leb_le in B. change 2 with (INR 2). now apply le_INR.
Qed.
Lemma mean_photons_nonneg sub size us : 0 <= mean_photons sub size us.
Proof.
  destruct us as [|u us]; [unfold mean_photons, avg; cbn; unfold Rdiv; rewrite Rmult_0_l; lra|]. apply avg_low; [discriminate|]. intros s _. apply pos_INR.
Qed.
Lemma enough_ok rate seg ph len minph : Q2R rate = ph / len -> Q2R seg = len -> 0 < len -> enough rate seg minph = if Rle_dec (Q2R minph) ph then true else false.
Proof.
  intros Hr Hs Hl. unfold enough. assert (P : Q2R (rate * seg) = ph) by (rewrite Q2R_mult, Hr, Hs; field; lra). destruct (Rle_dec (Q2R minph) ph) as [H|H].
  - apply qle_t. apply Rle_Qle. now rewrite P.
  - apply qle_f. apply Rlt_Qlt. rewrite P. lra.
Qed.
Lemma q2r_10 : Q2R 10 = 10. Proof. unfold Q2R. cbn. field. Qed.

Lemma mr_rel {A B} (f : A -> result B) (P : A -> B -> Prop) l : (forall a, exists b, f a = Ok b /\ P a b) -> exists r, map_result f l = Ok r /\ Forall2 P l r.
Proof.
  intros H. induction l as [|a l (r & E & F)]; [exists []; split; [reflexivity|constructor]|]. destruct (H a) as (b & Eb & Pb). exists (b :: r). cbn [map_result]. rewrite Eb. cbn [bind]. rewrite E. split; [reflexivity|now constructor].
Qed.
Section Rms.
Variables (numba : bool) (srt : list tagged -> list tagged) (frac : bool) (f0 f1 : R) (g : gtis) (seg dt : Q) (n : nat) (st : list Q).
Hypotheses (Hd : (0 < dt)%Q) (Hn : (0 < n)%nat) (Er : (seg == nq n * dt)%Q) (Hg : exists a b, In (a, b) g /\ (seg < b - a + (1 # 100000))%Q).
Hypothesis Hst : segment_grid g (nq n * dt) (1 # 100000) st.
Let ks := chosen n dt f0 f1.
Lemma width_ok : 1 / Q2R seg * INR (length ks) = INR (length ks) / length_of n dt.
Proof. rewrite (q2r_seg n dt seg Er). pose proof (length_pos n dt Hn Hd). field. lra. Qed.
Lemma abs_fac x y : factor KAbs (Q2R dt) n x y = abs_factor n dt. Proof. reflexivity. Qed.
Lemma noise_nonneg ph : 0 <= ph -> 0 <= abs_noise ph n dt.
Proof. intros H. unfold abs_noise. pose proof (length_pos n dt Hn Hd). assert (0 <= ph / length_of n dt) by (now apply Rle_mult_inv_pos). lra. Qed.

Lemma rms_auto (up : bool) ev en ivs : ev_gti ev = g -> nondecreasing (ev_time ev) -> ev_energy ev = Some en -> length en = length (ev_time ev) ->
  exists rows, rms_spectrum numba srt up ev None ivs f0 f1 dt seg frac = Ok rows /\ Forall2 (fun iv v => rms_auto_is frac (band_times (ev_time ev) en iv) n dt st ks v) ivs rows.
Proof.
  intros Eg Ht Ee El. unfold rms_spectrum, common_gti. cbn [bind]. rewrite Eg, (default_ok n dt seg Hd Hn Er), good_ok, n_good_ok. change (filter (good_k n dt f0 f1) (seq 1 (n_pos n))) with ks. rewrite width_ok.
  set (width := INR (length ks) / length_of n dt). pose proof (length_pos n dt Hn Hd) as HL. pose proof (q2r_pos dt Hd) as HD. assert (IN : 0 < INR n) by (apply lt_0_INR; lia).
  assert (W0 : 0 <= width) by (apply Rle_mult_inv_pos; [apply pos_INR|exact HL]).
  apply mr_rel. intros iv. rewrite (times_ok ev en iv Ee El). cbn [bind]. set (sub := band_times (ev_time ev) en iv). assert (Hs : nondecreasing sub) by now apply band_sorted.
  destruct (rate_at g seg dt n st Hd Hn Er Hg Hst sub Hs) as (rate & Erate & Vrate & Nst). rewrite Erate. cbn [bind poisson_level].
  rewrite (enough_ok rate seg _ _ 10 Vrate (q2r_seg n dt seg Er) HL), q2r_10. set (ph := mean_photons sub (nq n * dt) st) in *.
  assert (NZ : 2 * Q2R rate = abs_noise ph n dt) by (rewrite Vrate; reflexivity).
  destruct (Rle_dec 10 ph) as [P|P]; cbn [negb].
  2:{ eexists. split; [reflexivity|]. split; [reflexivity|]. fold ph. intros X. lra. }
  pose proof (busy_some sub (nq n * dt) st Nst P) as NB. destruct (pds_at numba g seg dt n st Hd Hn Er Hg Hst sub AbsNorm KAbs Hs eq_refl) as [_ B]. cbv zeta in B.
  destruct (B NB) as (t & Et & Em & Emean & _ & Epow). rewrite Et. cbn [bind]. rewrite Epow, mask_get_maps. cbn [bind]. change (filter (good_k n dt f0 f1) (seq 1 (n_pos n))) with ks.
  set (us := busy_in sub (nq n * dt) st) in *. eexists. split; [reflexivity|]. unfold rms_auto_is. fold ph us. split.
  - intros [X|X]; [lra|]. rewrite X. reflexivity.
  - intros _ K. split; [exact NB|]. rewrite (omean_ok _ ks K). rewrite Em, NZ. replace (p_mean t / Q2R dt) with (mean_photons sub (nq n * dt) us / length_of n dt) by (rewrite Emean; unfold length_of; field; lra).
    fold width. apply rms_row_ok; [apply Rabs_pos|exact W0|apply sqrt_pos| | |].
    + destruct us; [contradiction|cbn; lia].
    + destruct ks; [contradiction|cbn; lia].
    + assert (2 <= mean_photons sub (nq n * dt) us) by (apply (busy_photons sub (nq n * dt) st); auto). apply Rgt_not_eq. apply Rdiv_lt_0_compat; lra.
Qed.
Lemma busy_both_in a b us s : In s (busy_both a b (nq n * dt) us) -> In s (busy_in a (nq n * dt) us) /\ In s (busy_in b (nq n * dt) us).
Proof. unfold busy_both, busy_in. rewrite !filter_In, andb_true_iff. tauto. Qed.
Lemma gmean_pos a b : 0 < a -> 0 < b -> 0 < gmean a b.
Proof. intros A B. apply sqrt_lt_R0. now apply Rmult_lt_0_compat. Qed.
Lemma rms_cross (up : bool) e1 e2 en1 en2 ivs : cross_two_gtis srt (ev_gti e1) (ev_gti e2) = Ok g ->
  nondecreasing (ev_time e1) -> ev_energy e1 = Some en1 -> length en1 = length (ev_time e1) ->
  nondecreasing (ev_time e2) -> ev_energy e2 = Some en2 -> length en2 = length (ev_time e2) ->
  exists rows, rms_spectrum numba srt up e1 (Some e2) ivs f0 f1 dt seg frac = Ok rows /\
    Forall2 (fun iv v => rms_cross_is frac (band_times (ev_time e1) en1 iv) (band_times (ev_time e2) en2 iv) n dt st ks v) ivs rows.
Proof.
  intros Eg Ht1 Ee1 El1 Ht2 Ee2 El2. unfold rms_spectrum, common_gti. rewrite Eg. cbn [bind]. rewrite (default_ok n dt seg Hd Hn Er), good_ok, n_good_ok. change (filter (good_k n dt f0 f1) (seq 1 (n_pos n))) with ks. rewrite width_ok.
  set (width := INR (length ks) / length_of n dt). pose proof (length_pos n dt Hn Hd) as HL. pose proof (q2r_pos dt Hd) as HD. assert (IN : 0 < INR n) by (apply lt_0_INR; lia).
  assert (W0 : 0 <= width) by (apply Rle_mult_inv_pos; [apply pos_INR|exact HL]).
  apply mr_rel. intros iv. rewrite (times_ok e1 en1 iv Ee1 El1), (times_ok e2 en2 iv Ee2 El2). cbn [bind]. set (sa := band_times (ev_time e1) en1 iv). set (sb := band_times (ev_time e2) en2 iv).
  assert (Ha : nondecreasing sa) by now apply band_sorted. assert (Hb : nondecreasing sb) by now apply band_sorted.
  destruct (rate_at g seg dt n st Hd Hn Er Hg Hst sa Ha) as (ra & Ea & Va & Nst). destruct (rate_at g seg dt n st Hd Hn Er Hg Hst sb Hb) as (rb & Eb & Vb & _). rewrite Ea, Eb. cbn [bind poisson_level].
  rewrite (enough_ok ra seg _ _ 10 Va (q2r_seg n dt seg Er) HL), (enough_ok rb seg _ _ 10 Vb (q2r_seg n dt seg Er) HL), q2r_10. set (pa := mean_photons sa (nq n * dt) st) in *. set (pb := mean_photons sb (nq n * dt) st) in *.
  assert (NA : 2 * Q2R ra = abs_noise pa n dt) by (rewrite Va; reflexivity). assert (NB : 2 * Q2R rb = abs_noise pb n dt) by (rewrite Vb; reflexivity).
  destruct (Rle_dec 10 pa) as [PA|PA]; cbn [negb].
  2:{ eexists. split; [reflexivity|]. split; [reflexivity|]. fold pa. intros X. lra. }
  destruct (Rle_dec 10 pb) as [PB|PB]; cbn [negb].
  2:{ eexists. split; [reflexivity|]. split; [reflexivity|]. fold pb. intros _ X. lra. }
  destruct (cs_at numba g seg dt n st Hd Hn Er Hg Hst sa sb AbsNorm KAbs Ha Hb eq_refl) as [B0 B]. cbv zeta in B0, B. set (us := busy_both sa sb (nq n * dt) st) in *.
  destruct us as [|u0 us'] eqn:EU.
  { rewrite (B0 eq_refl). cbn [bind]. eexists. split; [reflexivity|]. split; [reflexivity|]. fold us. rewrite EU. intros _ _ X. contradiction. }
  rewrite <- EU in *. clear B0. assert (NU : us <> []) by (rewrite EU; discriminate). clear EU u0 us'.
  destruct (B NU) as (t & Et & Em & Emean & Epow). rewrite Et. cbn [bind]. rewrite Epow, mask_get_maps. cbn [bind]. change (filter (good_k n dt f0 f1) (seq 1 (n_pos n))) with ks.
  eexists. split; [reflexivity|]. unfold rms_cross_is. fold pa pb us. split.
  - intros [X|[X|[X|X]]]; [lra|lra|contradiction|]. rewrite X. reflexivity.
  - intros _ _ _ K. rewrite (ocmean_ok _ ks K). rewrite Em, NA, NB. 
    replace (c_mean t / Q2R dt) with (gmean (mean_photons sa (nq n * dt) us) (mean_photons sb (nq n * dt) us) / length_of n dt) by (rewrite Emean; unfold length_of; field; lra).
    fold width. apply rms_row_ok; [apply sqrt_pos|exact W0|apply sqrt_pos| | |].
    + destruct us; [contradiction|cbn; lia].
    + destruct ks; [contradiction|cbn; lia].
    + assert (2 <= mean_photons sa (nq n * dt) us) by (apply (busy_photons sa (nq n * dt) st); [exact NU|intros s Hs; now apply busy_both_in in Hs]). 
      assert (2 <= mean_photons sb (nq n * dt) us) by (apply (busy_photons sb (nq n * dt) st); [exact NU|intros s Hs; now apply busy_both_in in Hs]). apply Rgt_not_eq. apply Rdiv_lt_0_compat; [apply gmean_pos; lra|exact HL].
Qed.
End Rms.
