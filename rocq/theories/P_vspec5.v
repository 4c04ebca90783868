(* P_vspec5.v: consequences: bands and reference, bounds and exact cases of lags, covariance and rms, failures. *)
From Coq Require Import Reals Qreals.
From Verif Require Import Np Lib M_gti M_seg M_utils M_exvar Cplx M_fourier M_flux M_vspec S_gti S_seg S_utils S_flux S_fourier S_vspec P_dft P_lag P_exvar P_helpers P_segan P_norm P_avg P_rms2 P_flux P_flux2 P_flux3 P_gti_cross P_gti_final P_vspec P_vspec2 P_vspec3 P_vspec4.
From Coq Require Import Reals Qreals List Bool Arith Lra Lia.
Import ListNotations.
Open Scope R_scope.

Section Final.
Variables (numba : bool) (srt : list tagged -> list tagged) (f0 f1 : R) (g : gtis) (seg dt : Q) (n : nat) (st : list Q).
Hypotheses (Hd : (0 < dt)%Q) (Hn : (0 < n)%nat) (Er : (seg == nq n * dt)%Q) (Hg : exists a b, In (a, b) g /\ (seg < b - a + (1 # 100000))%Q).
Hypothesis Hst : segment_grid g (nq n * dt) (1 # 100000) st.
Hypothesis Hs : sorts_by t_end srt.
Let ks := chosen n dt f0 f1.
Let size := (nq n * dt)%Q.

Lemma lag_final (up : bool) e1 e2 en1 en2 ivs rb : 
  common_gti srt e1 e2 = Ok g ->
  nondecreasing (ev_time e1) -> ev_energy e1 = Some en1 -> length en1 = length (ev_time e1) ->
  nondecreasing (ev_time (ref_list e1 e2)) -> ev_energy (ref_list e1 e2) = Some en2 -> length en2 = length (ev_time (ref_list e1 e2)) ->
  (fst rb < snd rb)%Q -> Forall (fun iv => fst iv < snd iv)%Q ivs ->
  let ref := band_times (ev_time (ref_list e1 e2)) en2 rb in
  (busy_in ref size st = [] -> lag_spectrum numba srt up e1 e2 ivs [rb] f0 f1 dt seg = Err AttributeError) /\
  (busy_in ref size st <> [] -> exists rows, lag_spectrum numba srt up e1 e2 ivs [rb] f0 f1 dt seg = Ok rows /\
     Forall2 (fun iv v => exists common, (common = true <-> (e2 = None /\ share iv rb)) /\ lag_is common (band_times (ev_time e1) en1 iv) ref n dt st ks v) ivs rows).
Proof.
  intros Eg Ht1 Ee1 El1 Ht2 Ee2 El2 Hrb Hiv ref. rewrite Forall_forall in Hiv.
  destruct (lag_main numba srt f0 f1 g seg dt n st Hd Hn Er Hg Hst up e1 e2 en1 en2 ivs rb Eg Ht1 Ee1 El1 Ht2 Ee2 El2) as [A B].
  { intros iv H. now apply cross_pair_ok; auto. }
  split; [exact A|]. intros NR. destruct (B NR) as (rows & E & F). exists rows. split; [exact E|]. clear - F Hiv Hrb Hs. fold ks in F. fold ref in F. induction F as [|iv v ivs rows (o & Eo & L) F IH]; constructor; [|apply IH; intros; apply Hiv; now right].
  exists o. split; [|exact L]. destruct e2 as [e2|]; cbn [same_lists] in Eo.
  - cbn in Eo. injection Eo as <-. split; [discriminate|intros [X _]; discriminate].
  - destruct (overlaps_same srt iv rb Hs (Hiv iv (or_introl eq_refl)) Hrb) as (o' & Eo' & H). rewrite Eo in Eo'. injection Eo' as <-. tauto.
Qed.
Lemma cov_final (up complex frac : bool) (minph : Q) e1 e2 en1 en2 ivs rb : 
  common_gti srt e1 e2 = Ok g ->
  nondecreasing (ev_time e1) -> ev_energy e1 = Some en1 -> length en1 = length (ev_time e1) ->
  nondecreasing (ev_time (ref_list e1 e2)) -> ev_energy (ref_list e1 e2) = Some en2 -> length en2 = length (ev_time (ref_list e1 e2)) ->
  (fst rb < snd rb)%Q -> Forall (fun iv => fst iv < snd iv)%Q ivs ->
  let ref := band_times (ev_time (ref_list e1 e2)) en2 rb in
  (busy_in ref size st = [] -> covariance_spectrum numba srt up complex frac minph e1 e2 ivs [rb] f0 f1 dt seg = Err TypeError) /\
  (busy_in ref size st <> [] -> exists rows, covariance_spectrum numba srt up complex frac minph e1 e2 ivs [rb] f0 f1 dt seg = Ok rows /\
     Forall2 (fun iv v => exists common, (common = true <-> (e2 = None /\ share iv rb)) /\ covariance_is complex frac (Q2R minph) common (band_times (ev_time e1) en1 iv) ref n dt st ks v) ivs rows).
Proof.
  intros Eg Ht1 Ee1 El1 Ht2 Ee2 El2 Hrb Hiv ref. rewrite Forall_forall in Hiv.
  destruct (cov_main numba srt f0 f1 g seg dt n st Hd Hn Er Hg Hst up complex frac minph e1 e2 en1 en2 ivs rb Eg Ht1 Ee1 El1 Ht2 Ee2 El2) as [A B].
  { intros iv H. now apply cross_pair_ok; auto. }
  split; [exact A|]. intros NR. destruct (B NR) as (rows & E & F). exists rows. split; [exact E|]. clear - F Hiv Hrb Hs. fold ks in F. fold ref in F. induction F as [|iv v ivs rows (o & Eo & L) F IH]; constructor; [|apply IH; intros; apply Hiv; now right].
  exists o. split; [|exact L]. destruct e2 as [e2|]; cbn [same_lists] in Eo.
  - cbn in Eo. injection Eo as <-. split; [discriminate|intros [X _]; discriminate].
  - destruct (overlaps_same srt iv rb Hs (Hiv iv (or_introl eq_refl)) Hrb) as (o' & Eo' & H). rewrite Eo in Eo'. injection Eo' as <-. tauto.
Qed.
End Final.

(* ---- lags ---- *)
Lemma angle_bound z : - PI < angle z <= PI.
Proof.
  pose proof PI_RGT_0. unfold angle. destruct z as [x y]. cbn [re im fst snd].
  destruct (Rlt_dec 0 x); [pose proof (atan_bound (y / x)); lra|]. destruct (Rlt_dec x 0).
  - destruct (Rle_dec 0 y).
    + assert (y / x <= 0). { unfold Rdiv. assert (/ x < 0) by (now apply Rinv_lt_0_compat). nra. }
      assert (atan (y / x) <= 0). { destruct (Req_EM_T (y / x) 0) as [->|]; [rewrite atan_0; lra|]. left. rewrite <- atan_0. apply atan_increasing. lra. }
      pose proof (atan_bound (y / x)). lra.
    + assert (0 < y / x). { unfold Rdiv. assert (/ x < 0) by (now apply Rinv_lt_0_compat). nra. }
      assert (0 < atan (y / x)). { rewrite <- atan_0. now apply atan_increasing. }
      pose proof (atan_bound (y / x)). lra.
  - destruct (Rlt_dec 0 y); [lra|]. destruct (Rlt_dec y 0); lra.
Qed.
Lemma lag_value common a r n dt st ks v x : lag_is common a r n dt st ks v -> fst v = Some x ->
  let us := busy_both a r (nq n * dt) st in let X := raw_cross a r dt n us in
  us <> [] /\ ks <> [] /\ rlsum (map (fun k => cabs (X k)) ks) <> 0 /\ x = angle (cavg X ks) / (2 * PI * mean_freq n dt X ks).
Proof.
  intros [A B] E us X. assert (N : v <> (None, None)) by (intros ->; discriminate E).
  assert (N1 : us <> []) by (intros H; apply N, A; now left). assert (N2 : ks <> []) by (intros H; apply N, A; now right; left).
  assert (N3 : rlsum (map (fun k => cabs (X k)) ks) <> 0) by (intros H; apply N, A; now right; right).
  split; [exact N1|]. split; [exact N2|]. split; [exact N3|]. destruct (B N1 N2 N3) as [C _]. rewrite E in C. now injection C.
Qed.
Lemma lag_bound common a r n dt st f0 f1 v x : 0 < f0 -> lag_is common a r n dt st (chosen n dt f0 f1) v -> fst v = Some x -> Rabs x <= 1 / (2 * f0).
Proof.
  intros F L E. destruct (lag_value _ _ _ _ _ _ _ _ _ L E) as (_ & _ & W & ->). set (X := raw_cross a r dt n (busy_both a r (nq n * dt) st)) in *.
  assert (M : f0 <= mean_freq n dt X (chosen n dt f0 f1)) by (apply mean_freq_ge; [|exact W]; intros k Hk; now apply freq_lower in Hk). set (m := mean_freq n dt X (chosen n dt f0 f1)) in *.
  pose proof PI_RGT_0. pose proof (angle_bound (cavg X (chosen n dt f0 f1))) as AB. set (t := angle _) in *.
  assert (RA : Rabs t <= PI) by (apply Rabs_le; lra). unfold Rdiv at 1. rewrite Rabs_mult, Rabs_inv. rewrite (Rabs_right (2 * PI * m)) by (apply Rle_ge; left; apply Rmult_lt_0_compat; lra).
  apply (Rle_trans _ (PI * / (2 * PI * m))).
  - apply Rmult_le_compat_r; [left; apply Rinv_0_lt_compat; apply Rmult_lt_0_compat; lra|exact RA].
  - replace (PI * / (2 * PI * m)) with (1 / (2 * m)) by (field; lra). unfold Rdiv. rewrite !Rmult_1_l. apply Rinv_le_contravar; lra.
Qed.
Lemma cross_self x k : cross_at x x k = rtoc (power_at x k).
Proof. rewrite power_at_norm. unfold cross_at, rtoc, cnorm2. apply cx_eq; cbn [re im fst snd]; ring. Qed.
Lemma avg_zero {A} (l : list A) : avg (fun _ => 0) l = 0.
Proof. unfold avg. assert (E : rlsum (map (fun _ : A => 0) l) = 0) by (induction l as [|a l IH]; [reflexivity|change (0 + rlsum (map (fun _ : A => 0) l) = 0); lra]). rewrite E. unfold Rdiv. ring. Qed.
Lemma avg_ext_in {A} (f h : A -> R) l : (forall a, In a l -> f a = h a) -> avg f l = avg h l.
Proof. intros H. unfold avg. do 2 f_equal. now apply map_ext_in. Qed.
Lemma raw_cross_self a dt n us k : raw_cross a a dt n us k = rtoc (raw_power a dt n us k).
Proof.
  unfold raw_cross, raw_power, cavg, rtoc. apply cx_eq; cbn [re im fst snd].
  - apply avg_ext_in. intros s _. now rewrite cross_self.
  - rewrite <- (avg_zero us). apply avg_ext_in. intros s _. now rewrite cross_self.
Qed.
Lemma avg_nonneg {A} (f : A -> R) l : (forall a, In a l -> 0 <= f a) -> 0 <= avg f l.
Proof. intros H. destruct l as [|a l]; [unfold avg; cbn; unfold Rdiv; rewrite Rmult_0_l; lra|]. apply avg_low; [discriminate|exact H]. Qed.
Lemma raw_power_nonneg a dt n us k : 0 <= raw_power a dt n us k.
Proof. apply avg_nonneg. intros s _. rewrite power_at_norm. unfold cnorm2. nra. Qed.
Lemma both_same a size st : busy_both a a size st = busy_in a size st.
Proof. unfold busy_both, busy_in. apply filter_ext. intros s. apply andb_diag. Qed.
Lemma angle_real r : 0 <= r -> angle (r, 0) = 0.
Proof.
  intros H. unfold angle. cbn [re im fst snd]. destruct (Rlt_dec 0 r); [unfold Rdiv; rewrite Rmult_0_l; apply atan_0|]. destruct (Rlt_dec r 0); [lra|]. destruct (Rlt_dec 0 0); [lra|]. destruct (Rlt_dec 0 0); lra.
Qed.
Lemma lag_self common a n dt st ks v x : lag_is common a a n dt st ks v -> fst v = Some x -> x = 0.
Proof.
  intros L E. destruct (lag_value _ _ _ _ _ _ _ _ _ L E) as (_ & _ & W & ->). set (us := busy_both a a (nq n * dt) st) in *.
  assert (X : cavg (raw_cross a a dt n us) ks = (avg (raw_power a dt n us) ks, 0)).
  { unfold cavg. apply cx_eq; cbn [re im fst snd]; [|rewrite <- (avg_zero ks)]; apply avg_ext_in; intros k _; now rewrite raw_cross_self. }
  rewrite X, angle_real by (apply avg_nonneg; intros k _; apply raw_power_nonneg). unfold Rdiv. ring.
Qed.
Lemma avg_one {A} (f : A -> R) a : avg f [a] = f a.
Proof. unfold avg. cbn. field. Qed.
Lemma avg_scale {A} (f : A -> R) c l : avg (fun a => c * f a) l = c * avg f l.
Proof. unfold avg. rewrite rlsum_scale. unfold Rdiv. ring. Qed.
Lemma lag_delay common a r n dt st k d v x : (0 < n)%nat -> (0 < dt)%Q -> (1 <= k)%nat -> (2 * (k * d) <= n)%nat ->
  (forall s, In s (busy_both a r (nq n * dt) st) -> delayed d (binned_counts r (nq n * dt) n s) (binned_counts a (nq n * dt) n s)) ->
  lag_is common a r n dt st [k] v -> fst v = Some x -> x = INR d * Q2R dt.
Proof.
  intros Hn Hd Hk Hkd D L E. destruct (lag_value _ _ _ _ _ _ _ _ _ L E) as (NU & _ & W & ->). set (us := busy_both a r (nq n * dt) st) in *. set (X := raw_cross a r dt n us) in *.
  assert (IN : 0 < INR n) by (apply lt_0_INR; lia). assert (IK : 0 < INR k) by (apply lt_0_INR; lia). pose proof (q2r_pos dt Hd) as HD. pose proof PI_RGT_0 as HP.
  cbn [map] in W. change (rlsum [cabs (X k)]) with (cabs (X k) + 0) in W. rewrite Rplus_0_r in W.
  assert (MF : mean_freq n dt X [k] = freq_of n dt k). { unfold mean_freq. cbn [map]. change (rlsum [freq_of n dt k * cabs (X k)]) with (freq_of n dt k * cabs (X k) + 0). change (rlsum [cabs (X k)]) with (cabs (X k) + 0). field. lra. }
  assert (LB : forall y s, length (binned_counts y (nq n * dt) n s) = n) by (intros; apply binned_len).
  set (th := 2 * PI * INR (k * d) / INR n). set (P := raw_power r dt n us k).
  assert (CX : X k = (P * cos th, P * sin th)).
  { unfold X, raw_cross, cavg, P, raw_power. assert (V : forall s, In s us -> cross_at (binned_counts a (nq n * dt) n s) (binned_counts r (nq n * dt) n s) k = (cos th * power_at (binned_counts r (nq n * dt) n s) k, sin th * power_at (binned_counts r (nq n * dt) n s) k)).
    { intros s Hin. pose proof (D s Hin) as Ds. set (x := binned_counts r (nq n * dt) n s) in *. set (y := binned_counts a (nq n * dt) n s) in *. assert (NE : x <> []) by (intros Z; pose proof (LB r s) as Z'; fold x in Z'; rewrite Z in Z'; cbn in Z'; lia).
      pose proof (cross_delay d x y k NE Ds) as C. assert (SW : cross_at y x k = cconj (cross_at x y k)) by (unfold cross_at, cconj; apply cx_eq; cbn [re im fst snd]; ring). rewrite SW, C. unfold x. rewrite (LB r s). fold x. unfold cis, cscal, cconj. cbn [re im fst snd].
      rewrite opp_IZR, <- INR_IZR_INZ. replace (2 * PI * - INR (k * d) / INR n) with (- th) by (unfold th; field; lra). rewrite cos_neg, sin_neg. apply cx_eq; cbn [re im fst snd]; ring. }
    apply cx_eq; cbn [re im fst snd]; rewrite Rmult_comm, <- avg_scale; apply avg_ext_in; intros s Hin; now rewrite (V s Hin). }
  assert (TH : - PI < th <= PI).
  { assert (Y : INR (k * d) / INR n <= 1 / 2). { apply (Rmult_le_reg_r (2 * INR n)); [lra|]. replace (INR (k * d) / INR n * (2 * INR n)) with (2 * INR (k * d)) by (field; lra). replace (1 / 2 * (2 * INR n)) with (INR n) by field. change 2 with (INR 2). rewrite <- mult_INR. now apply le_INR. }
    assert (Y0 : 0 <= INR (k * d) / INR n) by (apply Rle_mult_inv_pos; [apply pos_INR|exact IN]). replace th with (2 * PI * (INR (k * d) / INR n)) by (unfold th, Rdiv; ring). split; nra. }
  assert (PP : 0 < P). { pose proof (raw_power_nonneg r dt n us k) as P0. fold P in P0. destruct (Req_EM_T P 0) as [Z|Z]; [|lra]. exfalso. apply W. rewrite CX, Z. unfold cabs, cnorm2. cbn [re im fst snd]. rewrite !Rmult_0_l, Rplus_0_r. apply sqrt_0. }
  assert (CA : cavg X [k] = X k) by (unfold cavg; apply cx_eq; cbn [re im fst snd]; rewrite avg_one; reflexivity).
  rewrite CA, CX, (angle_polar P th PP TH), MF. unfold th, freq_of, length_of. rewrite mult_INR. field. repeat split; lra.
Qed.

(* ---- covariance ---- *)
Lemma cabs_real x : cabs (x, 0) = Rabs x.
Proof. unfold cabs, cnorm2. cbn [re im fst snd]. replace (x * x + 0 * 0) with (x ^ 2) by ring. rewrite <- Rsqr_pow2. apply sqrt_Rsqr_abs. Qed.
Lemma cabs_scal z c : 0 <= c -> cabs (cscal z c) = cabs z * c.
Proof.
  intros H. unfold cabs, cnorm2, cscal. destruct z as [x y]. cbn [re im fst snd]. replace (x * c * (x * c) + y * c * (y * c)) with ((x * x + y * y) * (c * c)) by ring. rewrite sqrt_mult_alt by nra. f_equal. now apply sqrt_square.
Qed.
Lemma rate_nonneg a n dt us : (0 < n)%nat -> (0 < dt)%Q -> 0 <= mean_photons a (nq n * dt) us / length_of n dt.
Proof. intros. apply Rle_mult_inv_pos; [apply mean_photons_nonneg|now apply length_pos]. Qed.
Lemma cov_modulus frac minph common a r n dt st ks v w : (0 < n)%nat -> (0 < dt)%Q ->
  covariance_is false frac minph common a r n dt st ks v -> covariance_is true frac minph common a r n dt st ks w -> fst v = option_map (fun z => rtoc (cabs z)) (fst w).
Proof.
  intros Hn Hd [A1 B1] [A2 B2]. cbv zeta in *. set (us := busy_both a r (nq n * dt) st) in *. set (pf := avg _ ks) in *. set (nr := abs_noise _ n dt) in *. set (pa := mean_photons a (nq n * dt) st) in *.
  assert (DEC : (pa < minph \/ us = [] \/ ks = [] \/ pf <= nr) \/ (minph <= pa /\ us <> [] /\ ks <> [] /\ nr < pf)).
  { destruct (Rlt_dec pa minph); [tauto|]. destruct us; [tauto|]. destruct ks; [tauto|]. destruct (Rle_dec pf nr); [tauto|]. right. repeat split; try discriminate; lra. }
  destruct DEC as [X|(X1 & X2 & X3 & X4)].
  - rewrite (A1 X), (A2 X). reflexivity.
  - destruct (B1 X1 X2 X3 X4) as [C1 _]. destruct (B2 X1 X2 X3 X4) as [C2 _]. rewrite C1, C2. cbn [option_map]. f_equal. set (z := if common then _ else _). set (fac := sqrt _). set (rate := mean_photons a (nq n * dt) (busy_in a (nq n * dt) st) / length_of n dt).
    assert (F : 0 <= fac) by apply sqrt_pos. assert (R0 : 0 <= rate) by now apply rate_nonneg.
    assert (RI : 0 <= / rate). { destruct (Req_EM_T rate 0) as [Z|Z]; [rewrite Z; rewrite Rinv_0; lra|]. left. apply Rinv_0_lt_compat. lra. }
    unfold cscaled_by. destruct frac; rewrite ?(cabs_scal (cscal z fac) (/ rate) RI), (cabs_scal z fac F); unfold rtoc, cscal; apply cx_eq; cbn [re im fst snd]; ring.
Qed.
Lemma cov_self complex frac minph a n dt st ks v z : (0 < n)%nat -> (0 < dt)%Q -> covariance_is complex frac minph true a a n dt st ks v -> fst v = Some z ->
  let us := busy_in a (nq n * dt) st in
  let power := avg (fun k => raw_power a dt n us k * abs_factor n dt) ks - abs_noise (mean_photons a (nq n * dt) st) n dt in
  0 < power /\ z = rtoc (scaled_by frac (mean_photons a (nq n * dt) us / length_of n dt) (rms_of power (INR (length ks) / length_of n dt))).
Proof.
  intros Hn Hd [A B] E us power. cbv zeta in A, B. rewrite both_same in A, B. fold us in A, B. set (pa := mean_photons a (nq n * dt) st) in *. set (pf := avg (fun k => raw_power a dt n us k * abs_factor n dt) ks) in *.
  assert (N : v <> (None, None)) by (intros ->; discriminate E). pose proof (length_pos n dt Hn Hd) as HL.
  assert (N1 : us <> []) by (intros H; apply N, A; tauto). assert (N2 : ks <> []) by (intros H; apply N, A; tauto). assert (N3 : minph <= pa) by (apply Rnot_lt_le; intros H; apply N, A; tauto). assert (N4 : abs_noise pa n dt < pf) by (apply Rnot_le_lt; intros H; apply N, A; tauto).
  assert (PW : 0 < power) by (unfold power; lra). split; [exact PW|]. destruct (B N3 N1 N2 N4) as [C _]. rewrite E in C. injection C as ->.
  assert (MC : cavg (fun k => cscal (raw_cross a a dt n us k) (abs_factor n dt)) ks = rtoc pf).
  { unfold cavg, rtoc. apply cx_eq; cbn [re im fst snd]; [unfold pf|rewrite <- (avg_zero ks)]; apply avg_ext_in; intros k _; rewrite raw_cross_self; unfold cscal, rtoc; cbn [re im fst snd]; ring. }
  rewrite MC. assert (Z : csub (rtoc pf) (rtoc (abs_noise pa n dt)) = rtoc power) by (unfold csub, rtoc; apply cx_eq; cbn [cadd copp re im fst snd]; [reflexivity|ring]). rewrite Z.
  assert (ZZ : (if complex then rtoc power else rtoc (cabs (rtoc power))) = rtoc power) by (destruct complex; [reflexivity|]; f_equal; unfold rtoc; rewrite cabs_real; apply Rabs_right; lra). rewrite ZZ. change (pf - abs_noise pa n dt) with power.
  set (width := INR (length ks) / length_of n dt). assert (W : 0 <= width) by (apply Rle_mult_inv_pos; [apply pos_INR|exact HL]).
  assert (S : power * sqrt (width / power) = rms_of power width).
  { unfold rms_of. transitivity (sqrt (power * power) * sqrt (width / power)); [rewrite (sqrt_square power) by lra; reflexivity|]. rewrite <- sqrt_mult_alt by nra. f_equal. field. lra. }
  unfold cscaled_by, scaled_by. destruct frac; unfold rtoc, cscal; apply cx_eq; cbn [re im fst snd]; try rewrite S; unfold Rdiv; ring.
Qed.

(* ---- columns, failures ---- *)
Lemma rms_energy numba srt u1 u2 e1 e2 ivs f0 f1 dt seg frac : rms_spectrum numba srt u1 e1 e2 ivs f0 f1 dt seg frac = rms_spectrum numba srt u2 e1 e2 ivs f0 f1 dt seg frac.
Proof. reflexivity. Qed.
Lemma lag_energy numba srt u1 u2 e1 e2 ivs rb f0 f1 dt seg : lag_spectrum numba srt u1 e1 e2 ivs rb f0 f1 dt seg = lag_spectrum numba srt u2 e1 e2 ivs rb f0 f1 dt seg.
Proof. reflexivity. Qed.
Lemma cov_energy numba srt u1 u2 c frac mp e1 e2 ivs rb f0 f1 dt seg : covariance_spectrum numba srt u1 c frac mp e1 e2 ivs rb f0 f1 dt seg = covariance_spectrum numba srt u2 c frac mp e1 e2 ivs rb f0 f1 dt seg.
Proof. reflexivity. Qed.
Definition pi_only : events := mkEv (ev_time ex_ev) None (ev_pi ex_ev) (ev_gti ex_ev).
Lemma use_pi_refuted : exists ev iv f0 f1 dt seg, (exists rows, count_spectrum true ev [iv] = Ok rows) /\
  forall numba srt frac, rms_spectrum numba srt true ev None [iv] f0 f1 dt seg frac = Err TypeError.
Proof.
  exists pi_only, (10%Q, 20%Q), (1 / 4), (1 / 2), 1%Q, 4%Q. split; [eexists; apply (count_main true pi_only _ _ eq_refl eq_refl)|]. intros. reflexivity.
Qed.
Lemma rms_error_refuted : exists power width noise m k rate c, 0 < c /\ 0 < rate /\
  rms_row true (c ^ 2 * power) width (c * noise) m k (c * rate) <> rms_row true power width noise m k rate.
Proof.
  exists 1, 1, 1, 1%nat, 1%nat, 1, 2. split; [lra|]. split; [lra|]. unfold rms_row. replace (2 ^ 2 * 1 * 1) with (2 * 2) by ring. rewrite (sqrt_square 2) by lra. rewrite (Rmult_1_r 1), sqrt_1. change (INR 1) with 1.
  rewrite !fdiv_some by lra. rewrite !fsqrt_some by lra. rewrite !fdiv_some by lra. intros E. injection E as _ E.
  match type of E with sqrt ?a / _ = sqrt ?b / _ => assert (A : sqrt a * sqrt a = 5 / 2) by (rewrite sqrt_sqrt by lra; field); assert (B : sqrt b * sqrt b = 1) by (rewrite sqrt_sqrt by lra; field); pose proof (sqrt_pos a); pose proof (sqrt_pos b); set (x := sqrt a) in *; set (y := sqrt b) in * end.
  assert (x = 2 * y) by lra. nra.
Qed.
Lemma reference_refuted : exists e1 e2 en1 iv rb f0 f1 dt seg, nondecreasing (ev_time e1) /\ ev_energy e1 = Some en1 /\ (10 <= length (band_times (ev_time e1) en1 rb))%nat /\ ev_gti e1 = [(0, seg)]%Q /\ ev_gti e2 = [(0, seg)]%Q /\
  forall numba, lag_spectrum numba (isort_by t_end) false e1 (Some e2) [iv] [rb] f0 f1 dt seg = Err AttributeError.
Proof.
  exists (mkEv (map (fun i => nq i / 4)%Q (seq 0 16)) (Some (repeat 1%Q 16)) None [(0, 4)]%Q), (mkEv [] (Some []) None [(0, 4)]%Q), (repeat 1%Q 16), (1, 2)%Q, (1, 2)%Q, (1 / 8), (1 / 2), 1%Q, 4%Q.
  split; [apply nondec_dec; reflexivity|]. split; [reflexivity|]. split; [vm_compute; lia|]. split; [reflexivity|]. split; [reflexivity|]. intros numba.
  assert (Hg : exists a b, In (a, b) [(0, 4)%Q] /\ (4 < b - a + (1 # 100000))%Q) by (exists 0%Q, 4%Q; split; [now left|reflexivity]).
  destruct (ctrate_events [] [(0, 4)%Q] 4 eq_refl (nondec_dec [] eq_refl) Hg) as (st & _ & G & _).
  destruct (lag_final numba (isort_by t_end) (1 / 8) (1 / 2) [(0, 4)%Q] 4 1 4 st eq_refl (Nat.lt_0_succ 3) (Qeq_refl _) Hg G (isort_sorts _) false
    (mkEv (map (fun i => nq i / 4)%Q (seq 0 16)) (Some (repeat 1%Q 16)) None [(0, 4)]%Q) (Some (mkEv [] (Some []) None [(0, 4)]%Q)) (repeat 1%Q 16) [] [(1, 2)%Q] (1, 2)%Q) as [A _]; [reflexivity|apply nondec_dec; reflexivity|reflexivity|reflexivity|apply nondec_dec; reflexivity|reflexivity|reflexivity|reflexivity|constructor; [reflexivity|constructor]|].
  apply A. cbn. clear. induction st as [|s st IH]; [reflexivity|]. exact IH.
Qed.
