(* P_mkcross2.v: cross spectra: whole observations, inputs after the call, error bars, lags, dead time, normalization. *)
From Coq Require Import Reals Qreals.
From Verif Require Import Np Lib S_gti S_seg S_utils S_flux S_fourier S_vspec S_mkcross M_gti M_seg M_utils M_lc M_base M_exvar Cplx M_fourier M_flux P_seg_cut P_flux P_flux2 P_avg P_avgcs P_avg2 P_norm P_flux4 P_lag P_exvar M_norm M_make P_make M_vspec P_vspec3 M_mkcross P_mkcross.
From Coq Require Import Reals Qreals List Bool Arith Lra Lia.
Import ListNotations.
Open Scope R_scope.

(* ---------- errors ---------- *)
Lemma bin_cauchy {A} (l1 l2 : A -> list R) us k :
  cnorm2 (cavg (fun s => cross_at (l1 s) (l2 s) k) us) <= avg (fun s => power_at (l1 s) k) us * avg (fun s => power_at (l2 s) k) us.
Proof.
  pose proof (avg_cauchy (map (fun s => ({| s_flux := l1 s; s_err := None |}, {| s_flux := l2 s; s_err := None |})) us) k) as H.
  rewrite cavg_map, !avg_map in H. exact H.
Qed.
Lemma power_error z p1 p2 m n1 n2 a b : (0 < m)%nat -> cnorm2 z <= p1 * p2 -> cross_power_error false z p1 p2 m n1 n2 = (a, b) ->
  0 <= a /\ 0 <= b /\ 2 * INR m * (a * a) = p1 * p2 + re z * re z - im z * im z /\ 2 * INR m * (b * b) = p1 * p2 - re z * re z + im z * im z.
Proof.
  intros Hm Hz. assert (M : 0 < INR m) by now apply lt_0_INR. assert (Z2 : cnorm2 z = re z * re z + im z * im z) by reflexivity.
  assert (SQ1 := Rle_0_sqr (re z)). assert (SQ2 := Rle_0_sqr (im z)). unfold Rsqr in SQ1, SQ2.
  assert (I2 : 0 < / (2 * INR m)) by (apply Rinv_0_lt_compat; lra).
  unfold cross_power_error, part_errors. rewrite !fdiv_some by lra.
  assert (A1 : 0 <= (p2 * p1 + re z * re z - im z * im z) / (2 * INR m)) by (apply Rmult_le_pos; nra).
  assert (A2 : 0 <= (p2 * p1 - re z * re z + im z * im z) / (2 * INR m)) by (apply Rmult_le_pos; nra).
  rewrite !fsqrt_some by assumption. intros E. pose proof (f_equal fst E) as Ea. pose proof (f_equal snd E) as Eb. cbn [fst snd] in Ea, Eb. subst a b.
  split; [apply sqrt_pos|]. split; [apply sqrt_pos|]. rewrite !sqrt_sqrt by assumption. split; field; lra.
Qed.
Lemma power_error_sum z p1 p2 m n1 n2 a b : (0 < m)%nat -> cnorm2 z <= p1 * p2 -> cross_power_error false z p1 p2 m n1 n2 = (a, b) ->
  a * a + b * b = p1 * p2 / INR m.
Proof.
  intros Hm Hz E. destruct (power_error _ _ _ _ _ _ _ _ Hm Hz E) as (_ & _ & A & B). assert (M : 0 < INR m) by now apply lt_0_INR.
  apply (Rmult_eq_reg_l (2 * INR m)); [|lra]. rewrite Rmult_plus_distr_l, A, B. field. lra.
Qed.
Lemma raw_errors_same cross p1 p2 m r1 r2 n1 n2 : (0 < m)%nat ->
  raw_cross_errors cross p1 p2 m r1 r2 n1 n2 = map (fun q => cross_power_error false (fst q) (fst (snd q)) (snd (snd q)) m n1 n2) (combine cross (combine p1 p2)).
Proof.
  intros Hm. assert (M : 0 < INR m) by now apply lt_0_INR. assert (I2 : 0 < / (2 * INR m)) by (apply Rinv_0_lt_compat; lra).
  unfold raw_cross_errors. apply map_ext. intros [z [s r]]. cbn [fst snd]. cbv zeta. unfold cross_power_error, part_errors. rewrite !fdiv_some by lra.
  destruct (Rlt_dec _ 0) as [A|A].
  - rewrite fsqrt_none; [reflexivity|]. unfold Rdiv. nra.
  - rewrite fsqrt_some by (apply Rmult_le_pos; lra). destruct (Rlt_dec _ 0) as [B|B].
    + rewrite fsqrt_none; [reflexivity|]. unfold Rdiv. nra.
    + rewrite fsqrt_some by (apply Rmult_le_pos; lra). reflexivity.
Qed.
(* photons of one band among those of the other: one error for both parts *)
Lemma overlap_error z p1 p2 m n1 n2 : (0 < m)%nat ->
  let x := p2 / (2 * INR m) * (p1 - (cnorm2 z - bias_of p1 p2 n1 n2 m) / (p2 - n2)) in
  let d := sqrt (2 / INR m) * sqrt (n1 * n2) / 2 in
  (p2 <> n2 -> 0 <= x -> cross_power_error true z p1 p2 m n1 n2 = (sqrt x, sqrt x)) /\
  (p2 = n2 \/ x < 0 -> cross_power_error true z p1 p2 m n1 n2 = (d, d)).
Proof.
  intros Hm x d. assert (M : 0 < INR m) by now apply lt_0_INR. unfold cross_power_error, part_errors, modulus_error. rewrite bias_ok. fold d.
  destruct (Req_EM_T p2 n2) as [E|E].
  - split; [contradiction|]. intros _. replace (p2 - n2) with 0 by lra. rewrite fdiv_none. reflexivity.
  - rewrite fdiv_some by lra. rewrite fdiv_some by lra. fold x. split.
    + intros _ H. now rewrite fsqrt_some.
    + intros [H|H]; [contradiction|]. now rewrite fsqrt_none.
Qed.

(* ---------- lags ---------- *)
Lemma phase_lag_ok overlap t p1 p2 u1 u2 : c_auxil t = Some (p1, p2, (u1, u2)) -> length u1 = length (c_unnorm t) -> length u2 = length (c_unnorm t) -> (0 < c_m t)%nat ->
  exists l, acs_phase_lag overlap t = Ok l /\ length l = length (c_unnorm t) /\
  forall i z a b, nth_error (c_unnorm t) i = Some z -> nth_error u1 i = Some a -> nth_error u2 i = Some b ->
    exists e, nth_error l i = Some (angle z, e) /\ phase_error_is overlap z a b (c_m t) (c_nphots1 t) (c_nphots2 t) e.
Proof.
  intros E L1 L2 Hm. unfold acs_phase_lag. rewrite E. eexists. split; [reflexivity|]. split; [rewrite map_length, !combine_length; lia|].
  intros i z a b Hz Ha Hb. eexists. split; [|now apply phase_error_ok].
  assert (C : nth_error (combine (c_unnorm t) (combine u1 u2)) i = Some (z, (a, b))).
  { clear - Hz Ha Hb. revert u1 u2 i Hz Ha Hb. induction (c_unnorm t) as [|w l IH]; intros u1 u2 i Hz Ha Hb; [destruct i; discriminate|].
    destruct u1 as [|x u1]; [destruct i; discriminate|]. destruct u2 as [|y u2]; [destruct i; discriminate|].
    destruct i as [|i]; cbn [nth_error combine] in *; [congruence|]. now apply IH. }
  now rewrite (map_nth_error _ _ _ C).
Qed.
Lemma time_lag_ok overlap t l i ph e f : acs_phase_lag overlap t = Ok l -> nth_error l i = Some (ph, e) -> nth_error (c_freq t) i = Some f ->
  exists l', acs_time_lag overlap t = Ok l' /\ nth_error l' i = Some (ph / (2 * PI * f), option_map (fun e => e / (2 * PI * f)) e).
Proof.
  intros E Hl Hf. unfold acs_time_lag. rewrite E. cbn [bind]. eexists. split; [reflexivity|].
  assert (C : nth_error (combine l (c_freq t)) i = Some ((ph, e), f)).
  { clear - Hl Hf. revert i Hl Hf. generalize (c_freq t). induction l as [|w l IH]; intros fs i Hl Hf; [destruct i; discriminate|].
    destruct fs as [|x fs]; [destruct i; discriminate|]. destruct i as [|i]; cbn [nth_error combine] in *; [congruence|]. now apply IH. }
  now rewrite (map_nth_error _ _ _ C).
Qed.
(* many averages: no bias *)
Lemma phase_error_many z p1 p2 m n1 n2 e : (500 < m)%nat -> 0 < p1 -> 0 < p2 -> 0 < cnorm2 z -> cnorm2 z <= p1 * p2 -> phase_error_is false z p1 p2 m n1 n2 e ->
  exists v, e = Some v /\ 0 <= v /\ 2 * INR m * cnorm2 z * (v * v) = p1 * p2 - cnorm2 z.
Proof.
  intros Hm H1 H2 Hz Hc [D _]. assert (M : 0 < INR m) by (apply lt_0_INR; lia). unfold bias_of in D. destruct (le_lt_dec m 500) as [X|X]; [lia|]. clear X.
  rewrite Rminus_0_r in D. destruct (Rlt_dec (cnorm2 z) 0) as [X|X]; [lra|]. clear X.
  assert (P : 0 < p1 * p2) by now apply Rmult_lt_0_compat.
  assert (G : 0 < cnorm2 z / (p1 * p2)) by now apply Rdiv_lt_0_compat.
  assert (G1 : cnorm2 z / (p1 * p2) <= 1) by (apply (Rmult_le_reg_r (p1 * p2)); [lra|]; unfold Rdiv; rewrite Rmult_assoc, Rinv_l by lra; lra).
  set (x := (1 - cnorm2 z / (p1 * p2)) / (2 * (cnorm2 z / (p1 * p2)) * INR m)) in *.
  assert (X0 : 0 <= x). { apply Rmult_le_pos; [lra|]. apply Rlt_le, Rinv_0_lt_compat. apply Rmult_lt_0_compat; lra. }
  exists (sqrt x). split; [apply D; repeat split; [lra|lra|exact X0]|]. split; [apply sqrt_pos|]. rewrite sqrt_sqrt by assumption. unfold x. field. repeat split; lra.
Qed.

(* ---------- dead time ---------- *)
Lemma scaled_length c l : length c = length l -> length (scaled_by c l) = length l.
Proof. intros H. unfold scaled_by. rewrite map_length, combine_length. lia. Qed.
Lemma scaled_nth c l i x z : nth_error c i = Some x -> nth_error l i = Some z -> nth_error (scaled_by c l) i = Some (cscal z x).
Proof.
  revert l i. induction c as [|a c IH]; intros l i Hc Hl; [destruct i; discriminate|]. destruct l as [|w l]; [destruct i; discriminate|].
  destruct i as [|i]; cbn [nth_error] in *; [unfold scaled_by; cbn [combine map fst snd nth_error]; congruence|]. unfold scaled_by in *. cbn [combine map nth_error]. now apply IH.
Qed.
(* normalization *)
Lemma normalize_counts unnorm tseg nbins n1 n2 norm pt : pt <> POther ->
  normalize_crossspectrum unnorm tseg nbins n1 n2 norm pt =
  match kind norm None with
  | Some k => Ok (map (fun z => as_type pt (cscal z (factor k (tseg / INR nbins) nbins (sqrt (n1 * n2) / INR nbins) (sqrt (n1 * n2))))) unnorm)
  | None => Err ValueError
  end.
Proof.
  intros Hp. unfold normalize_crossspectrum. cbv zeta. rewrite (norm_factor cmulr cmulr_mul cmulr_1). destruct (kind norm None); [|reflexivity].
  destruct pt; try contradiction; cbn [with_ptype bind]; unfold cmulr, creal, cabsl; rewrite ?map_map; reflexivity.
Qed.
Lemma normalize_gauss unnorm mean var dt n norm pt : pt <> POther -> dt <> 0 ->
  normalize_crossspectrum_gauss unnorm mean var dt n norm pt =
  match kind norm (Some var) with
  | Some k => Ok (map (fun z => as_type pt (cscal z (factor k dt n (mean * dt) 0))) unnorm)
  | None => Err ValueError
  end.
Proof.
  intros Hp Hd. unfold normalize_crossspectrum_gauss.
  assert (E : normalize cmulr unnorm dt n (Some (mean * dt)) None (Some var) 0 norm = normalize cmulr unnorm dt n (Some (mean * dt)) (Some 0) (Some var) 0 norm) by (destruct norm; reflexivity).
  rewrite E, (norm_factor cmulr cmulr_mul cmulr_1). destruct (kind norm (Some var)); [|reflexivity].
  destruct pt; try contradiction; cbn [with_ptype bind]; unfold cmulr, creal, cabsl; rewrite ?map_map; reflexivity.
Qed.
Lemma corrected_ok model l : length model = length l -> corrected model l (scaled_by (map (fun m => 2 / m) model) l).
Proof.
  intros H. split; [apply scaled_length; now rewrite map_length|]. intros i m z Hm Hz. rewrite (scaled_nth _ _ i (2 / m) z); [|now apply (map_nth_error (fun m => 2 / m))|exact Hz].
  f_equal. destruct z as [x y]. unfold cscal, re, im. cbn [fst snd]. f_equal; ring.
Qed.
Lemma corrected_opt_ok model o : (forall l, o = Some l -> length model = length l) -> corrected_opt model o (option_map (scaled_by (map (fun m => 2 / m) model)) o).
Proof. intros H. destruct o as [l|]; cbn [option_map corrected_opt]; [|exact I]. apply corrected_ok. now apply H. Qed.
Lemma deadtime_ok model s all p : sp_power s = Some p -> length model = length p ->
  (forall l, sp_err s = Some l \/ sp_unnorm s = Some l \/ sp_unnorm_err s = Some l -> length model = length l) ->
  exists s' all', deadtime_correct false model s all = Ok (s', all') /\ corrected_opt model (sp_power s) (sp_power s') /\ corrected_opt model (sp_err s) (sp_err s') /\
  corrected_opt model (sp_unnorm s) (sp_unnorm s') /\ corrected_opt model (sp_unnorm_err s) (sp_unnorm_err s') /\
  sp_norm s' = sp_norm s /\ sp_dt s' = sp_dt s /\ sp_n s' = sp_n s /\ sp_nph1 s' = sp_nph1 s /\ sp_nph2 s' = sp_nph2 s.
Proof.
  intros E L H. unfold deadtime_correct. rewrite E. eexists. eexists. split; [reflexivity|]. cbn [sp_power sp_err sp_unnorm sp_unnorm_err sp_norm sp_dt sp_n sp_nph1 sp_nph2].
  split; [now apply corrected_ok|]. split; [apply corrected_opt_ok; intros l Hl; apply H; tauto|]. split; [apply corrected_opt_ok; intros l Hl; apply H; tauto|].
  split; [apply corrected_opt_ok; intros l Hl; apply H; tauto|]. repeat split.
Qed.
Lemma deadtime_halves model s all s' all' h1 h2 : sp_halves s = Some (h1, h2) -> length model = length (h_unnorm h1) -> length model = length (h_unnorm h2) ->
  deadtime_correct false model s all = Ok (s', all') ->
  exists h1' h2', sp_halves s' = Some (h1', h2') /\ corrected model (h_unnorm h1) (h_unnorm h1') /\ corrected model (h_unnorm h2) (h_unnorm h2') /\
  h_power h1' = h_power h1 /\ h_power h2' = h_power h2.
Proof.
  intros Eh L1 L2 E. unfold deadtime_correct in E. destruct (sp_power s) as [p|]; [|discriminate].
  assert (ES : sp_halves s' = option_map (fun h => (half_corrected (map (fun m => 2 / m) model) (fst h), half_corrected (map (fun m => 2 / m) model) (snd h))) (sp_halves s)).
  { assert (X : forall (a b : spectrum) (c d : option (list (list cx) * list (list cx))), Ok (a, c) = Ok (b, d) -> a = b) by congruence. apply X in E. now rewrite <- E. }
  rewrite Eh in ES. cbn [option_map fst snd] in ES. eexists. eexists. split; [exact ES|]. cbn [half_corrected h_unnorm h_power]. repeat split; apply corrected_ok; assumption.
Qed.
Lemma deadtime_segments model s all1 all2 s' a1 a2 : deadtime_correct false model s (Some (all1, all2)) = Ok (s', Some (a1, a2)) ->
  (forall l, In l all1 \/ In l all2 -> length model = length l) -> Forall2 (corrected model) all1 a1 /\ Forall2 (corrected model) all2 a2.
Proof.
  intros E H. unfold deadtime_correct in E. destruct (sp_power s) as [p|]; [|discriminate].
  assert (X : forall (a b : spectrum) (c d : option (list (list cx) * list (list cx))), Ok (a, c) = Ok (b, d) -> c = d) by congruence. apply X in E. cbn [option_map fst snd] in E.
  assert (E1 : a1 = map (scaled_by (map (fun m => 2 / m) model)) all1) by congruence. assert (E2 : a2 = map (scaled_by (map (fun m => 2 / m) model)) all2) by congruence. subst a1 a2. clear E X.
  assert (G : forall ls, (forall l, In l ls -> length model = length l) -> Forall2 (corrected model) ls (map (scaled_by (map (fun m => 2 / m) model)) ls)).
  { induction ls as [|l ls IH]; intros Hl; cbn [map]; constructor; [apply corrected_ok, Hl; now left|apply IH; intros x Hx; apply Hl; now right]. }
  split; apply G; intros l Hl; apply H; tauto.
Qed.
