(* P_fftfit2.v: what fftfit returns; profiles that are copies of the template. *)
From Verif Require Import Np Lib Cplx M_fourier M_zn M_corr M_exvar M_fftfit S_fourier S_fftfit P_dft P_lag P_pcolor2 P_timmer P_zn P_exvar P_fftfit.
From Coq Require Import Reals List Arith ZArith Lra Lia.
Import ListNotations.
Open Scope R_scope.

(* ---- whole turns ---- *)
Lemma turn_cs x m : cos (x + 2 * PI * IZR m) = cos x /\ sin (x + 2 * PI * IZR m) = sin x.
Proof.
  pose proof (cis_period 1 m ltac:(lia)) as E. unfold cis in E. rewrite mult_IZR in E. cbn [Z.of_nat Pos.of_succ_nat INR] in E.
  injection E as E1 E2. replace (2 * PI * (IZR m * 1) / 1) with (2 * PI * IZR m) in E1, E2 by field.
  rewrite cos_plus, sin_plus, E1, E2. split; ring.
Qed.
Lemma harmonic_turn p t k tau j : harmonic p t k (tau + IZR j) = harmonic p t k tau.
Proof.
  unfold harmonic. replace (2 * PI * INR k * (tau + IZR j)) with (2 * PI * INR k * tau + 2 * PI * IZR (Z.of_nat k * j)) by (rewrite mult_IZR, <- INR_IZR_INZ; ring).
  destruct (turn_cs (2 * PI * INR k * tau) (Z.of_nat k * j)) as [-> ->]. reflexivity.
Qed.
Lemma slope_turn p t K tau j : slope p t K (tau + IZR j) = slope p t K tau.
Proof. unfold slope, hsum. f_equal. apply map_ext. intros k. now rewrite harmonic_turn. Qed.

(* ---- the spread of the transform ---- *)
Lemma sum_dft x : (0 < length x)%nat -> cs (length x) (dft x) = rtoc (INR (length x) * val x 0).
Proof.
  intros Hn. set (n := length x) in *.
  transitivity (cs n (fun j => cmul (rtoc (val x j)) (cs n (fun k => cis n (Z.of_nat k * (- Z.of_nat j)))))).
  - rewrite (cs_ext n (dft x) (fun k => cs n (fun j => cmul (rtoc (val x j)) (cis n (Z.of_nat k * (- Z.of_nat j)))))).
    + rewrite cs_swap. apply cs_ext. intros j _. now rewrite cs_mul_l.
    + intros k _. rewrite dft_cs. fold n. apply cs_ext. intros j _. f_equal. f_equal. lia.
  - rewrite (cs_delta n 0); [| assumption |].
    + rewrite (cs_ext n _ (fun _ => Cplx.c1)).
      * assert (C : cs n (fun _ => Cplx.c1) = rtoc (INR n)).
        { apply cx_eq; [rewrite re_cs|rewrite im_cs]; cbn; rewrite rs_const; ring. }
        rewrite C. apply cx_eq; cbn; ring.
      * intros k _. replace (Z.of_nat k * - Z.of_nat 0)%Z with 0%Z by lia. apply cis_0.
    + intros j Hj N. rewrite cis_geom; [apply cx_eq; cbn; ring|assumption|].
      rewrite Z.mod_opp_l_nz; [|lia|]; rewrite Z.mod_small by lia; lia.
Qed.
Lemma variance_c n (f : nat -> cx) : (0 < n)%nat ->
  let m := cscal (cs n f) (/ INR n) in
  rs n (fun k => cnorm2 (csub (f k) m)) / INR n = rs n (fun k => cnorm2 (f k)) / INR n - cnorm2 m.
Proof.
  intros Hn m. assert (N : INR n <> 0) by (apply not_0_INR; lia).
  assert (E : rs n (fun k => cnorm2 (csub (f k) m)) = rs n (fun k => cnorm2 (f k)) - 2 * (re m * rs n (fun k => re (f k)) + im m * rs n (fun k => im (f k))) + INR n * cnorm2 m).
  { rewrite <- rs_const, <- !rs_scal_l, <- rs_plus, <- rs_scal_l, <- rs_minus, <- rs_plus. apply rs_ext. intros k _.
    unfold cnorm2, csub, cadd, copp. cbn [re im fst snd]. ring. }
  rewrite E, <- re_cs, <- im_cs.
  assert (R1 : re (cs n f) = INR n * re m) by (unfold m, cscal; cbn [re fst]; field; assumption).
  assert (R2 : im (cs n f) = INR n * im m) by (unfold m, cscal; cbn [im snd]; field; assumption).
  rewrite R1, R2. assert (C : cnorm2 m = re m * re m + im m * im m) by reflexivity. rewrite C. field. assumption.
Qed.
Lemma std_spread p : (0 < length p)%nat -> cstd2 (fft (map rtoc (demean p))) = spread p.
Proof.
  intros Hn. set (x := demean p). assert (L : length x = length p) by apply demean_len.
  unfold cstd2. rewrite fft_len, map_length, L. rewrite fft_map, L. set (n := length p) in *.
  change (clsum (map (dft x) (seq 0 n))) with (cs n (dft x)). rewrite map_map.
  change (rlsum (map (fun x0 => cnorm2 (csub (dft x x0) (cscal (cs n (dft x)) (/ INR n)))) (seq 0 n)))
    with (rs n (fun k => cnorm2 (csub (dft x k) (cscal (cs n (dft x)) (/ INR n))))).
  assert (N : INR n <> 0) by (apply not_0_INR; lia).
  rewrite (variance_c n (dft x) Hn).
  pose proof (parseval x) as P. rewrite L in P.
  rewrite (rs_ext n (fun k => cnorm2 (dft x k)) (fun k => power_at x k)) by (intros; reflexivity). rewrite P.
  pose proof (sum_dft x) as SD. rewrite L in SD. rewrite (SD Hn).
  replace (cnorm2 (cscal (rtoc (INR n * val x 0)) (/ INR n))) with (val x 0 * val x 0) by (unfold cnorm2, cscal, rtoc; cbn; field; assumption).
  replace (INR n * rs n (fun j => val x j * val x j) / INR n) with (rs n (fun j => val x j * val x j)) by (field; assumption).
  unfold spread. fold n.
  assert (V : forall j, (j < n)%nat -> val x j = val p j - avg (fun y => y) p).
  { intros j Hj. unfold val, x, demean. rewrite (nth_map_lt2 _ _ _ 0) by assumption. unfold mean, avg. now rewrite map_id. }
  replace n with (S (n - 1)) at 1 by lia. rewrite rs_first. rewrite <- seq_shift, map_map.
  unfold Rminus at 1. rewrite (Rplus_comm (val x 0 * val x 0)), Rplus_assoc, Rplus_opp_r, Rplus_0_r.
  unfold rs. f_equal. apply map_ext_in. intros j Hj. apply in_seq in Hj. rewrite (V (S j)) by lia. reflexivity.
Qed.

(* ---- what is returned ---- *)
Lemma root_main fuel brentq p t b eb s es : finds_roots brentq -> p <> [] ->
  taylor_fftfit fuel brentq p t = Ok (b, eb, s, es) ->
  let K := strong p t in
  length t = length p /\ (32 <= length p)%nat /\ (K < length p)%nat /\
  - (1 / 2) < s <= 1 / 2 /\ slope p t K s = 0 /\
  (tpower t (K - 1) = 0 -> b = None /\ eb = None /\ es = None) /\
  (tpower t (K - 1) <> 0 ->
     let a := correlation p t (K - 1) s / tpower t (K - 1) in
     b = Some a /\ eb = Some (sqrt (spread p / (2 * tpower t (K - 1)))) /\
     (0 < a * curvature p t (K - 1) s -> es = Some (sqrt (spread p / (2 * a * curvature p t (K - 1) s))))).
Proof.
  intros HB Hp. unfold taylor_fftfit. destruct (Nat.eqb_spec (length t) (length p)) as [E|E]; [cbn [negb]|discriminate].
  destruct (find_delay_with_ccf fuel _ _) as [start|] eqn:ES; [|discriminate]. cbn [bind].
  destruct (Nat.lt_ge_cases (length p) 32) as [Hl|Hl].
  { exfalso. unfold find_delay_with_ccf, amp_of in ES. rewrite map_length, combine_length, !fft_len, !map_length, !demean_len in ES.
    destruct (Nat.ltb_spec (Nat.min (length p) (length t)) 32); [discriminate|lia]. }
  set (K := strong p t).
  destruct (Nat.lt_ge_cases (length p - 1) K) as [HK|HK].
  { rewrite (func_error p t E Hl HK). discriminate. }
  rewrite (func_slope p t E Hl _ HK). cbn [bind].
  match goal with |- context [bracket fuel ?f _ _ _ _] => set (F := f) end.
  assert (FE : forall tau, F tau = - slope p t K tau).
  { intros tau. unfold F. rewrite (func_slope p t E Hl _ HK). reflexivity. }
  destruct (bracket _ _ _ _ _ _) as [best|]; [|discriminate]. cbn [bind].
  destruct (brentq F _ _) as [root|] eqn:EB; [|discriminate]. cbn [bind].
  destruct (normalize_phase_0d5 fuel root) as [s'|] eqn:EN; [|discriminate]. cbn [bind].
  unfold errors_of. intros R. injection R as Rb Reb Rs Res. subst s'.
  apply HB in EB. destruct EB as [EB _]. rewrite FE in EB.
  apply normalize_sound in EN. destruct EN as [W [j J]].
  rewrite (good_strong p t E Hl) in *. fold K in Rb, Reb, Res.
  rewrite std_spread in Reb, Res by lia.
  rewrite (sum_t p t E Hl) in Rb, Reb, Res by lia.
  assert (C1 : sum_good (fun k a => a * cos (- nth k (pha_of (fft (map rtoc (demean p))) (fft (map rtoc (demean t)))) 0 + 2 * PI * INR k * - s)) 0
     (amp_of (fft (map rtoc (demean p))) (fft (map rtoc (demean t)))) K = correlation p t (K - 1) s).
  { pose proof (sum_re p t E Hl (fun _ => 1) s K) as X. unfold correlation, hsum in *. rewrite (map_ext _ (fun k => re (harmonic p t k s))) in X by (intros; ring).
    rewrite <- X by lia. unfold sum_good. f_equal. apply map_ext. intros. ring. }
  assert (C2 : sum_good (fun k a => INR k * INR k * a * cos (- nth k (pha_of (fft (map rtoc (demean p))) (fft (map rtoc (demean t)))) 0 + 2 * PI * INR k * - s)) 0
     (amp_of (fft (map rtoc (demean p))) (fft (map rtoc (demean t)))) K = curvature p t (K - 1) s).
  { apply (sum_re p t E Hl (fun k => INR k * INR k) s K). lia. }
  rewrite C1 in Rb, Res. rewrite C2 in Res.
  assert (TP : 0 <= tpower t (K - 1)).
  { unfold tpower, hsum. clear. induction (seq 1 (K - 1)) as [|k l IH]; cbn; [lra|]. pose proof (cnorm2_nonneg (dft t k)). unfold rlsum in IH. lra. }
  assert (SP : 0 <= spread p).
  { unfold spread. clear. induction (seq 1 (length p - 1)) as [|k l IH]; cbn; [lra|]. unfold rlsum in IH. pose proof (Rle_0_sqr (val p k - avg (fun y => y) p)) as Q. unfold Rsqr in Q. lra. }
  split; [exact E|]. split; [exact Hl|]. split; [lia|]. split; [exact W|]. split; [|split].
  - rewrite J, slope_turn. lra.
  - intros Z. rewrite Z in Rb, Reb, Res. rewrite fdiv_none in Rb, Res. rewrite Rmult_0_r, fdiv_none in Reb. subst; auto.
  - intros Z. set (a := correlation p t (K - 1) s / tpower t (K - 1)). assert (B : fdiv (correlation p t (K - 1) s) (tpower t (K - 1)) = Some a) by (apply fdiv_some; assumption).
    rewrite B in Rb, Res. split; [now symmetry|]. split.
    + rewrite <- Reb. rewrite fdiv_some by lra. rewrite fsqrt_some; [reflexivity|]. apply div_nonneg; lra.
    + intros Hc. rewrite <- Res. rewrite fdiv_some by lra. rewrite fsqrt_some; [reflexivity|]. apply div_nonneg; lra.
Qed.

(* ---- too short or too regular profiles ---- *)
Lemma short_error fuel brentq p t : length t = length p -> (length p < 32)%nat -> taylor_fftfit fuel brentq p t = Err ValueError.
Proof.
  intros E H. unfold taylor_fftfit. rewrite E, Nat.eqb_refl. cbn [negb]. unfold find_delay_with_ccf, amp_of.
  rewrite map_length, combine_length, !fft_len, !map_length, !demean_len.
  destruct (Nat.ltb_spec (Nat.min (length p) (length t)) 32); [reflexivity|lia].
Qed.
Lemma find_delay_ok fuel amp pha : (32 <= length amp)%nat -> exists s, find_delay_with_ccf (S (S fuel)) amp pha = Ok s.
Proof.
  intros H. unfold find_delay_with_ccf. destruct (Nat.ltb_spec (length amp) 32); [lia|].
  match goal with |- context [argmax ?l] => destruct (argmax_spec l) as (i & E & L & _) end.
  { unfold ifft. rewrite !map_length, seq_length. discriminate. }
  rewrite E. cbn [bind]. unfold ifft in L. rewrite !map_length, !seq_length in L.
  destruct (normalize_ends (S fuel) (INR i / 64)) as (y & E' & _); [|now exists y].
  apply lt_INR in L. change (INR 64) with (IZR (Z.of_nat 64)) in L || idtac. rewrite (INR_IZR_INZ 64) in L. cbn in L.
  pose proof (pos_INR i). rewrite Rabs_right by lra. rewrite S_INR. pose proof (pos_INR fuel). lra.
Qed.
Lemma strong_all p t : (forall k, (0 < k < length p)%nat -> dft p k = c0) -> strong p t = length p.
Proof.
  intros H. unfold strong.
  assert (Z : forall k, (k < length p)%nat -> strength p t k = 0).
  { intros k Hk. unfold strength. destruct (Nat.eqb_spec k 0); [reflexivity|]. rewrite H by lia. unfold cabs, cnorm2 at 1. cbn.
    rewrite Rmult_0_l, Rplus_0_l, sqrt_0. ring. }
  rewrite (rs_zero (length p) (strength p t) Z). unfold Rdiv. rewrite Rmult_0_l.
  transitivity (length (seq 0 (length p))); [|apply seq_length].
  assert (B : forall k, In k (seq 0 (length p)) -> strength p t k = 0) by (intros k Hk; apply in_seq in Hk; apply Z; lia).
  revert B. generalize (seq 0 (length p)). induction l as [|k l IH]; intros B; [reflexivity|]. cbn [filter].
  rewrite (B k) by now left. destruct (Rle_dec 0 0) as [_|C]; [|lra]. cbn [length]. now rewrite IH by (intros; apply B; now right).
Qed.
Lemma flat_dft p c k : (forall v, In v p -> v = c) -> (0 < k < length p)%nat -> dft p k = c0.
Proof.
  intros H Hk. assert (E : p = map (fun v => 0 * v + c) p).
  { rewrite <- (map_id p) at 1. apply map_ext_in. intros v Hv. rewrite (H v Hv). ring. }
  rewrite E, affine_dft by assumption. apply cx_eq; cbn; ring.
Qed.
Lemma flat_error fuel brentq p t c : length t = length p -> (forall v, In v p -> v = c) ->
  (32 <= length p)%nat -> taylor_fftfit (S (S fuel)) brentq p t = Err ValueError.
Proof.
  intros E H L. unfold taylor_fftfit. rewrite E, Nat.eqb_refl. cbn [negb].
  destruct (find_delay_ok fuel (amp_of (fft (map rtoc (demean p))) (fft (map rtoc (demean t)))) (pha_of (fft (map rtoc (demean p))) (fft (map rtoc (demean t))))) as (s & Es).
  { rewrite (amp_len p t E L). assumption. }
  rewrite Es. cbn [bind]. rewrite func_error; [reflexivity|assumption|assumption|].
  rewrite (strong_all p t); [lia|]. intros k Hk. now apply (flat_dft p c).
Qed.

(* ---- copies of the template ---- *)
Lemma copy_len m a c t p : copy_of m a c t p -> length p = length t.
Proof. intros (y & [L _] & ->). now rewrite map_length. Qed.
Lemma copy_dft m a c t p k : copy_of m a c t p -> (0 < k < length t)%nat -> dft p k = cscal (cmul (dft t k) (cis (length t) (- Z.of_nat (k * m)))) a.
Proof.
  intros (y & D & ->) H. rewrite affine_dft by (rewrite (proj1 D); assumption). f_equal. apply dft_delay; [|assumption].
  intros ->. cbn in H. lia.
Qed.
Lemma copy_harmonic m a c t p k tau : copy_of m a c t p -> (0 < k < length t)%nat ->
  harmonic p t k tau = (a * cnorm2 (dft t k) * cos (2 * PI * INR k * (tau - INR m / INR (length t))),
                        a * cnorm2 (dft t k) * sin (2 * PI * INR k * (tau - INR m / INR (length t)))).
Proof.
  intros H Hk. unfold harmonic. rewrite (copy_dft m a c t p k H Hk). set (n := length t) in *. set (T := dft t k).
  assert (N : INR n <> 0) by (apply not_0_INR; lia).
  unfold cis. rewrite opp_IZR, <- INR_IZR_INZ, mult_INR.
  replace (2 * PI * - (INR k * INR m) / INR n) with (- (2 * PI * INR k * (INR m / INR n))) by (field; assumption).
  rewrite cos_neg, sin_neg. replace (2 * PI * INR k * (tau - INR m / INR n)) with (2 * PI * INR k * tau - 2 * PI * INR k * (INR m / INR n)) by ring.
  rewrite cos_minus, sin_minus. apply cx_eq; unfold cmul, cscal, cconj, cnorm2; cbn [re im fst snd]; ring.
Qed.
Lemma copy_solves m a c t p K : copy_of m a c t p -> (K < length t)%nat -> slope p t K (INR m / INR (length t)) = 0.
Proof.
  intros H HK. unfold slope, hsum.
  assert (G : forall l, (forall k, In k l -> (0 < k < length t)%nat) -> rlsum (map (fun k => INR k * im (harmonic p t k (INR m / INR (length t)))) l) = 0).
  { induction l as [|k l IH]; intros B; [reflexivity|]. cbn [map rlsum fold_right].
    fold (rlsum (map (fun k => INR k * im (harmonic p t k (INR m / INR (length t)))) l)). rewrite IH by (intros; apply B; now right).
    rewrite (copy_harmonic m a c) by (auto; apply B; now left). rewrite Rminus_diag_eq by reflexivity. rewrite Rmult_0_r, sin_0. cbn [im snd]. ring. }
  apply G. intros k Hk. apply in_seq in Hk. lia.
Qed.
Lemma copy_scale m a c t p K : copy_of m a c t p -> (K < length t)%nat -> correlation p t K (INR m / INR (length t)) = a * tpower t K.
Proof.
  intros H HK. unfold correlation, tpower, hsum.
  assert (G : forall l, (forall k, In k l -> (0 < k < length t)%nat) ->
    rlsum (map (fun k => re (harmonic p t k (INR m / INR (length t)))) l) = a * rlsum (map (fun k => cnorm2 (dft t k)) l)).
  { induction l as [|k l IH]; intros B; [cbn; ring|]. cbn [map rlsum fold_right].
    fold (rlsum (map (fun k => re (harmonic p t k (INR m / INR (length t)))) l)). fold (rlsum (map (fun k => cnorm2 (dft t k)) l)).
    rewrite IH by (intros; apply B; now right).
    rewrite (copy_harmonic m a c) by (auto; apply B; now left). rewrite Rminus_diag_eq by reflexivity. rewrite Rmult_0_r, cos_0. cbn [re fst]. ring. }
  apply G. intros k Hk. apply in_seq in Hk. lia.
Qed.
