(* P_fad4.v: brightness, errors, and cases where the Fourier amplitude difference correction goes wrong *)
From Coq Require Import Reals Qreals.
From Verif Require Import Np M_gti M_utils Cplx M_fourier M_flux S_gti S_flux S_utils S_fourier S_fad M_fad P_dft P_norm P_avg P_avgcs P_lag P_gti_final P_fad P_fad2 P_fad3 P_flux3.
From Coq Require Import Reals List Bool Arith Lra Lia.
From Coq Require Lqa.
Import ListNotations.
Open Scope R_scope.

(* ---- brighter sources ---- *)
Definition brighter (a : R) (s : seg) : seg := Build_seg (map (Rmult a) (s_flux s)) (s_err s).
Definition brighter_o (a : R) (o : option seg) : option seg := option_map (brighter a) o.
Definition brighter2 (a : R) (p : seg * seg) : seg * seg := (brighter a (fst p), brighter a (snd p)).
Lemma both_brighter a segs1 segs2 : both (map (brighter_o a) segs1) (map (brighter_o a) segs2) = map (brighter2 a) (both segs1 segs2).
Proof.
  revert segs2. induction segs1 as [|o1 l1 IH]; intros [|o2 l2]; try reflexivity. cbn [map]. rewrite !both_cons, IH, map_app. destruct o1, o2; reflexivity.
Qed.
Lemma val_scaled a l j : val (map (Rmult a) l) j = a * val l j.
Proof. unfold val. replace 0 with (a * 0) at 1 by ring. apply map_nth. Qed.
Lemma dft_scaled a l k : dft (map (Rmult a) l) k = cscal (dft l k) a.
Proof.
  unfold dft, cscal, re, im. rewrite map_length. cbn [fst snd]. f_equal.
  - rewrite <- rs_scal. apply rs_ext. intros j _. rewrite val_scaled. ring.
  - rewrite Ropp_mult_distr_l_reverse. f_equal. rewrite <- rs_scal. apply rs_ext. intros j _. rewrite val_scaled. ring.
Qed.
Lemma photons_brighter a s : photons (brighter a s) = a * photons s.
Proof. unfold photons, brighter. cbn [s_flux]. induction (s_flux s) as [|x l IH]; cbn; [ring|]. unfold rlsum in IH. rewrite IH. ring. Qed.
Lemma weight_scaled a v : 0 < a -> 0 < v -> a * sqrt (2 / (a * v)) = sqrt a * sqrt (2 / v).
Proof.
  intros A V. assert (D : 0 < sqrt (a * v)) by (apply sqrt_lt_R0; apply Rmult_lt_0_compat; assumption).
  rewrite !sqrt_div by (try lra; try apply Rmult_lt_0_compat; lra). rewrite sqrt_mult by lra.
  assert (SA : 0 < sqrt a) by (apply sqrt_lt_R0; lra). assert (SV : 0 < sqrt v) by (apply sqrt_lt_R0; lra).
  replace a with (sqrt a * sqrt a) at 1 by (apply sqrt_sqrt; lra). field. split; lra.
Qed.
Lemma diff_brighter a p k : 0 < a -> 0 < photons (fst p) -> 0 < photons (snd p) -> leahy_difference (brighter2 a p) k = cscal (leahy_difference p k) (sqrt a).
Proof.
  intros A P1 P2. unfold leahy_difference, brighter2. cbn [fst snd]. rewrite !photons_brighter. unfold brighter. cbn [s_flux]. rewrite !dft_scaled. unfold cscal, re, im. cbn [fst snd].
  pose proof (weight_scaled a _ A P1) as W1. pose proof (weight_scaled a _ A P2) as W2.
  f_equal.
  - replace (fst (dft (s_flux (fst p)) k) * a * sqrt (2 / (a * photons (fst p)))) with (fst (dft (s_flux (fst p)) k) * (a * sqrt (2 / (a * photons (fst p))))) by ring.
    replace (fst (dft (s_flux (snd p)) k) * a * sqrt (2 / (a * photons (snd p)))) with (fst (dft (s_flux (snd p)) k) * (a * sqrt (2 / (a * photons (snd p))))) by ring. rewrite W1, W2. ring.
  - replace (snd (dft (s_flux (fst p)) k) * a * sqrt (2 / (a * photons (fst p)))) with (snd (dft (s_flux (fst p)) k) * (a * sqrt (2 / (a * photons (fst p))))) by ring.
    replace (snd (dft (s_flux (snd p)) k) * a * sqrt (2 / (a * photons (snd p)))) with (snd (dft (s_flux (snd p)) k) * (a * sqrt (2 / (a * photons (snd p))))) by ring. rewrite W1, W2. ring.
Qed.
Lemma scatter_brighter smooth n a p k : 0 < a -> 0 < photons (fst p) -> 0 < photons (snd p) ->
  (forall c l, smooth (map (Rmult c) l) = map (Rmult c) (smooth l)) -> scatter smooth n (brighter2 a p) k = a * scatter smooth n p k.
Proof.
  intros A P1 P2 H. unfold scatter. rewrite (map_ext _ (fun j => a * re (leahy_difference p j) ^ 2)).
  - rewrite <- (map_map (fun j => re (leahy_difference p j) ^ 2) (Rmult a)), H. replace 0 with (a * 0) at 1 by ring. apply map_nth.
  - intros j. rewrite diff_brighter by assumption. unfold cscal, re. cbn [fst pow].
    transitivity (sqrt a * sqrt a * (fst (leahy_difference p j) * (fst (leahy_difference p j) * 1))); [ring|]. rewrite sqrt_sqrt by lra. ring.
Qed.
Lemma avg_brighter a (f : seg * seg -> R) us : avg f (map (brighter2 a) us) = avg (fun p => f (brighter2 a p)) us.
Proof. unfold avg. now rewrite map_map, map_length. Qed.
Lemma cavg_brighter a (f : seg * seg -> cx) us : cavg f (map (brighter2 a) us) = cavg (fun p => f (brighter2 a p)) us.
Proof. unfold cavg. now rewrite !avg_brighter. Qed.
Lemma together_brighter a p : together (brighter2 a p) = map (Rmult a) (together p).
Proof.
  unfold together, brighter2, brighter. cbn [fst snd s_flux]. generalize (s_flux (fst p)) (s_flux (snd p)). induction l as [|x l IH]; intros [|y m]; try reflexivity.
  cbn [map combine fst snd]. rewrite IH. f_equal. ring.
Qed.
Lemma power_scaled a l k : power_at (map (Rmult a) l) k = a * a * power_at l k.
Proof. unfold power_at. rewrite dft_scaled. unfold cscal, re, im. cbn [fst snd]. ring. Qed.
Lemma pow_gain a x s v : 0 < a -> s <> 0 -> v <> 0 -> 2 * (a * a * x) / (a * s) * (2 / (a * v)) = 2 * x / s * (2 / v).
Proof. intros A S V. field. repeat split; lra || assumption. Qed.
Lemma fad_brighter gaussian len tol strict dt segs1 segs2 n a t :
  (forall l s, length (gaussian l s) = length l) -> (forall c l s, gaussian (map (Rmult c) l) s = map (Rmult c) (gaussian l s)) ->
  (0 < n)%nat -> 0 < a -> fits n segs1 segs2 -> both segs1 segs2 <> [] ->
  (forall p, In p (both segs1 segs2) -> 0 < photons (fst p) /\ 0 < photons (snd p)) ->
  (forall p k, In p (both segs1 segs2) -> (1 <= k <= n_pos n)%nat -> 0 < scatter (fun l => gaussian l (length_used len n dt)) n p k) ->
  fad gaussian true len tol strict dt Leahy segs1 segs2 = Ok t ->
  exists t', fad gaussian true len tol strict dt Leahy (map (brighter_o a) segs1) (map (brighter_o a) segs2) = Ok t' /\
    t_freq t' = t_freq t /\ t_pds1 t' = t_pds1 t /\ t_pds2 t' = t_pds2 t /\ t_cs t' = t_cs t /\ t_ptot t' = t_ptot t /\ t_fad t' = t_fad t /\
    t_delta t' = t_delta t /\ t_compliant t' = t_compliant t /\ t_nph t' = a * t_nph t.
Proof.
  intros Hg Hh Hn A F NE P S T.
  assert (F' : fits n (map (brighter_o a) segs1) (map (brighter_o a) segs2)).
  { intros p I. rewrite both_brighter in I. apply in_map_iff in I. destruct I as (q & <- & I). destruct (F q I) as (L1 & L2 & E1 & E2).
    unfold brighter2, brighter. cbn [fst snd s_flux s_err]. rewrite !map_length. auto. }
  assert (NE' : both (map (brighter_o a) segs1) (map (brighter_o a) segs2) <> []) by (rewrite both_brighter; intros E; apply map_eq_nil in E; contradiction).
  assert (Hk : kind Leahy None <> None) by discriminate.
  pose proof (fad_columns gaussian len tol strict dt Leahy segs1 segs2 n Hg Hn Hk F NE) as C. cbv zeta in C. rewrite T in C.
  pose proof (fad_columns gaussian len tol strict dt Leahy _ _ n Hg Hn Hk F' NE') as C'. cbv zeta in C'. rewrite C'. clear C'. rewrite both_brighter.
  set (us := both segs1 segs2) in *. set (smooth := fun l => gaussian l (length_used len n dt)) in *. set (ks := seq 1 (n_pos n)) in *.
  assert (Hs : forall c l, smooth (map (Rmult c) l) = map (Rmult c) (smooth l)) by (intros c l; apply Hh).
  assert (SB : forall p k, In p us -> scatter smooth n (brighter2 a p) k = a * scatter smooth n p k) by (intros p k I; destruct (P p I); now apply scatter_brighter).
  assert (KS : forall k, In k ks -> (1 <= k <= n_pos n)%nat) by (intros k I; apply in_seq in I; lia).
  assert (SA : 0 < sqrt a) by (apply sqrt_lt_R0; exact A).
  assert (FK : map (corrected_difference smooth n (map (brighter2 a) us)) ks = map (corrected_difference smooth n us) ks).
  { apply map_ext_in. intros k K. unfold corrected_difference. rewrite cavg_brighter. apply cavg_ext. intros p I. destruct (P p I) as [P1 P2]. rewrite SB, diff_brighter by assumption.
    pose proof (S p k I (KS k K)) as Q. rewrite sqrt_mult by lra. assert (SQ : 0 < sqrt (scatter smooth n p k)) by (apply sqrt_lt_R0; exact Q).
    apply cx_eq; unfold cscal, re, im; cbn [fst snd]; field; split; lra. }
  rewrite FK, map_length.
  set (delta := (spread _ - _) / _) in *. set (compliant := if Rlt_dec (Rabs delta) tol then true else false) in *.
  destruct (strict && negb compliant)%bool; [discriminate C|].
  apply (f_equal (fun r => match r with Ok v => v | Err _ => t end)) in C. rewrite C. eexists. split; [reflexivity|].
  cbn [t_freq t_pds1 t_pds2 t_cs t_ptot t_fad t_delta t_compliant t_nph].
  assert (R1 : forall (f g : seg * seg -> nat -> R), (forall p k, In p us -> In k ks -> f (brighter2 a p) k = g p k) -> map (fun k => avg (fun p => f p k) (map (brighter2 a) us)) ks = map (fun k => avg (fun p => g p k) us) ks).
  { intros f g H. apply map_ext_in. intros k K. rewrite avg_brighter. apply avg_ext. intros p I. now apply H. }
  split; [reflexivity|]. split; [|split; [|split; [|split; [|split; [reflexivity|split; [reflexivity|split; [reflexivity|]]]]]]].
  - apply R1. intros p k I K. pose proof (S p k I (KS k K)) as Q. destruct (P p I) as [P1 P2]. rewrite SB by exact I. unfold fac, kind, factor, S_fourier.pow1. cbn [brighter2 fst]. rewrite photons_brighter. cbn [brighter s_flux].
    rewrite power_scaled. apply pow_gain; lra.
  - apply R1. intros p k I K. pose proof (S p k I (KS k K)) as Q. destruct (P p I) as [P1 P2]. rewrite SB by exact I. unfold fac, kind, factor, S_fourier.pow2. cbn [brighter2 snd]. rewrite photons_brighter. cbn [brighter s_flux].
    rewrite power_scaled. apply pow_gain; lra.
  - apply map_ext_in. intros k K. rewrite cavg_brighter. apply cavg_ext. intros p I. pose proof (S p k I (KS k K)) as Q. destruct (P p I) as [P1 P2]. rewrite SB by exact I. unfold fac, kind, factor.
    assert (PP : pph (brighter2 a p) = a * pph p). { unfold pph, gmean. cbn [brighter2 fst snd]. rewrite !photons_brighter. replace (a * photons (fst p) * (a * photons (snd p))) with (a * a * (photons (fst p) * photons (snd p))) by ring.
      rewrite sqrt_mult by (apply Rmult_le_pos; lra). now rewrite sqrt_square by lra. }
    assert (PQ : 0 < pph p) by (unfold pph, gmean; apply sqrt_lt_R0; apply Rmult_lt_0_compat; lra).
    rewrite PP. unfold cpower, cross_at. cbn [brighter2 brighter fst snd s_flux]. rewrite !dft_scaled. apply cx_eq; unfold cscal, re, im; cbn [fst snd]; field; repeat split; lra.
  - apply R1. intros p k I K. pose proof (S p k I (KS k K)) as Q. destruct (P p I) as [P1 P2]. rewrite SB by exact I. unfold fac, kind, factor. rewrite together_brighter, power_scaled. cbn [brighter2 fst snd]. rewrite !photons_brighter, <- Rmult_plus_distr_l.
    apply pow_gain; lra.
  - rewrite avg_brighter, <- avg_scal. apply avg_ext. intros p _. cbn [brighter2 fst snd]. rewrite !photons_brighter. ring.
Qed.

(* ---- errors ---- *)
Lemma fad_nothing gaussian alg len tol strict dt norm segs1 segs2 : both segs1 segs2 = [] -> fad gaussian alg len tol strict dt norm segs1 segs2 = Err ZeroDivisionError.
Proof.
  intros E. unfold fad. assert (L : forall st, loop (fad_step gaussian alg dt norm) st (combine segs1 segs2) = Ok st).
  { revert segs2 E. induction segs1 as [|o1 l1 IH]; intros [|o2 l2] E st; try reflexivity. rewrite both_cons in E. destruct o1, o2; cbn [app] in E; try discriminate E; cbn [combine loop fad_step bind]; now apply IH. }
  rewrite L. reflexivity.
Qed.
Lemma fad_algorithm gaussian len tol strict dt norm segs1 segs2 : both segs1 segs2 <> [] -> (forall p, In p (both segs1 segs2) -> s_err (fst p) = None /\ s_err (snd p) = None) ->
  fad gaussian false len tol strict dt norm segs1 segs2 = Err ValueError.
Proof.
  intros NE H. unfold fad. assert (L : forall st, loop (fad_step gaussian false dt norm) st (combine segs1 segs2) = Err ValueError).
  { revert segs2 NE H. induction segs1 as [|o1 l1 IH]; intros [|o2 l2] NE H st; try (cbn in NE; contradiction). rewrite both_cons in *. destruct o1 as [s1|], o2 as [s2|]; cbn [app] in *; try (cbn [combine loop fad_step bind]; now apply IH).
    destruct (H (s1, s2) (or_introl eq_refl)) as [E1 E2]. cbn [fst snd] in *. cbn [combine loop]. unfold fad_step. rewrite E1, E2. cbv zeta. unfold vmap2. destruct (Nat.eqb _ _); cbn [bind negb]; [|reflexivity]. destruct (Nat.eqb _ _); reflexivity. }
  rewrite L. reflexivity.
Qed.
Lemma fad_uncertain gaussian alg len tol strict dt norm segs1 segs2 : both segs1 segs2 <> [] -> (forall p, In p (both segs1 segs2) -> s_err (fst p) <> None \/ s_err (snd p) <> None) ->
  fad gaussian alg len tol strict dt norm segs1 segs2 = Err AttributeError.
Proof.
  intros NE H. unfold fad. assert (L : forall st, loop (fad_step gaussian alg dt norm) st (combine segs1 segs2) = Err AttributeError).
  { revert segs2 NE H. induction segs1 as [|o1 l1 IH]; intros [|o2 l2] NE H st; try (cbn in NE; contradiction). rewrite both_cons in *. destruct o1 as [s1|], o2 as [s2|]; cbn [app] in *; try (cbn [combine loop fad_step bind]; now apply IH).
    specialize (H (s1, s2) (or_introl eq_refl)). cbn [fst snd] in *. cbn [combine loop]. unfold fad_step. destruct (s_err s1), (s_err s2); try reflexivity. destruct H; congruence. }
  rewrite L. reflexivity.
Qed.
Lemma fad_norm gaussian len tol strict dt segs1 segs2 n : both segs1 segs2 <> [] -> (0 < n)%nat -> fits n segs1 segs2 ->
  fad gaussian true len tol strict dt OtherNorm segs1 segs2 = Err ValueError.
Proof.
  intros NE Hn H. unfold fad. assert (L : forall st, d_grid st = None -> loop (fad_step gaussian true dt OtherNorm) st (combine segs1 segs2) = Err ValueError).
  { revert segs2 NE H. unfold fits. induction segs1 as [|o1 l1 IH]; intros [|o2 l2] NE H st G; try (cbn in NE; contradiction). rewrite both_cons in *. destruct o1 as [s1|], o2 as [s2|]; cbn [app] in *; try (cbn [combine loop fad_step bind]; now apply IH).
    destruct (H (s1, s2) (or_introl eq_refl)) as (L1 & L2 & E1 & E2). cbn [fst snd] in *. cbn [combine loop]. unfold fad_step. rewrite E1, E2, G. cbv zeta. cbn [fst]. rewrite !fft_map, L1, L2, !(cut_pos _ n Hn), !cmulr_map.
    unfold vmap2 at 1. rewrite L1, L2, Nat.eqb_refl. cbn [bind]. rewrite vmap2_map. cbn [bind negb]. rewrite map_map, vmap2_map. cbn [bind].
    rewrite (norm_factor rmul rmul_mul rmul_1). reflexivity. }
  rewrite L by reflexivity. reflexivity.
Qed.

(* ---- objects made from the table ---- *)
Lemma periodogram_fields t kd g : periodograms_from_fad t kd = Ok g ->
  g_freq g = t_freq t /\ g_m g = t_m t /\ g_df g = t_df t /\ g_dt g = t_dt t /\ g_norm g = t_norm t /\ g_n g = (2 * length (t_freq t))%nat /\
  (g_power g, g_unnorm g, g_nphots g) = match kd with
    | KPds1 => (map rtoc (t_pds1 t), map rtoc (t_pds1u t), (t_nph1 t, t_nph1 t))
    | KPds2 => (map rtoc (t_pds2 t), map rtoc (t_pds2u t), (t_nph2 t, t_nph2 t))
    | KPtot => (map rtoc (t_ptot t), map rtoc (t_ptotu t), (t_nph t, t_nph t))
    | _ => (t_cs t, t_csu t, (t_nph1 t, t_nph2 t)) end /\
  length (g_err g) = length (g_power g) /\ Forall (fun z => z = c0) (g_err g) /\ length (g_unnorm_err g) = length (g_unnorm g) /\ Forall (fun z => z = c0) (g_unnorm_err g).
Proof.
  intros H. assert (Z : forall l : list cx, Forall (fun z => z = c0) (map (fun _ => c0) l)) by (intros l; apply Forall_forall; intros z I; apply in_map_iff in I; destruct I as (? & <- & _); reflexivity).
  destruct kd; try discriminate H; apply (f_equal (fun r => match r with Ok v => v | Err _ => g end)) in H; cbn [periodograms_from_fad] in H; rewrite <- H; unfold periodogram_of; cbn [g_freq g_power g_unnorm g_err g_unnorm_err g_nphots g_m g_df g_dt g_n g_norm];
    rewrite (Nat.mul_comm (length (t_freq t))), !map_length; repeat (split; [reflexivity || apply Z|]); apply Z.
Qed.
Lemma periodogram_unknown t : periodograms_from_fad t KUnknown = Err ValueError.
Proof. reflexivity. Qed.
(* the number of bins of a segment is never the one that was used *)
Lemma bins_error gaussian len tol strict dt norm segs1 segs2 n t kd g :
  (forall l s, length (gaussian l s) = length l) -> (0 < n)%nat -> kind norm None <> None -> fits n segs1 segs2 -> both segs1 segs2 <> [] ->
  fad gaussian true len tol strict dt norm segs1 segs2 = Ok t -> periodograms_from_fad t kd = Ok g ->
  g_n g = (if Nat.even n then n - 2 else n - 1)%nat /\ g_n g <> n.
Proof.
  intros Hg Hn Hk F NE T G. destruct (periodogram_fields t kd g G) as (_ & _ & _ & _ & _ & E & _).
  pose proof (fad_columns gaussian len tol strict dt norm segs1 segs2 n Hg Hn Hk F NE) as C. cbv zeta in C. rewrite T in C.
  destruct (strict && _)%bool in C; [discriminate C|]. apply (f_equal (fun r => match r with Ok v => v | Err _ => t end)) in C.
  assert (L : length (t_freq t) = n_pos n) by (rewrite C; cbn [t_freq]; now rewrite map_length, seq_length).
  rewrite E, L. unfold n_pos. destruct (Nat.even n) eqn:V.
  - apply Nat.even_spec in V. destruct V as [m ->]. replace ((2 * m - 1) / 2)%nat with (m - 1)%nat; [lia|]. apply Nat.div_unique with (1%nat); lia.
  - assert (O : Nat.odd n = true) by (unfold Nat.odd; now rewrite V). apply Nat.odd_spec in O. destruct O as [m ->]. replace ((2 * m + 1 - 1) / 2)%nat with m; [lia|]. apply Nat.div_unique with (0%nat); lia.
Qed.
