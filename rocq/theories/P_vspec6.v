(* P_vspec6.v: the statements in one piece, and examples. *)
From Coq Require Import Reals Qreals.
From Verif Require Import Np Lib M_gti M_seg M_utils M_exvar Cplx M_fourier M_flux M_vspec S_gti S_seg S_utils S_flux S_fourier S_vspec P_dft P_lag P_exvar P_helpers P_segan P_norm P_avg P_rms2 P_flux P_flux2 P_flux3 P_gti_cross P_gti_final P_vspec P_vspec2 P_vspec3 P_vspec4 P_vspec5.
From Coq Require Import Reals Qreals List Bool Arith Lra Lia.
Import ListNotations.
Open Scope R_scope.

Lemma forall2_weak {A B} (P Q : A -> B -> Prop) l m : (forall a b, P a b -> Q a b) -> Forall2 P l m -> Forall2 Q l m.
Proof.
  intros H F. induction F; constructor; auto.
Qed.
Lemma rms_one numba srt (up frac : bool) f0 f1 seg dt n st ev en ivs :
  observed (ev_gti ev) seg dt n st -> photons_with (ev_time ev) (ev_energy ev) en ->
  exists rows, rms_spectrum numba srt up ev None ivs f0 f1 dt seg frac = Ok rows /\
    Forall2 (fun iv v => rms_auto_is frac (band_times (ev_time ev) en iv) n dt st (chosen n dt f0 f1) v) ivs rows.
Proof.
  intros (A & B & C & D & E) (F & G & H). exact (rms_auto numba srt frac f0 f1 (ev_gti ev) seg dt n st A B C D E up ev en ivs eq_refl F G H).
Qed.
Lemma rms_two numba srt (up frac : bool) f0 f1 g seg dt n st e1 e2 en1 en2 ivs :
  cross_two_gtis srt (ev_gti e1) (ev_gti e2) = Ok g -> observed g seg dt n st ->
  photons_with (ev_time e1) (ev_energy e1) en1 -> photons_with (ev_time e2) (ev_energy e2) en2 ->
  exists rows, rms_spectrum numba srt up e1 (Some e2) ivs f0 f1 dt seg frac = Ok rows /\
    Forall2 (fun iv v => rms_cross_is frac (band_times (ev_time e1) en1 iv) (band_times (ev_time e2) en2 iv) n dt st (chosen n dt f0 f1) v) ivs rows.
Proof.
  intros X (A & B & C & D & E) (F & G & H) (F2 & G2 & H2). exact (rms_cross numba srt frac f0 f1 g seg dt n st A B C D E up e1 e2 en1 en2 ivs X F G H F2 G2 H2).
Qed.
Lemma lag_one numba srt (up : bool) f0 f1 seg dt n st ev en ivs rb :
  sorts_by t_end srt -> observed (ev_gti ev) seg dt n st -> photons_with (ev_time ev) (ev_energy ev) en -> proper rb -> Forall proper ivs ->
  let ref := band_times (ev_time ev) en rb in
  (busy_in ref (nq n * dt) st = [] -> lag_spectrum numba srt up ev None ivs [rb] f0 f1 dt seg = Err AttributeError) /\
  (busy_in ref (nq n * dt) st <> [] -> exists rows, lag_spectrum numba srt up ev None ivs [rb] f0 f1 dt seg = Ok rows /\
     Forall2 (fun iv v => exists common, (common = true <-> share iv rb) /\ lag_is common (band_times (ev_time ev) en iv) ref n dt st (chosen n dt f0 f1) v) ivs rows).
Proof.
  intros S (A & B & C & D & E) (F & G & H) R I ref. destruct (lag_final numba srt f0 f1 (ev_gti ev) seg dt n st A B C D E S up ev None en en ivs rb eq_refl F G H F G H R I) as [X Y].
  split; [exact X|]. intros N. destruct (Y N) as (rows & Z & W). exists rows. split; [exact Z|]. eapply forall2_weak; [|exact W]. intros iv v (c & U & V). exists c. split; [|exact V]. rewrite U. intuition.
Qed.
Lemma lag_two numba srt (up : bool) f0 f1 g seg dt n st e1 e2 en1 en2 ivs rb :
  sorts_by t_end srt -> cross_two_gtis srt (ev_gti e1) (ev_gti e2) = Ok g -> observed g seg dt n st ->
  photons_with (ev_time e1) (ev_energy e1) en1 -> photons_with (ev_time e2) (ev_energy e2) en2 -> proper rb -> Forall proper ivs ->
  let ref := band_times (ev_time e2) en2 rb in
  (busy_in ref (nq n * dt) st = [] -> lag_spectrum numba srt up e1 (Some e2) ivs [rb] f0 f1 dt seg = Err AttributeError) /\
  (busy_in ref (nq n * dt) st <> [] -> exists rows, lag_spectrum numba srt up e1 (Some e2) ivs [rb] f0 f1 dt seg = Ok rows /\
     Forall2 (fun iv v => lag_is false (band_times (ev_time e1) en1 iv) ref n dt st (chosen n dt f0 f1) v) ivs rows).
Proof.
  intros S X0 (A & B & C & D & E) (F & G & H) (F2 & G2 & H2) R I ref. destruct (lag_final numba srt f0 f1 g seg dt n st A B C D E S up e1 (Some e2) en1 en2 ivs rb X0 F G H F2 G2 H2 R I) as [X Y].
  split; [exact X|]. intros N. destruct (Y N) as (rows & Z & W). exists rows. split; [exact Z|]. eapply forall2_weak; [|exact W]. intros iv v (c & U & V). destruct c; [destruct (proj1 U eq_refl); discriminate|exact V].
Qed.
Lemma cov_one numba srt (up complex frac : bool) minph f0 f1 seg dt n st ev en ivs rb :
  sorts_by t_end srt -> observed (ev_gti ev) seg dt n st -> photons_with (ev_time ev) (ev_energy ev) en -> proper rb -> Forall proper ivs ->
  let ref := band_times (ev_time ev) en rb in
  (busy_in ref (nq n * dt) st = [] -> covariance_spectrum numba srt up complex frac minph ev None ivs [rb] f0 f1 dt seg = Err TypeError) /\
  (busy_in ref (nq n * dt) st <> [] -> exists rows, covariance_spectrum numba srt up complex frac minph ev None ivs [rb] f0 f1 dt seg = Ok rows /\
     Forall2 (fun iv v => exists common, (common = true <-> share iv rb) /\ covariance_is complex frac (Q2R minph) common (band_times (ev_time ev) en iv) ref n dt st (chosen n dt f0 f1) v) ivs rows).
Proof.
  intros S (A & B & C & D & E) (F & G & H) R I ref. destruct (cov_final numba srt f0 f1 (ev_gti ev) seg dt n st A B C D E S up complex frac minph ev None en en ivs rb eq_refl F G H F G H R I) as [X Y].
  split; [exact X|]. intros N. destruct (Y N) as (rows & Z & W). exists rows. split; [exact Z|]. eapply forall2_weak; [|exact W]. intros iv v (c & U & V). exists c. split; [|exact V]. rewrite U. intuition.
Qed.
Lemma cov_two numba srt (up complex frac : bool) minph f0 f1 g seg dt n st e1 e2 en1 en2 ivs rb :
  sorts_by t_end srt -> cross_two_gtis srt (ev_gti e1) (ev_gti e2) = Ok g -> observed g seg dt n st ->
  photons_with (ev_time e1) (ev_energy e1) en1 -> photons_with (ev_time e2) (ev_energy e2) en2 -> proper rb -> Forall proper ivs ->
  let ref := band_times (ev_time e2) en2 rb in
  (busy_in ref (nq n * dt) st = [] -> covariance_spectrum numba srt up complex frac minph e1 (Some e2) ivs [rb] f0 f1 dt seg = Err TypeError) /\
  (busy_in ref (nq n * dt) st <> [] -> exists rows, covariance_spectrum numba srt up complex frac minph e1 (Some e2) ivs [rb] f0 f1 dt seg = Ok rows /\
     Forall2 (fun iv v => covariance_is complex frac (Q2R minph) false (band_times (ev_time e1) en1 iv) ref n dt st (chosen n dt f0 f1) v) ivs rows).
Proof.
  intros S X0 (A & B & C & D & E) (F & G & H) (F2 & G2 & H2) R I ref. destruct (cov_final numba srt f0 f1 g seg dt n st A B C D E S up complex frac minph e1 (Some e2) en1 en2 ivs rb X0 F G H F2 G2 H2 R I) as [X Y].
  split; [exact X|]. intros N. destruct (Y N) as (rows & Z & W). exists rows. split; [exact Z|]. eapply forall2_weak; [|exact W]. intros iv v (c & U & V). destruct c; [destruct (proj1 U eq_refl); discriminate|exact V].
Qed.
Lemma excess_refuted : exists ev iv dt rows, excess_variance_spectrum (isort_by t_end) false ev [iv] dt = Ok rows /\ rows = [(None, None)] /\
  exists lc, base_lightcurve (isort_by t_end) false ev dt iv = Ok lc /\ M_lc.lc_counts lc = [1; 1; 3; 1]%Q.
Proof.
  exists ex_ev, (1, 3 # 2)%Q, 1%Q, [(None, None)]. destruct excess_example as [A B]. split; [exact A|]. split; [reflexivity|exact B].
Qed.

(* ---- examples ---- *)
(* 16 photons in the first of 4 bins, energy 1 *)
Definition ev16 : events := mkEv (map (fun i => (nq i / 16)%Q) (seq 0 16)) (Some (repeat 1%Q 16)) None [(0, 4)]%Q.
Lemma ev16_photons : photons_with (ev_time ev16) (ev_energy ev16) (repeat 1%Q 16).
Proof. split; [apply nondec_dec; reflexivity|]. split; reflexivity. Qed.
Lemma ev16_observed : exists st, observed (ev_gti ev16) 4 1 4 st.
Proof.
  assert (Hg : exists a b, In (a, b) [(0, 4)%Q] /\ (4 < b - a + (1 # 100000))%Q) by (exists 0%Q, 4%Q; split; [now left|reflexivity]).
  destruct (ctrate_events [] [(0, 4)%Q] 4 eq_refl (nondec_dec [] eq_refl) Hg) as (st & _ & G & _). exists st. split; [reflexivity|]. split; [lia|]. split; [reflexivity|]. split; [exact Hg|exact G].
Qed.
Lemma ev16_grid : segment_grid (ev_gti ev16) (nq 4 * 1) (1 # 100000) [0%Q].
Proof.
  exists [[0%Q]]. split; [|reflexivity]. constructor; [|constructor]. split.
  - intros k. cbn [length fst snd]. split.
    + intros H. assert (k = 0%nat) by lia. subst. reflexivity.
    + intros H. destruct k; [lia|]. exfalso. assert (4 * 2 <= nq (S (S k)) * (nq 4 * 1))%Q.
      { unfold Qle, Qmult, inject_Z. cbn [Qnum Qden]. lia. }
      revert H. apply Qle_not_lt. cbn [ev_gti ev16 fst snd]. rewrite Qplus_0_l. apply (Qle_trans _ (4 * 2)); [unfold Qle; cbn; lia|exact H0].
  - intros k s H. destruct k; [|destruct k; discriminate H]. cbn in H. injection H as <-. reflexivity.
Qed.
Lemma ev16_setup : observed (ev_gti ev16) 4 1 4 [0%Q].
Proof.
  split; [reflexivity|]. split; [lia|]. split; [reflexivity|]. split; [exists 0%Q, 4%Q; split; [now left|reflexivity]|exact ev16_grid].
Qed.
Lemma ev16_bins : chosen 4 1 (1 / 8) 1 = [1%nat].
Proof.
  assert (E : n_pos 4 = 1%nat) by reflexivity. unfold chosen. rewrite E. cbn [seq filter]. unfold freq_of, length_of. cbn [INR]. unfold Q2R. cbn [Qnum Qden IZR IPR]. destruct (Rle_dec _ _) as [X|X]; [|exfalso; apply X; lra]. destruct (Rlt_dec _ _) as [Y|Y]; [reflexivity|exfalso; apply Y; lra].
Qed.
Lemma ev16_rate : mean_photons (band_times (ev_time ev16) (repeat 1%Q 16) (1, 2)%Q) (nq 4 * 1) [0%Q] = 16.
Proof. unfold mean_photons. rewrite avg_one. assert (E : events_in (band_times (ev_time ev16) (repeat 1%Q 16) (1, 2)%Q) 0 (0 + nq 4 * 1) = 16%nat) by (vm_compute; reflexivity). rewrite E. rewrite INR_IZR_INZ. reflexivity. Qed.
Lemma ev16_busy : busy_in (band_times (ev_time ev16) (repeat 1%Q 16) (1, 2)%Q) (nq 4 * 1) [0%Q] = [0%Q].
Proof. vm_compute. reflexivity. Qed.
Lemma ev16_counts : binned_counts (band_times (ev_time ev16) (repeat 1%Q 16) (1, 2)%Q) (nq 4 * 1) 4 0 = [16; 0; 0; 0].
Proof.
  unfold binned_counts. cbn [seq map].
  repeat match goal with |- context [INR (events_in ?a ?b ?c)] => let v := eval vm_compute in (events_in a b c) in replace (events_in a b c) with v by (vm_compute; reflexivity) end.
  rewrite INR_IZR_INZ. reflexivity.
Qed.
Lemma ev16_power : raw_power (band_times (ev_time ev16) (repeat 1%Q 16) (1, 2)%Q) 1 4 [0%Q] 1 = 256.
Proof.
  unfold raw_power. rewrite avg_one, ev16_counts, power_at_norm. unfold dft, cnorm2. cbn [length re im fst snd]. unfold rs. cbn [seq map rlsum val nth fold_right]. unfold val. cbn [nth]. rewrite Nat.mul_0_l. change (INR 0) with 0. replace (2 * PI * 0 / INR 4) with 0 by (unfold Rdiv; ring). rewrite cos_0, sin_0. ring.
Qed.
