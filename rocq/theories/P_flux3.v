(* P_flux3.v: cases where the light curves of segments and the average count rates are not what is expected. *)
From Coq Require Import Reals Qreals Lqa Lia.
From Verif Require Import Np Lib M_gti M_seg M_utils Cplx M_fourier M_flux S_gti S_seg S_utils S_flux S_fourier P_gti_final P_seg_cut P_avg P_flux P_flux2.
Open Scope Q_scope.

Lemma nondec_dec l : is_sorted l = true -> nondecreasing l.
Proof. apply is_sorted_iff. Qed.
Lemma bin_width_refuted : exists times t0 t1 dt n f t k v,
  good [(t0, t1)] /\ 0 < dt /\ nondecreasing times /\ segment_and_bins [(t0, t1)] None dt None = Ok (None, n) /\
  get_flux_iterable true times [(t0, t1)] None (Some n) dt None None = Ok [Some (f, None)] /\
  In t times /\ t0 + nq k * dt <= t /\ t < t0 + nq (S k) * dt /\ nth_error f k = Some v /\ v == 0.
Proof.
  exists [0; 21 # 20; 3], 0, (11 # 2), 1, 5%nat. eexists. exists (21 # 20), 1%nat. eexists.
  split; [apply good_dec; reflexivity|]. split; [reflexivity|]. split; [apply nondec_dec; reflexivity|].
  split; [vm_compute; reflexivity|]. split; [vm_compute; reflexivity|].
  split; [right; left; reflexivity|]. split; [discriminate|]. split; [reflexivity|]. split; [reflexivity|]. reflexivity.
Qed.
Lemma outside_refuted : exists times g dt n f t k v,
  good g /\ 0 < dt /\ nondecreasing times /\ segment_and_bins g None dt None = Ok (None, n) /\
  get_flux_iterable true times g None (Some n) dt None None = Ok [Some (f, None)] /\
  ~ covered_closed g t /\ (forall u, In u times -> ~ covered_closed g u -> u = t) /\ nth_error f k = Some v /\ v == 1.
Proof.
  exists [1; 3; 5], [(0, 2); (4, 6)], (1 # 2), 12%nat. eexists. exists 3, 6%nat. eexists.
  split; [apply good_dec; reflexivity|]. split; [reflexivity|]. split; [apply nondec_dec; reflexivity|].
  split; [vm_compute; reflexivity|]. split; [vm_compute; reflexivity|].
  split. { intros (a & b & [H|[H|[]]] & A & B); injection H as <- <-; lra. }
  split. { intros u [<-|[<-|[<-|[]]]] C; [|reflexivity|]; exfalso; apply C; [exists 0, 2|exists 4, 6]; (split; [cbn; tauto|lra]). }
  split; reflexivity.
Qed.

Definition rex_times : list Q := [0; 1; 2; 4].
Lemma rex_flux : exists f, get_flux_iterable true rex_times [(0, 6)] (Some 3) (Some 3%nat) 1 None None = Ok [Some (f, None); None] /\ Forall2 Qeq f [1; 1; 1].
Proof. eexists. split; [vm_compute; reflexivity|]. repeat constructor. Qed.
Lemma q2r_1 : Q2R 1 = 1%R.
Proof. unfold Q2R. cbn. rewrite Rinv_1. apply Rmult_1_r. Qed.
Lemma rate_refuted : exists times g size dt r t, good g /\ nondecreasing times /\ 0 < dt /\
  get_average_ctrate times g size None = Ok r /\
  avg_pds_from_timeseries true times g (Some size) dt NoNorm true None None false = Ok (Some t) /\
  (p_mean t / p_dt t)%R <> Q2R r.
Proof.
  exists rex_times, [(0, 6)], 3, 1. eexists. eexists. split; [apply good_dec; reflexivity|]. split; [apply nondec_dec; reflexivity|].
  split; [reflexivity|]. split; [vm_compute; reflexivity|].
  assert (Sb : segment_and_bins [(0, 6)] (Some 3) 1 None = Ok (Some (3 * 1), 3%nat)) by (vm_compute; reflexivity).
  unfold avg_pds_from_timeseries. rewrite Sb. cbn [bind fst snd]. change (3 * 1) with 3.
  destruct rex_flux as (f & Ef & Eq). rewrite Ef. cbn [bind map real_item option_map fst snd]. rewrite (q2r_list _ _ Eq). cbn [map]. rewrite q2r_1.
  set (s := {| s_flux := [1%R; 1%R; 1%R]; s_err := None |}). set (segs := [Some s; None]).
  assert (C : tuples_nonzero segs) by (intros u [H|[H|[]]] He; [injection H as <-; cbn in He; congruence|discriminate]).
  assert (U : usable segs = [s]).
  { cbn. unfold nonzero. cbn. destruct (Req_EM_T 1 0) as [X|X]; [exfalso; apply R1_neq_R0; exact X|]. reflexivity. }
  assert (Ln : forall u, In u (usable segs) -> length (s_flux u) = 3%nat) by (rewrite U; intros u [<-|[]]; reflexivity).
  rewrite (avg_pds_common segs 1 NoNorm false 3 ltac:(lia) C Ln). rewrite U. split; [reflexivity|].
  cbn [p_mean p_dt]. unfold avg, photons. cbn. unfold Q2R. cbn. intros X. revert X. clear.
  intros X. apply (f_equal (fun z => (z * 6)%R)) in X. field_simplify in X. apply eq_IZR in X. discriminate.
Qed.
