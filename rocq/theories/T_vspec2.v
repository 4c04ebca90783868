(* T_vspec2.v: more property theorems about spectra against energy: columns of the wrong length (C130) and light curves of bands (C131). *)
From Coq Require Import Reals Qreals.
From Verif Require Import Np Lib S_gti S_seg S_utils S_lc S_flux M_gti M_seg M_utils M_lc M_exvar Cplx M_fourier M_flux M_vspec P_lc_make P_vspec7.
From Coq Require Import List Bool Arith Lqa Lia.
Import ListNotations.
Open Scope Q_scope.

Theorem C130_lengths_error : forall (use_pi : bool) (ev : M_vspec.events) band en,
  (if use_pi then ev_pi ev else ev_energy ev) = Some en -> length en <> length (ev_time ev) -> times_from_energy use_pi ev band = Err IndexError.
Proof. exact times_lengths. Qed.
Print Assumptions C130_lengths_error.
Example C130_lengths_nonvacuous : times_from_energy false (mkEv [1; 2; 3] (Some [1; 2]) None [(0, 4)]) (1, 2) = Err IndexError.
Proof.
  reflexivity.
Qed.
Theorem C131_band_light_curve : forall srt use_pi ev dt band gti g0 g1 sub (n : nat),
  cross_two_gtis srt (ev_gti ev) (ev_gti ev) = Ok gti -> get gti 0 = Ok g0 -> get_last gti = Ok g1 ->
  times_from_energy use_pi ev band = Ok sub -> 0 < dt ->
  inject_Z (Z.of_nat n) * dt <= (snd g1 - fst g0) + dt * (1 # 100) -> (snd g1 - fst g0) + dt * (1 # 100) < (inject_Z (Z.of_nat n) + 1) * dt ->
  exists lc, base_lightcurve srt use_pi ev dt band = Ok lc /\ lc_dt lc = dt /\ length (lc_time lc) = n /\ length (lc_counts lc) = n /\
    (forall i t, nth_error (lc_time lc) i = Some t -> t == bin_edge (fst g0) dt i + dt / 2) /\
    (forall i c, nth_error (lc_counts lc) i = Some c -> c = inject_Z (Z.of_nat (count (within (bin_edge (fst g0) dt i) (bin_edge (fst g0) dt (S i))) sub))).
Proof. exact base_bins. Qed.
Print Assumptions C131_band_light_curve.
Example C131_band_nonvacuous : exists lc, base_lightcurve (isort_by t_end) false (mkEv [1; 2; 3] (Some [1; 2; 1]) None [(0, 4)]) 1 (5, 6) = Ok lc /\ lc_counts lc = [0; 0; 0; 0].
Proof.
  eexists. split; vm_compute; reflexivity.
Qed.

