(* P_vspec7.v: light curves of energy bands over the whole good time, and columns of the wrong length. *)
From Coq Require Import Reals Qreals.
From Verif Require Import Np Lib S_gti S_seg S_utils S_lc S_flux M_gti M_seg M_utils M_lc M_exvar Cplx M_fourier M_flux M_vspec P_lc_make.
From Coq Require Import List Bool Arith Lqa Lia.
Import ListNotations.
Open Scope Q_scope.

Lemma times_lengths (use_pi : bool) (ev : M_vspec.events) band en : (if use_pi then ev_pi ev else ev_energy ev) = Some en -> length en <> length (ev_time ev) -> times_from_energy use_pi ev band = Err IndexError.
Proof.
  intros E N. unfold times_from_energy. rewrite E. unfold mask_get. rewrite map_length. destruct (Nat.eqb_spec (length en) (length (ev_time ev))); [contradiction|reflexivity].
Qed.
Lemma base_bins srt use_pi ev dt band gti g0 g1 sub (n : nat) : cross_two_gtis srt (ev_gti ev) (ev_gti ev) = Ok gti -> get gti 0 = Ok g0 -> get_last gti = Ok g1 ->
  times_from_energy use_pi ev band = Ok sub -> 0 < dt ->
  inject_Z (Z.of_nat n) * dt <= (snd g1 - fst g0) + dt * (1 # 100) -> (snd g1 - fst g0) + dt * (1 # 100) < (inject_Z (Z.of_nat n) + 1) * dt ->
  exists lc, base_lightcurve srt use_pi ev dt band = Ok lc /\ lc_dt lc = dt /\ length (lc_time lc) = n /\ length (lc_counts lc) = n /\
    (forall i t, nth_error (lc_time lc) i = Some t -> t == bin_edge (fst g0) dt i + dt / 2) /\
    (forall i c, nth_error (lc_counts lc) i = Some c -> c = inject_Z (Z.of_nat (count (within (bin_edge (fst g0) dt i) (bin_edge (fst g0) dt (S i))) sub))).
Proof.
  intros C G0 G1 T Hd L1 L2. unfold base_lightcurve. rewrite C. cbn [bind]. rewrite G0. cbn [bind]. rewrite G1. cbn [bind]. rewrite T. cbn [bind].
  destruct (make_main sub dt (Some (snd g1 - fst g0)) (Some (fst g0)) (Some gti) false Hd) as (s & len & S1 & S2 & H); [split; right; split; discriminate|].
  cbn in S1, S2. subst s len. destruct (H n L1 L2) as (lc & E & A & B & D & _ & F & G & _). exists lc. repeat (split; [assumption|]). exact G.
Qed.
