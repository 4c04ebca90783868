(* T_zn.v: property theorems about the pulsation statistics (C39, C64). *)
From Verif Require Import Np Cplx M_fourier S_fourier M_zn S_zn P_zn.
From Coq Require Import Reals Lra Lia.
Open Scope R_scope.

(* ---------- C39: Z^2_n ---------- *)
Theorem C39_binned : forall p n,
  p <> [] -> rlsum p <> 0 -> (0 < n)%nat ->
  z_n p n Binned None = Ok (Z2 (profile_points p) n) /\
  Z2 (profile_points p) n = 2 / rlsum p * rlsum (map (power_at p) (seq 1 n)).
Proof. exact binned_value. Qed.
Print Assumptions C39_binned.
Theorem C39_events : forall ph n,
  ph <> [] -> (0 < n)%nat -> z_n ph n Events None = Ok (Z2 (event_points ph) n).
Proof. exact events_value. Qed.
Print Assumptions C39_events.
Theorem C39_binned_is_events : forall counts n,
  (0 < n)%nat -> rlsum (map INR counts) <> 0 ->
  z_n (map INR counts) n Binned None = z_n (events_at_centres counts) n Events None.
Proof. exact binned_is_events. Qed.
Print Assumptions C39_binned_is_events.
Theorem C39_bounds_monotone : forall pts n,
  (forall p, In p pts -> 0 <= snd p) -> 0 < weight pts ->
  0 <= Z2 pts n <= 2 * INR n * weight pts /\ Z2 pts n <= Z2 pts (S n).
Proof. exact Z2_bounds. Qed.
Print Assumptions C39_bounds_monotone.
Theorem C39_rotation : forall d x y n,
  delayed d x y -> z_n y n Binned None = z_n x n Binned None.
Proof. exact rotation. Qed.
Print Assumptions C39_rotation.
Theorem C39_epoch_shift : forall c ph ps n,
  Forall2 (same_phase c) ph ps -> z_n ps n Events None = z_n ph n Events None.
Proof. exact events_shift. Qed.
Print Assumptions C39_epoch_shift.
Theorem C39_gauss : forall p n,
  p <> [] -> 0 < rlsum p -> (0 < n)%nat ->
  z_n p n Gauss (Some (sqrt (rlsum p / INR (length p)))) = z_n p n Binned None.
Proof. exact gauss_binned. Qed.
Print Assumptions C39_gauss.
Theorem C39_epoch_folding : forall p,
  p <> [] -> 0 < rlsum p -> (1 < length p)%nat ->
  Nat.even (length p) = false ->
  z_n p ((length p - 1) / 2) Binned None = Ok (ef_profile_stat p).
Proof. exact ef_is_zn. Qed.
Print Assumptions C39_epoch_folding.
Theorem C39_below_epoch_folding : forall p n,
  p <> [] -> 0 < rlsum p -> (0 < n <= (length p - 1) / 2)%nat ->
  exists z, z_n p n Binned None = Ok z /\ z <= ef_profile_stat p.
Proof. exact ef_bounds_zn. Qed.
Print Assumptions C39_below_epoch_folding.

Example C39_nonvacuous : [3; 1; 2] <> ([] : list R) /\ 0 < rlsum [3; 1; 2] /\ delayed 1 [3; 1; 2] [2; 3; 1] /\
  events_at_centres [1; 0; 2]%nat = [(INR 0 + 1 / 2) / INR 3; (INR 2 + 1 / 2) / INR 3; (INR 2 + 1 / 2) / INR 3] /\
  Forall2 (same_phase (1 / 4)) [0; 7 / 8] [1 / 4; 1 / 8] /\ Nat.even (length [3; 1; 2]) = false.
Proof.
  split; [discriminate|]. split; [cbn; lra|]. split; [|split; [reflexivity|split; [|reflexivity]]].
  - split; [reflexivity|]. intros j Hj. cbn [length] in *. destruct j as [|[|[|j]]]; try lia; reflexivity.
  - repeat constructor; [exists 0%Z; cbn; lra|exists (-1)%Z; cbn; lra].
Qed.

(* ---------- C64: H test, profiles without pulsation ---------- *)
Theorem C64_htest_binned : forall p nmax,
  p <> [] -> rlsum p <> 0 -> (0 < nmax)%nat ->
  exists M, htest p nmax Binned None = Ok (M, H_of (Z2 (profile_points p) M) M) /\ (1 <= M <= nmax)%nat /\
    (forall k, (1 <= k <= nmax)%nat -> H_of (Z2 (profile_points p) k) k <= H_of (Z2 (profile_points p) M) M) /\
    (forall k, (1 <= k < M)%nat -> H_of (Z2 (profile_points p) k) k < H_of (Z2 (profile_points p) M) M).
Proof. exact htest_binned. Qed.
Print Assumptions C64_htest_binned.
Theorem C64_htest_events : forall ph nmax,
  ph <> [] -> (0 < nmax)%nat ->
  exists M, htest ph nmax Events None = Ok (M, H_of (Z2 (event_points ph) M) M) /\ (1 <= M <= nmax)%nat /\
    (forall k, (1 <= k <= nmax)%nat -> H_of (Z2 (event_points ph) k) k <= H_of (Z2 (event_points ph) M) M) /\
    (forall k, (1 <= k < M)%nat -> H_of (Z2 (event_points ph) k) k < H_of (Z2 (event_points ph) M) M).
Proof. exact htest_events. Qed.
Print Assumptions C64_htest_events.
Theorem C64_flat_z : forall c N n,
  (0 < n < N)%nat -> z_n (repeat c N) n Binned None = Ok 0.
Proof. exact flat_zero. Qed.
Print Assumptions C64_flat_z.
Theorem C64_flat_h_partial : forall c N nmax,
  0 < c -> (0 < nmax < N)%nat -> htest (repeat c N) nmax Binned None = Ok (1%nat, 0).
Proof. exact htest_flat. Qed.
Print Assumptions C64_flat_h_partial.
Theorem C64_flat_refuted : 
  exists c N nmax H M, 0 < c /\ (0 < N)%nat /\ (0 < nmax)%nat /\
  htest (repeat c N) nmax Binned None = Ok (M, H) /\ 1000 < H.
Proof. exact htest_flat_refuted. Qed.
Print Assumptions C64_flat_refuted.

Example C64_nonvacuous : (0 < 5 < 16)%nat /\ htest (repeat 7 16) 5 Binned None = Ok (1%nat, 0).
Proof. split; [lia|]. apply htest_flat; [lra|lia]. Qed.

