(* T_truncdt.v: property theorems about the truncation of series with bins of different widths (C228). *)
From Verif Require Import Np Lib S_gti S_seg M_gti M_seg M_merge M_utils P_gti_cross P_gti_ops P_gti_exposure P_gti_final M_truncdt S_truncdt P_truncdt.
From Coq Require Import QArith List Lia Lqa.
Import ListNotations.
Open Scope Q_scope.

Theorem C228_window_partial : forall (time dt : list Q) (i j : nat) (di dj d0 d1 : Q), (i < j)%nat -> (j <= length time)%nat -> length dt = length time -> nth_error dt i
  = Some di -> nth_error dt (j - 1) = Some dj -> nth_error dt 0 = Some d0 -> nth_error dt (length dt - 1) = Some d1 -> exists w : ivl, trunc_window time dt i j = Ok w /\
  (bins_window time dt i (j - 1) w <-> di == d0 /\ dj == d1).
Proof. exact @window_right. Qed.
Print Assumptions C228_window_partial.
Theorem C228_value : forall (time dt : list Q) (i j : nat), (i < j)%nat -> (j <= length time)%nat -> length dt = length time -> exists a b d0 d1 : Q, nth_error time i =
  Some a /\ nth_error time (j - 1) = Some b /\ nth_error dt 0 = Some d0 /\ nth_error dt (length dt - 1) = Some d1 /\ trunc_window time dt i j = Ok (a - (1 # 2) * d0, b + (1
  # 2) * d1).
Proof. exact @window_value. Qed.
Print Assumptions C228_value.
Theorem C228_wide_error : forall (time dt : list Q) (i j : nat) (di d0 : Q), (i < j)%nat -> (j <= length time)%nat -> length dt = length time -> nth_error dt i = Some di
  -> nth_error dt 0 = Some d0 -> di < d0 -> exists (w : ivl) (t : Q), trunc_window time dt i j = Ok w /\ nth_error time i = Some t /\ fst w < t - di / 2.
Proof. exact @window_wide. Qed.
Print Assumptions C228_wide_error.
Theorem C228_empty_error : forall (srt : list tagged -> list tagged) (time dt : list Q) (gti : option gtis) (i j : nat), (j <= i)%nat \/ (length time <= i)%nat ->
  trunc_gti srt time dt gti i j = Err IndexError.
Proof. exact @empty_error. Qed.
Print Assumptions C228_empty_error.
(* bins [-2, 2], [2, 3] and [3, 4]; without the first one the GTIs start at 1/2 *)
Theorem C228_window_refuted : exists g, trunc_gti (isort_by t_end) [0; 5 # 2; 7 # 2] [4; 1; 1] None 1 3 = Ok [g] /\ fst g == 1 # 2 /\ snd g == 4 /\
  bin_at [0; 5 # 2; 7 # 2] [4; 1; 1] 1 2 3.
Proof.
  eexists. split; [vm_compute; reflexivity|]. split; [reflexivity|]. split; [reflexivity|]. exists (5 # 2), 1. repeat split; reflexivity.
Qed.
Print Assumptions C228_window_refuted.
Example C228_example : exists w, trunc_window [0; 1; 2; 3] [1; 1; 1; 1] 1 3 = Ok w /\ bins_window [0; 1; 2; 3] [1; 1; 1; 1] 1 2 w /\ fst w == 1 # 2 /\ snd w == 5 # 2.
Proof.
  eexists. split; [reflexivity|]. split; [|split; reflexivity]. split; [exists (3 # 2), 1, 1|exists (3 # 2), 2, 1]; repeat split; reflexivity.
Qed.
Theorem C228_gti : forall (srt : list tagged -> list tagged) (time dt : list Q) (g : gtis) (i j : nat) (w : ivl), sorts_by t_end srt -> good g -> trunc_window time dt i j
  = Ok w -> fst w < snd w -> no_touching g [w] -> exists r : gtis, trunc_gti srt time dt (Some g) i j = Ok r /\ well_formed r /\ positive_lengths r /\ (forall t : Q,
  covered r t <-> covered g t /\ covered [w] t).
Proof. exact @gti_in_window. Qed.
Print Assumptions C228_gti.
Theorem C228_default : forall (time dt : list Q) (a b d0 d1 : Q), nth_error time 0 = Some a -> nth_error time (length time - 1) = Some b -> nth_error dt 0 = Some d0 ->
  nth_error dt (length dt - 1) = Some d1 -> default_gti time dt = Ok [(a - d0 / 2, b + d1 / 2)] /\ (forall (srt : list tagged -> list tagged) (i j : nat), trunc_gti srt
  time dt None i j = trunc_gti srt time dt (Some [(a - d0 / 2, b + d1 / 2)]) i j).
Proof. exact @default_value. Qed.
Print Assumptions C228_default.
Example C228_gti_example : good [(0, 2)] /\ no_touching [(0, 2)] [(1 # 2, 5 # 2)] /\ sorts_by t_end (isort_by t_end) /\
  exists r, trunc_gti (isort_by t_end) [0; 1; 2; 3] [1; 1; 1; 1] (Some [(0, 2)]) 1 3 = Ok [r] /\ fst r == 1 # 2 /\ snd r == 2.
Proof.
  split; [apply good_dec; reflexivity|]. split; [apply no_touching_dec; reflexivity|]. split; [apply isort_sorts|].
  eexists. split; [vm_compute; reflexivity|]. split; reflexivity.
Qed.
