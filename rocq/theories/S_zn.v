(* S_zn.v: what the pulsation statistics should be, stated on weighted phases. *)
From Verif Require Import Np Cplx S_fourier.
Open Scope R_scope.

(* points: (phase, weight).  |sum_j w_j exp(2 pi i k phi_j)|^2 *)
Definition harmonic_power (pts : list (R * R)) (k : nat) : R :=
  (rlsum (map (fun p => snd p * cos (2 * PI * INR k * fst p)) pts)) ^ 2 +
  (rlsum (map (fun p => snd p * sin (2 * PI * INR k * fst p)) pts)) ^ 2.
Definition weight (pts : list (R * R)) : R := rlsum (map snd pts).
(* Buccheri et al. 1983 / Bachetti et al. 2021: Z^2_n *)
Definition Z2 (pts : list (R * R)) (n : nat) : R :=
  2 / weight pts * rlsum (map (harmonic_power pts) (seq 1 n)).
(* a profile is a set of bins with their centres as phases; an event list has unit weights *)
Definition profile_points (p : list R) : list (R * R) :=
  map (fun j => ((INR j + 1 / 2) / INR (length p), val p j)) (seq 0 (length p)).
Definition event_points (phases : list R) : list (R * R) := map (fun x => (x, 1)) phases.
(* c_j events at the centre of bin j *)
Definition events_at_centres (counts : list nat) : list R :=
  concat (map (fun j => repeat ((INR j + 1 / 2) / INR (length counts)) (nth j counts 0%nat)) (seq 0 (length counts))).
(* the same phases after a change of the reference epoch: a common shift, up to whole turns *)
Definition same_phase (c : R) (x y : R) : Prop := exists m : Z, y = x + c + IZR m.
(* H statistic (De Jager et al. 1989) for k harmonics *)
Definition H_of (z : R) (k : nat) : R := z - 4 * INR k + 4.
