(* S_ls.v: what the Lomb-Scargle transforms should compute. *)
From Verif Require Import Np Cplx.
From Coq Require Import QArith Reals List.
Import ListNotations.
Open Scope R_scope.

(* sum over the points of a light curve *)
Fixpoint points (f : R -> R -> R) (y t : list R) : R :=
  match y, t with v :: y', x :: t' => f v x + points f y' t' | _, _ => 0 end.
(* mean *)
Definition mean_of (y : list R) : R := rlsum y / INR (length y).
(* Lomb-Scargle periodogram at the angular frequency w, with the phase phi: Scargle (1982) without normalization *)
Definition over_cos (y t : list R) (w phi : R) : R := points (fun v x => (v - mean_of y) * cos (w * x - phi)) y t.
Definition over_sin (y t : list R) (w phi : R) : R := points (fun v x => (v - mean_of y) * sin (w * x - phi)) y t.
Definition square_cos (y t : list R) (w phi : R) : R := points (fun v x => cos (w * x - phi) ^ 2) y t.
Definition square_sin (y t : list R) (w phi : R) : R := points (fun v x => sin (w * x - phi) ^ 2) y t.
Definition periodogram (y t : list R) (w phi : R) : R :=
  over_cos y t w phi ^ 2 / square_cos y t w phi + over_sin y t w phi ^ 2 / square_sin y t w phi.
(* the phase that makes sine and cosine orthogonal over the points *)
Definition good_phase (y t : list R) (w phi : R) : Prop :=
  points (fun v x => sin (w * x - phi) * cos (w * x - phi)) y t = 0.
(* evenly spaced times *)
Definition even (t0 dt : R) (n : nat) : list R := map (fun j => t0 + INR j * dt) (seq 0 n).
(* exact sums of sines and of cosines at the frequencies factor (f0 + j df): what trig_sum approximates *)
Definition exact_trig (t h : list R) (df : R) (N : nat) (f0 factor : R) : list R * list R :=
  (map (fun j => points (fun v x => v * sin (2 * PI * (factor * (f0 + INR j * df)) * x)) h t) (seq 0 N),
   map (fun j => points (fun v x => v * cos (2 * PI * (factor * (f0 + INR j * df)) * x)) h t) (seq 0 N)).
(* spacing, start and largest value asked for, of a grid of frequencies *)
Definition spacing (df length : option Q) (d : Q) : Prop :=
  (exists x, df = Some x /\ (0 < x)%Q /\ d = x) \/
  ((df = None \/ exists x, df = Some x /\ (x <= 0)%Q) /\ exists l, length = Some l /\ (0 < l)%Q /\ d = (1 / l)%Q).
Definition from_freq (min_freq : option Q) (d s : Q) : Prop :=
  (exists x, min_freq = Some x /\ (0 < x)%Q /\ s = x) \/ ((min_freq = None \/ exists x, min_freq = Some x /\ (x <= 0)%Q) /\ s = (d / 2)%Q).
Definition to_freq (max_freq dt : option Q) (nyquist_factor top : Q) : Prop :=
  max_freq = Some top \/ (max_freq = None /\ exists x, dt = Some x /\ ~ (x == 0)%Q /\ top = (nyquist_factor * (1 # 2) / x)%Q).
