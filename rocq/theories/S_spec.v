(* S_spec.v: what the integrated rms of a power spectrum should be, independent of the code. *)
From Verif Require Import Np S_utils.
Open Scope Q_scope.

(* One bin of a spectrum: its frequency (None: not a number), unnormalised power, how many elementary frequencies and
   how many powers were averaged in it. *)
Record bin := { b_freq : option Q; b_unnorm : Q; b_k : Q; b_m : Q }.
Definition in_band (lo hi : Q) (f : option Q) : bool := match f with Some v => qle lo v && qle v hi | None => false end.
(* The bins with frequency in [lo, hi]. *)
Definition band (lo hi : Q) (l : list bin) : list bin := filter (fun b => in_band lo hi (b_freq b)) l.
(* Fractional rms normalisation: 2 T / N^2. *)
Definition frac_norm (nphots seg : Q) : Q := 2 * seg / (nphots * nphots).
(* Integral over the bins of the normalised power above the noise: each bin is k elementary frequencies df wide. *)
Definition integral (df nphots seg noise : Q) (l : list bin) : Q :=
  total (map (fun b => frac_norm nphots seg * (b_unnorm b - noise) * (df * b_k b)) l).
(* Variance of that integral when each power has standard deviation power/sqrt(m). *)
Definition integral_var (df nphots seg : Q) (l : list bin) : Q :=
  total (map (fun b => let p := frac_norm nphots seg * b_unnorm b in p * p * ((df * b_k b) * (df * b_k b)) / b_m b) l).
(* The same with the powers first averaged in consecutive groups of 4 (incomplete last group dropped), scaled back to all
   bins: mean of 4, width 4 d, 4 powers averaged. *)
Definition group4 (l : list Q) (i : nat) : Q := total (slice l (i * 4) (S i * 4)) / 4.
Definition grouped_var (d : Q) (p : list Q) : Q :=
  let g := (length p / 4)%nat in
  let w := inject_Z (Z.of_nat (length p)) / inject_Z (Z.of_nat (4 * g)) in
  total (map (fun i => group4 p i * group4 p i * ((4 * d) * (4 * d)) / 4) (seq 0 g)) * (w * w).
(* The square r2 of the rms and e2 of its error for the integral I with variance V: a negative integral counts as no rms and no
   error; otherwise rms = sqrt I and error = sqrt V / (2 rms), undefined when I = 0. *)
Definition finished (I V r2 : Q) (e2 : option Q) : Prop :=
  (I < 0 -> r2 == 0 /\ e2 = Some 0) /\ (0 <= I -> r2 == I) /\ (I == 0 -> e2 = None) /\
  (0 < I -> exists v, e2 = Some v /\ v * (4 * I) == V).
