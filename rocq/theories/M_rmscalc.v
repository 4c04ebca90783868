(* M_rmscalc.v: model of rms_calculation, stingray/fourier.py.  Numbers are exact rationals; squares of the rms and of its
   error are returned, as in M_spec. *)
From Verif Require Import Np M_utils M_spec.
Open Scope Q_scope.

(* fourier.py:1000-1080 rms_calculation.  min_freq, max_freq, freq_bins and deadtime are not used by the code.  T and nphots
   are not 0 (numpy would give nan or inf, Python floats ZeroDivisionError). *)
Definition rms_calculation (unnorm : list Q) (min_freq max_freq nphots T : Q) (M_freqs K_freqs : perbin) (freq_bins : nat)
    (noise deadtime : Q) : result (Q * option Q) :=
  let rms_norm_powers := map (fun p => p * 2 * T / (nphots * nphots)) unnorm in
  let rms_poisson_noise := noise * 2 * T / (nphots * nphots) in
  let df := map_perbin (fun k => 1 / T * k) K_freqs in
  rms_norm rms_norm_powers rms_poisson_noise df M_freqs.
