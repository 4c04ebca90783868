(* T_accel5.v: theorems about failures and empty results of the search for accelerated pulsations and of sinc fits. *)
From Verif Require Import Np Lib M_utils M_seg M_base M_stats M_espec Cplx M_fourier M_accel M_sinc S_fourier S_accel P_dft P_norm P_accel P_accel2 P_accel3 P_accel5.
From Coq Require Import QArith Qreals Lqa Reals List Arith ZArith Permutation Lra Lia.
Import ListNotations.
Open Scope R_scope.

(* ---------- C162: no level, no photons ---------- *)
Theorem C162_no_level : forall (argsort : list R -> list nat) (pool : list (list cand) -> list (list cand)) (interbin : bool) (A : list cx) (responses : list (option
  (list cx))) (mask : list bool) (out : list cand), (forall l : list (list cand), Permutation (pool l) l) -> calculate_all argsort pool interbin A responses mask None = Ok
  out -> out = [].
Proof. exact @nolevel. Qed.
Print Assumptions C162_no_level.
Theorem C162_no_photons : forall (fs fc : R -> R) (sf isf : R -> nat -> R) (argsort : list R -> list nat) (pool : list (list cand) -> list (list cand)) (numba : bool)
  (cast : Q -> Q) (rescale : list cx -> list cx) (times signal : list Q) (dz : Q) (fmin fmax : R) (gti : option (list (Q * Q))) (zmax : Q) (ref : R) (interbin : bool) (pv :
  R) (t0 t1 tl : Q) (fg : option (list Q) * R * Q), get times 1 = Ok t1 -> get times 0 = Ok t0 -> get_last times = Ok tl -> fill_gaps numba cast times signal gti (t1 - t0)
  = Ok fg -> (qsum signal <= 0)%Q -> accelsearch fs fc sf isf argsort pool numba cast rescale times signal dz fmin fmax gti zmax ref interbin pv = match range_z zmax dz
  with | [] => Err ValueError | _ :: _ => Ok [] end.
Proof. exact @nophotons. Qed.
Print Assumptions C162_no_photons.
Example C162_no_photons_nonvacuous : exists fg, fill_gaps true (fun q => q) [0%Q; 1%Q; 2%Q] [0%Q; 0%Q; 0%Q] None (1 - 0)%Q = Ok fg /\ range_z 2%Q 1%Q <> [] /\ (qsum [0%Q; 0%Q; 0%Q] <= 0)%Q.
Proof. eexists. split; [reflexivity|]. split; [vm_compute; discriminate|vm_compute; discriminate]. Qed.
(* ---------- C163: transforms of the wrong length ---------- *)
Theorem C163_lengths : forall (argsort : list R -> list nat) (freq : list R) (ft : list cx) (last : R), get_last freq = Ok last -> 0 <= last -> length ft <> length freq
  -> interbin_fft argsort freq ft = Err ValueError.
Proof. exact @interbin_lengths. Qed.
Print Assumptions C163_lengths.
Example C163_lengths_nonvacuous : get_last [0; 1; 2] = Ok 2 /\ length [c0] <> length [0; 1; 2].
Proof. split; [reflexivity|discriminate]. Qed.
(* ---------- C168, C169: width and length zero ---------- *)
Theorem C168_width_zero : forall x a m : R, sinc_square_model x a m 0 = None /\ sinc_square_deriv x a m 0 = None.
Proof. exact @width_zero. Qed.
Print Assumptions C168_width_zero.
Theorem C169_length_zero : forall (dflt : dict) (fixed : option dict) (amp mean width : R), fit_sinc_setup dflt fixed amp mean width (Some 0) = Err ZeroDivisionError.
Proof. exact @setup_zero. Qed.
Print Assumptions C169_length_zero.
