(* T_mtaper4.v: further theorems about multitaper spectra, multitaper.py. *)
From Verif Require Import Np S_gti M_gti M_utils M_base M_lc Cplx M_fourier M_exvar M_mtaper S_fourier S_mtaper P_exvar P_dft P_mtaper P_mtaper2 P_mtaper3 P_mtaper4.
From Coq Require Import Reals List Arith ZArith Bool QArith Lia Lra.
Import ListNotations.
Open Scope R_scope.

(* ---------- C181: when the iterations stop ---------- *)
Theorem C181_tolerance : forall a b : list (list R), length a = length b -> converged (map Some a) (map Some b) = true <-> (forall f : nat, (f < length a)%nat -> rlsum
  (map (fun p : cx => (fst p - snd p) * (fst p - snd p)) (combine (nth f a []) (nth f b []))) / INR (length (nth f a [])) < / 10000000000).
Proof. exact @converged_iff. Qed.
Print Assumptions C181_tolerance.
Example C181_tolerance_nonvacuous : converged (map Some [[1; 2]]) (map Some [[1; 2]]) = true.
Proof. apply converged_iff; [reflexivity|]. intros [|f] F; [|cbn in F; lia]. unfold rlsum. cbn. lra. Qed.
(* ---------- C183: powers and their normalizations ---------- *)
Theorem C183_powers : forall (dpss : nat -> R -> Z -> list (list R * R)) (counts : list R) (dt NW : R) (lb : bool) (f : list R) (psd jk : list (option R)) (te : list
  (list R * R)), fourier_multitaper dpss counts dt NW lb = Ok (f, psd, jk) -> select_tapers lb (dpss (length counts) NW (kmax NW)) = Ok te -> length psd = (length counts /
  2 - 1)%nat /\ (forall (i : nat) (p : R), (i < length counts / 2 - 1)%nat -> psd_from_freq_response (nth i (columns counts (map fst te)) []) (map sqrt (map snd te)) = Some
  p -> nth i psd None = Some (p * dt)).
Proof. exact @multitaper_powers. Qed.
Print Assumptions C183_powers.
Theorem C183_normalizations : forall (p : R) (n : nat) (dt nphots : R), (0 < n)%nat -> 0 < dt -> 0 < nphots -> multitaper_power (Some p) n dt nphots Frac = Ok (Some (2 *
  p * (INR n * INR n) / (nphots * nphots))) /\ multitaper_power (Some p) n dt nphots AbsNorm = Ok (Some (2 * p / (dt * dt))) /\ multitaper_power (Some p) n dt nphots NoNorm
  = Ok (Some (p * INR n / dt)).
Proof. exact @multitaper_rms. Qed.
Print Assumptions C183_normalizations.
Example C183_powers_nonvacuous : exists f psd jk, fourier_multitaper (fun _ _ _ => [([1; 0; 0; 0], 1)]) [1; 0; 0; 0] 1 1 false = Ok (f, psd, jk).
Proof. unfold fourier_multitaper. destruct (Rlt_dec 1 (1 / 2)); [lra|]. cbn [select_tapers bind]. do 3 eexists. reflexivity. Qed.
(* ---------- C184: a light curve without times ---------- *)
Theorem C184_no_times_error : forall (numba : bool) (srt : list tagged -> list tagged) (gti : option gtis) (lc : series), gti_of lc = None -> multitaper_light_curve numba
  srt gti lc = Err TypeError.
Proof. exact @light_curve_empty. Qed.
Print Assumptions C184_no_times_error.
Example C184_no_times_nonvacuous : gti_of (mkSeries [] [] [] 1%Q None 0%Q None None) = None.
Proof. reflexivity. Qed.
