(* S_fad.v: what the dead time correction by Fourier amplitude differences should compute *)
From Verif Require Import Np Cplx M_fourier S_fourier.
Open Scope R_scope.

(* pairs of simultaneous segments that both exist *)
Definition both (segs1 segs2 : list (option seg)) : list (seg * seg) :=
  flat_map (fun o => match o with (Some s1, Some s2) => [(s1, s2)] | _ => [] end) (combine segs1 segs2).
(* difference of the two transforms, each in units in which white noise has the power 2 *)
Definition leahy_difference (p : seg * seg) (k : nat) : cx :=
  let w1 := sqrt (2 / photons (fst p)) in
  let w2 := sqrt (2 / photons (snd p)) in
  (re (dft (s_flux (fst p)) k) * w1 - re (dft (s_flux (snd p)) k) * w2,
   im (dft (s_flux (fst p)) k) * w1 - im (dft (s_flux (snd p)) k) * w2).
(* scatter of its real part at the frequency k, smoothed over the frequencies 1, 2, ... of n bins *)
Definition scatter (smooth : list R -> list R) (n : nat) (p : seg * seg) (k : nat) : R :=
  nth (k - 1) (smooth (map (fun j => re (leahy_difference p j) ^ 2) (seq 1 (n_pos n)))) 0.
(* fluxes of the two channels together *)
Definition together (p : seg * seg) : list R := map (fun q => fst q + snd q) (combine (s_flux (fst p)) (s_flux (snd p))).
(* standard deviation of complex numbers *)
Definition spread (l : list cx) : R :=
  let mean := cavg (fun z => z) l in
  sqrt (avg (fun z => (re z - re mean) ^ 2 + (im z - im mean) ^ 2) l).
(* the averaged Fourier differences, corrected *)
Definition corrected_difference (smooth : list R -> list R) (n : nat) (us : list (seg * seg)) (k : nat) : cx :=
  cavg (fun p => cscal (leahy_difference p k) (sqrt 2 / sqrt (scatter smooth n p k))) us.
