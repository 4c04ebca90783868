(* M_timmer.v: model of the light curves simulated from a power spectrum (Timmer & Koenig) and of the relativistic impulse response,
   stingray/simulator/simulator.py.  Numbers are exact reals; None is nan.  Random numbers are parameters. *)
From Verif Require Import Np Cplx M_fourier M_corr M_espec.
From Coq Require Import ZArith QArith Qreals Reals List Bool Arith.
Import ListNotations.
Open Scope R_scope.

(* np.fft.irfft(f, n) (library): inverse transform of the array of n values that starts with f (cut or filled with zeros) and goes on
   with the conjugate values; the imaginary parts of the first value and, for even n, of the middle one are ignored *)
Definition hermitian (f : list cx) (n : nat) : list cx :=
  map (fun k => if Nat.eqb k 0 then rtoc (re (nth 0 f c0))
                else if Nat.ltb (2 * k) n then nth k f c0
                else if Nat.eqb (2 * k) n then rtoc (re (nth k f c0))
                else cconj (nth (n - k) f c0)) (seq 0 n).
Definition irfft (f : list cx) (n : nat) : list R := map re (ifft (hermitian f n)).
(* np.std *)
Definition np_std (x : list R) : R := sqrt (np_variance x).
(* a[-1] = 0 *)
Definition zero_last (l : list R) : list R := match l with [] => [] | _ => removelast l ++ [0] end.
(* simulator/simulator.py:340-365 _find_inverse *)
Definition find_inverse (mean0 : R) (n red : nat) (real imag : list R) : result (list R) :=
  let f := rtoc (mean0 * INR n * INR red) :: combine real imag in
  if Nat.eqb (n * red) 0 then Err ValueError else Ok (irfft f (n * red)).
(* simulator/simulator.py:539-570 _extract_and_scale; cut is the random integer, N - 1 <= cut <= red N - N *)
Definition extract_and_scale (mean0 rms std : R) (n red cut : nat) (long_lc : list R) : list (option R) :=
  let lc := if Nat.eqb red 1 then long_lc else slice long_lc cut (cut + n) in
  let m := mean lc in
  map (fun x => if Req_EM_T std 0 then None
                else Some (if Req_EM_T mean0 0 then (x - m) / std * rms else (x - m) / std * mean0 * rms + mean0)) lc.
(* simulator/simulator.py:367-400 _timmerkoenig without Poisson noise; g1 and g2: the normal numbers, as many as powers *)
Definition timmerkoenig (mean0 rms : R) (n red cut : nat) (pds g1 g2 : list R) : result (list (option R)) :=
  match pds with
  | [] => Err IndexError
  | _ =>
    let real := map (fun p => fst p * sqrt (1 / 2 * snd p)) (combine g1 pds) in
    let imag := zero_last (map (fun p => fst p * sqrt (1 / 2 * snd p)) (combine g2 pds)) in
    let! counts := find_inverse mean0 n red real imag in
    Ok (extract_and_scale mean0 rms (np_std counts) n red cut counts)
  end.
(* simulator/simulator.py:378-381: with Poisson noise the mean of each bin is not negative *)
Definition poisson_means (l : list (option R)) : list (option R) :=
  map (fun o => match o with Some x => Some (if Rlt_dec x 0 then 0 else x) | None => None end) l.
(* np.fft.rfftfreq(n, d)[1:] *)
Definition rfftfreq_pos (n : nat) (d : R) : list R := map (fun k => INR k / (INR n * d)) (seq 1 (n / 2)).
(* simulator/simulator.py:402-421 _simulate_power_law, 441-461 _simulate_model, 463-498 _simulate_model_string *)
Definition simulate_model (mean0 rms dt : R) (n red cut : nat) (model : R -> R) (g1 g2 : list R) : result (list (option R)) :=
  timmerkoenig mean0 rms n red cut (map model (rfftfreq_pos (red * n) dt)) g1 g2.
Definition simulate_power_law (mean0 rms dt : R) (n red cut : nat) (b : R) (g1 g2 : list R) : result (list (option R)) :=
  timmerkoenig mean0 rms n red cut (map (fun w => Rpower (1 / w) b) (rfftfreq_pos (red * n) dt)) g1 g2.
(* simulator/simulator.py:423-439 _simulate_power_spectrum, red_noise >= 1 *)
Definition simulate_power_spectrum (mean0 rms : R) (n red cut : nat) (s g1 g2 : list R) : result (list (option R)) :=
  timmerkoenig mean0 rms n red cut (s ++ repeat 0 (length s * red - length s)) g1 g2.

(* simulator/simulator.py:285-338 relativistic_ir, simulator/transfer.py:261-321; np.max of an empty array is a ValueError *)
Definition rmax_list (l : list R) : result R := match l with [] => Err ValueError | a :: l' => Ok (fold_left Rmax l' a) end.
Definition relativistic_ir (dt t1 t2 t3 : Q) (p1 p2 rise decay : R) : result (list R) :=
  if negb (qlt t1 t2) then Err AssertionError
  else if negb (qlt t2 t3) then Err AssertionError
  else if Rlt_dec p1 p2 then
    if (py_int (t1 / dt) <? 0)%Z then Err ValueError
    else
      let h_primary := repeat 0 (Z.to_nat (py_int (t1 / dt))) ++ [p1] in
      let! x := linspace (Q2R (t1 / dt)) (Q2R (t2 / dt)) (py_int ((t2 - t1) / dt)) in
      let h_rise := map (fun v => exp (rise * v)) x in
      let! top := rmax_list h_rise in
      let factor := top / (p2 - p1) in
      let h_secondary := map (fun h => h / factor + p1) h_rise in
      let! y := linspace (Q2R (t2 / dt)) (Q2R (t3 / dt)) (py_int ((t3 - t2) / dt)) in
      Ok (h_primary ++ h_secondary ++ map (fun v => exp (- decay * (v - Q2R (4 / dt)))) y)
  else Err AssertionError.
