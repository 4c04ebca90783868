(* S_vspec.v: what spectra of variability against energy should hold. *)
From Coq Require Import Reals Qreals.
From Verif Require Import Np Cplx M_fourier S_seg S_fourier S_flux.
From Coq Require Import List Bool Arith.
Import ListNotations.
Open Scope R_scope.

(* times of the photons with an energy in [lo, hi) *)
Definition in_range (r : Q * Q) (e : Q) : bool := (qle (fst r) e && qlt e (snd r))%bool.
Definition band_times (times en : list Q) (r : Q * Q) : list Q := map fst (filter (fun p => in_range r (snd p)) (combine times en)).
(* segments with two photons or more *)
Definition busy_in (times : list Q) (size : Q) (st : list Q) : list Q := filter (fun s => Nat.leb 2 (events_in times s (s + size))) st.
Definition busy_both (a b : list Q) (size : Q) (st : list Q) : list Q :=
  filter (fun s => Nat.leb 2 (events_in a s (s + size)) && Nat.leb 2 (events_in b s (s + size)))%bool st.
(* photons in a segment, on average *)
Definition mean_photons (times : list Q) (size : Q) (st : list Q) : R := avg (fun s => INR (events_in times s (s + size))) st.
(* frequency of bin k, width of a segment *)
Definition length_of (n : nat) (dt : Q) : R := INR n * Q2R dt.
Definition freq_of (n : nat) (dt : Q) (k : nat) : R := INR k / length_of n dt.
(* bins with a frequency in [f0, f1) *)
Definition chosen (n : nat) (dt : Q) (f0 f1 : R) : list nat :=
  filter (fun k => (if Rle_dec f0 (freq_of n dt k) then true else false) && (if Rlt_dec (freq_of n dt k) f1 then true else false))%bool (seq 1 (n_pos n)).
(* averaged periodogram and cross spectrum, raw *)
Definition raw_power (times : list Q) (dt : Q) (n : nat) (us : list Q) (k : nat) : R := avg (fun s => power_at (binned_counts times (nq n * dt) n s) k) us.
Definition raw_cross (a b : list Q) (dt : Q) (n : nat) (us : list Q) (k : nat) : cx :=
  cavg (fun s => cross_at (binned_counts a (nq n * dt) n s) (binned_counts b (nq n * dt) n s) k) us.
(* absolute rms normalization *)
Definition abs_factor (n : nat) (dt : Q) : R := 2 / length_of n dt.
(* Poisson noise in it *)
Definition abs_noise (photons : R) (n : nat) (dt : Q) : R := 2 * (photons / length_of n dt).

(* rms in a frequency range from the mean power less the noise: sqrt(|P - N| * width) *)
Definition rms_of (power width : R) : R := sqrt (power * width).
(* error: sqrt((r^4 + s^4 + 2 r s) / (4 m k r^2)) *)
Definition rms_error (r s : R) (m k : nat) : R := sqrt ((r ^ 4 + s ^ 4 + 2 * r * s) / (4 * INR m * INR k * r ^ 2)).
Definition scaled_by (frac : bool) (rate x : R) : R := if frac then x / rate else x.
(* value and error of a band *)
Definition rms_pair_is (frac : bool) (power width noise_rms : R) (m k : nat) (rate : R) (v : option R * option R) : Prop :=
  let r := rms_of power width in
  fst v = Some (scaled_by frac rate r) /\ (r <> 0 -> snd v = Some (scaled_by frac rate (rms_error r noise_rms m k))) /\ (r = 0 -> snd v = None).
(* one energy band, one event list: the photons sub, segments st, bins ks *)
Definition rms_auto_is (frac : bool) (sub : list Q) (n : nat) (dt : Q) (st : list Q) (ks : list nat) (v : option R * option R) : Prop :=
  let ph := mean_photons sub (nq n * dt) st in
  let us := busy_in sub (nq n * dt) st in
  let width := INR (length ks) / length_of n dt in
  ((ph < 10 \/ ks = []) -> v = (None, None)) /\
  (10 <= ph -> ks <> [] -> us <> [] /\
     rms_pair_is frac (Rabs (avg (fun k => raw_power sub dt n us k * abs_factor n dt) ks - abs_noise ph n dt)) width (sqrt (width * abs_noise ph n dt))
       (length us) (length ks) (mean_photons sub (nq n * dt) us / length_of n dt) v).
(* two event lists: the modulus of the mean cross spectrum, and no noise to take away *)
Definition rms_cross_is (frac : bool) (a b : list Q) (n : nat) (dt : Q) (st : list Q) (ks : list nat) (v : option R * option R) : Prop :=
  let pa := mean_photons a (nq n * dt) st in
  let pb := mean_photons b (nq n * dt) st in
  let us := busy_both a b (nq n * dt) st in
  let width := INR (length ks) / length_of n dt in
  ((pa < 10 \/ pb < 10 \/ us = [] \/ ks = []) -> v = (None, None)) /\
  (10 <= pa -> 10 <= pb -> us <> [] -> ks <> [] ->
     rms_pair_is frac (cabs (cavg (fun k => cscal (raw_cross a b dt n us k) (abs_factor n dt)) ks)) width (sqrt (width * sqrt (abs_noise pa n dt * abs_noise pb n dt)))
       (length us) (length ks) (gmean (mean_photons a (nq n * dt) us) (mean_photons b (nq n * dt) us) / length_of n dt) v).

(* x where a is true, nothing where it is not *)
Definition defined_when (a : Prop) (x : R) (o : option R) : Prop := (a -> o = Some x) /\ (~ a -> o = None).
(* square of the noise in the modulus of a cross spectrum of n measurements (Ingram 2019); 0 for more than 500 *)
Definition bias_of (p1 p2 n1 n2 : R) (n : nat) : R := if le_lt_dec n 500 then (p1 * p2 - (p1 - n1) * (p2 - n2)) / INR n else 0.
(* error of the phase of a mean cross spectrum z: ps and pr are the mean powers, ns and nr the noise.  common: the photons of one are among
   those of the other. *)
Definition phase_error_is (common : bool) (z : cx) (ps pr : R) (n : nat) (ns nr : R) (e : option R) : Prop :=
  let b := bias_of ps pr ns nr n in
  if common then
    let x := pr / (2 * INR n) * (ps / (cnorm2 z - b) - 1 / (pr - nr)) in
    defined_when (cnorm2 z <> b /\ pr <> nr /\ 0 <= x) (sqrt x) e
  else
    let g := (if Rlt_dec (cnorm2 z - b) 0 then cnorm2 z else cnorm2 z - b) / (ps * pr) in
    let x := (1 - g) / (2 * g * INR n) in
    defined_when (ps * pr <> 0 /\ g <> 0 /\ 0 <= x) (sqrt x) e.
(* error of its modulus *)
Definition modulus_error_is (common : bool) (z : cx) (ps pr : R) (n : nat) (ns nr : R) (e : option R) : Prop :=
  if common then
    let x := pr / (2 * INR n) * (ps - (cnorm2 z - bias_of ps pr ns nr n) / (pr - nr)) in
    defined_when (pr <> nr /\ 0 <= x) (sqrt x) e
  else defined_when (0 <= pr * ps / INR n) (sqrt (pr * ps / INR n)) e.

(* mean frequency, weighted with the modulus of the cross spectrum x *)
Definition mean_freq (n : nat) (dt : Q) (x : nat -> cx) (ks : list nat) : R :=
  rlsum (map (fun k => freq_of n dt k * cabs (x k)) ks) / rlsum (map (fun k => cabs (x k)) ks).
(* lag of the photons a with respect to the photons r: phase of the mean cross spectrum over 2 pi and the mean frequency *)
Definition lag_is (common : bool) (a r : list Q) (n : nat) (dt : Q) (st : list Q) (ks : list nat) (v : option R * option R) : Prop :=
  let us := busy_both a r (nq n * dt) st in
  let ua := busy_in a (nq n * dt) st in
  let ur := busy_in r (nq n * dt) st in
  let x := raw_cross a r dt n us in
  let fm := mean_freq n dt x ks in
  let weight := rlsum (map (fun k => cabs (x k)) ks) in
  ((us = [] \/ ks = [] \/ weight = 0) -> v = (None, None)) /\
  (us <> [] -> ks <> [] -> weight <> 0 ->
     fst v = Some (angle (cavg x ks) / (2 * PI * fm)) /\
     exists e, phase_error_is common (cavg x ks) (avg (raw_power a dt n ua) ks) (avg (raw_power r dt n ur) ks) (length ks * length ur)
                 (INR (length a) / INR (length ua)) (INR (length r) / INR (length ur)) e /\
       snd v = option_map (fun p => p / (2 * PI * fm)) e).
(* covariance of the photons a with the reference photons r *)
Definition cscaled_by (frac : bool) (rate : R) (z : cx) : cx := if frac then cscal z (/ rate) else z.
Definition covariance_is (complex frac : bool) (minph : R) (common : bool) (a r : list Q) (n : nat) (dt : Q) (st : list Q) (ks : list nat) (v : option cx * option R) : Prop :=
  let pa := mean_photons a (nq n * dt) st in
  let pr := mean_photons r (nq n * dt) st in
  let us := busy_both a r (nq n * dt) st in
  let ua := busy_in a (nq n * dt) st in
  let ur := busy_in r (nq n * dt) st in
  let mean_cross := cavg (fun k => cscal (raw_cross a r dt n us k) (abs_factor n dt)) ks in
  let z := if common then csub mean_cross (rtoc (abs_noise pa n dt)) else mean_cross in
  let ps := avg (fun k => raw_power a dt n ua k * abs_factor n dt) ks in
  let pf := avg (fun k => raw_power r dt n ur k * abs_factor n dt) ks in
  let width := INR (length ks) / length_of n dt in
  let fac := sqrt (width / (pf - abs_noise pr n dt)) in
  let rate := mean_photons a (nq n * dt) ua / length_of n dt in
  ((pa < minph \/ us = [] \/ ks = [] \/ pf <= abs_noise pr n dt) -> v = (None, None)) /\
  (minph <= pa -> us <> [] -> ks <> [] -> abs_noise pr n dt < pf ->
     fst v = Some (cscaled_by frac rate (cscal (if complex then z else rtoc (cabs z)) fac)) /\
     exists e, modulus_error_is common z ps pf (length ur * length ks) (abs_noise pa n dt) (abs_noise pr n dt) e /\
       snd v = option_map (fun x => scaled_by frac rate (x * fac)) e).
(* two bands have energies in common *)
Definition share (a b : Q * Q) : Prop := exists e, in_range a e = true /\ in_range b e = true.
(* an observation: good intervals g, segments of n bins of width dt that start at st, at least one of them fits in *)
Definition observed (g : list (Q * Q)) (seg dt : Q) (n : nat) (st : list Q) : Prop :=
  (0 < dt)%Q /\ (0 < n)%nat /\ (seg == nq n * dt)%Q /\ (exists a b, In (a, b) g /\ (seg < b - a + (1 # 100000))%Q) /\ segment_grid g (nq n * dt) (1 # 100000) st.
(* sorted photons, an energy for each *)
Definition photons_with (times : list Q) (col : option (list Q)) (en : list Q) : Prop := nondecreasing times /\ col = Some en /\ length en = length times.
Definition proper (b : Q * Q) : Prop := (fst b < snd b)%Q.
