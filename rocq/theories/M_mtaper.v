(* M_mtaper.v: model of multitaper spectra, stingray/multitaper.py. *)
From Verif Require Import Np S_gti M_gti M_utils M_base M_lc Cplx M_fourier M_exvar.
From Coq Require Import Reals List Arith ZArith Bool QArith Lia Lra.
Import ListNotations.
Open Scope R_scope.

(* The responses of the tapered data are modelled as columns: one list of complex numbers, one per taper, for every frequency.
   scipy.signal.windows.dpss (library) is a parameter [dpss] giving the tapers and their concentrations; nan is None.  Messages
   printed and warnings are left out. *)

(* multitaper.py:387-419 psd_from_freq_response at one frequency, real weights *)
Definition psd_from_freq_response (col : list cx) (weights : list R) : option R :=
  let psd := rlsum (map (fun p => cnorm2 (cmul (fst p) (rtoc (snd p)))) (combine col weights)) in
  flet f := fdiv 2 (rlsum (map (fun w => w * w) weights)) in Some (psd * f).

(* multitaper.py:337 Kmax = int(2 * NW), of a positive number *)
Definition kmax (NW : R) : Z := Int_part (2 * NW).
(* np.argmax of numbers: the first index of the largest *)
Fixpoint argmax_from (i best : nat) (m : R) (l : list R) : nat :=
  match l with [] => best | x :: l' => if Rlt_dec m x then argmax_from (S i) i x l' else argmax_from (S i) best m l' end.
Definition argmax (l : list R) : result nat := match l with [] => Err ValueError | x :: l' => Ok (argmax_from 1 0 x l') end.
Definition above (e : R) : bool := if Rlt_dec (9 / 10) e then true else false.
(* multitaper.py:343-350 tapers and concentrations that are used *)
Definition select_tapers (low_bias : bool) (te : list (list R * R)) : result (list (list R * R)) :=
  if low_bias then
    match filter (fun p => above (snd p)) te with
    | [] => let! i := argmax (map snd te) in Ok [nth i te ([], 0)]
    | l => Ok l
    end
  else Ok te.

(* np.trapezoid(y, dx=dx) *)
Definition trapezoid (y : list R) (dx : R) : R := rlsum (map (fun p => (fst p + snd p) / 2 * dx) (combine y (tl y))).
(* None if one of the numbers is nan: sums with it are nan *)
Fixpoint all_some {A} (l : list (option A)) : option (list A) :=
  match l with
  | [] => Some []
  | o :: l' => match o, all_some l' with Some a, Some r => Some (a :: r) | _, _ => None end
  end.
(* multitaper.py:498-501 weights of the tapers at one frequency *)
Definition new_weights (eigvals : list R) (var psd : R) : option (list R) :=
  all_some (map (fun e => flet d := fdiv psd (e * psd + (1 - e) * var) in Some (d * sqrt e)) eigvals).
(* mean over the tapers of the squared differences *)
Definition mean_square (a b : list R) : R :=
  rlsum (map (fun p => (fst p - snd p) * (fst p - snd p)) (combine a b)) / INR (length a).
(* multitaper.py:510-511: np.max over the frequencies is below 1e-10 if all are; a nan is never below *)
Definition converged (err dk : list (option (list R))) : bool :=
  forallb (fun p => match p with
    | (Some a, Some b) => if Rlt_dec (mean_square a b) (/ 10 ^ 10) then true else false
    | _ => false end) (combine err dk).
(* multitaper.py:497-516 the iterations; the first differences are from zero *)
Fixpoint adaptive_loop (fuel : nat) (cols : list (list cx)) (eigvals : list R) (var : R) (psd : list (option R)) (err dk0 : list (option (list R)))
    : list (option R) * list (option (list R)) :=
  match fuel with
  | O => (psd, dk0)
  | S fuel' =>
    let dk := map (fun s => flet p := s in new_weights eigvals var p) psd in
    if converged err dk then (psd, dk)
    else adaptive_loop fuel' cols eigvals var (map (fun p => flet w := snd p in psd_from_freq_response (fst p) w) (combine cols dk)) dk dk
  end.
(* multitaper.py:421-520 _get_adaptive_psd.  The average of no frequencies is the ValueError of np.max. *)
Definition get_adaptive_psd (cols : list (list cx)) (eigvals : list R) (max_iter : nat) : result (list (option R) * list (option (list R))) :=
  let sq := map sqrt eigvals in
  if (length eigvals <? 3)%nat then Ok (map (fun c => psd_from_freq_response c sq) cols, map (fun _ => Some sq) cols)
  else match cols with
  | [] => Err ValueError
  | _ =>
    let est := map (fun c => psd_from_freq_response c sq) cols in
    let dx := PI / INR (length cols) in
    match all_some est with
    | Some est => let var := trapezoid est dx / (2 * PI) in
        let first := map (fun c => psd_from_freq_response (firstn 2 c) (firstn 2 sq)) cols in
        Ok (adaptive_loop max_iter cols eigvals var first (map (fun _ => Some (map (fun _ => 0) eigvals)) cols) [])
    | None => Ok (map (fun _ => None) cols, map (fun _ => None) cols)
    end
  end.

(* multitaper.py:554-622 jackknifed_sdf_variance without adaptive weights, at one frequency; np.log of zero is -inf, modelled as nan
   because the differences from the mean are *)
Fixpoint without {A} (i : nat) (l : list A) : list A :=
  match l with [] => [] | a :: l' => match i with O => l' | S i' => a :: without i' l' end end.
Definition flog (o : option R) : option R := flet x := o in if Rlt_dec 0 x then Some (ln x) else None.
Definition jackknife (col : list cx) (eigvals : list R) : option R :=
  let K := length eigvals in
  flet sdk := all_some (map (fun i => flog (psd_from_freq_response (without i col) (map sqrt (without i eigvals)))) (seq 0 K)) in
  let m := rlsum sdk / INR K in
  let f := (INR K - 1) * (INR K - 1) / INR K / (INR K - 1 / 2) in
  Some (rlsum (map (fun s => (s - m) * (s - m)) sdk) * f).

(* multitaper.py:293-385 _fourier_multitaper: frequencies, spectrum and jackknife variances without adaptive weights.  The spectrum
   at zero frequency and the last value of the transform, changed by lines 361-363, are thrown away by lines 365-366. *)
Definition response (counts taper : list R) : list cx :=
  let m := rlsum counts / INR (length counts) in
  fft (map rtoc (map (fun p => fst p * snd p) (combine (map (fun c => c - m) counts) taper))).
Definition used_bins (n : nat) : list nat := seq 1 (n / 2 - 1).
Definition columns (counts : list R) (tapers : list (list R)) : list (list cx) :=
  map (fun k => map (fun t => nth k (response counts t) c0) tapers) (used_bins (length counts)).
Definition frequencies (n : nat) (dt : R) : list R := map (fun k => INR k / (INR n * dt)) (used_bins n).
Definition fourier_multitaper (dpss : nat -> R -> Z -> list (list R * R)) (counts : list R) (dt NW : R) (low_bias : bool)
    : result (list R * list (option R) * list (option R)) :=
  if Rlt_dec NW (1 / 2) then Err ValueError
  else
    let! te := select_tapers low_bias (dpss (length counts) NW (kmax NW)) in
    let cols := columns counts (map fst te) in
    let eigvals := map snd te in
    Ok (frequencies (length counts) dt,
        map (fun c => flet p := psd_from_freq_response c (map sqrt eigvals) in Some (p * dt)) cols,
        map (fun c => jackknife c eigvals) cols).
(* multitaper.py:281-283, 522-552 unnormalized powers and the normalization of Poisson data *)
Definition unnormalized (psd : option R) (n : nat) (dt : R) : option R := flet p := psd in fdiv (p * INR n) dt.
Definition multitaper_power (psd : option R) (n : nat) (dt nphots : R) (norm : normt) : result (option R) :=
  match unnormalized psd n dt with
  | None => Ok None
  | Some u => let! p := normalize Rmult u dt n (Some (nphots / INR n)) (Some nphots) None 0 norm in Ok (Some p)
  end.

(* multitaper.py:759-768 one taper of the Lomb-Scargle version: [interpolated], the values of the spline (library) at the times of
   the data, are normalized and multiplied with the data without its mean *)
Definition tapered_uneven (interpolated counts : list R) : list (option R) :=
  let s := rlsum (map (fun x => x * x) interpolated) in
  let m := rlsum counts / INR (length counts) in
  map (fun p => flet x := fdiv (fst p) s in Some (x * sqrt (INR (length counts)) * (snd p - m))) (combine interpolated counts).

(* multitaper.py:239-247 the light curve that is used: self.gti is checked, the light curve is split by its own GTIs *)
Definition multitaper_light_curve (numba : bool) (srt : list tagged -> list tagged) (gti : option gtis) (lc : series) : result (gtis * series) :=
  match gti_of lc with
  | None => Err TypeError
  | Some own =>
    let! g := match gti with Some g => Ok g | None => cross_two_gtis srt own own end in
    let! _ := check_gtis g in
    if negb (Nat.eqb (length g) 1) then Err TypeError
    else
      let! pieces := split_by_gti numba lc None 2 in
      match pieces with [] => Err IndexError | p :: _ => Ok (g, p) end
  end.
