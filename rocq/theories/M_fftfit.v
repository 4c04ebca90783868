(* M_fftfit.v: model of stingray/pulse/fftfit.py and of the times of arrival of stingray/pulse/pulsar.py.  Numbers are exact
   reals. *)
From Verif Require Import Np Cplx M_fourier M_zn M_corr M_exvar.
From Coq Require Import Reals.
Open Scope R_scope.

(* fftfit.py:178-196 normalize_phase_0d5; fuel bounds the turns of the two loops *)
Fixpoint lower_phase (fuel : nat) (phase : R) : result R :=
  match fuel with
  | O => Err OutOfFuel
  | S fuel => if Rlt_dec (1 / 2) phase then lower_phase fuel (phase - 1) else Ok phase
  end.
Fixpoint raise_phase (fuel : nat) (phase : R) : result R :=
  match fuel with
  | O => Err OutOfFuel
  | S fuel => if Rle_dec phase (- (1 / 2)) then raise_phase fuel (phase + 1) else Ok phase
  end.
Definition normalize_phase_0d5 (fuel : nat) (phase : R) : result R :=
  let! p := lower_phase fuel phase in raise_phase fuel p.

(* fftfit.py:5-43 _find_delay_with_ccf.  Line 34: amp[:32] with fewer than 32 elements cannot be stored in 32 places (ValueError;
   one single element would be repeated and is left out).  Line 35 stores the conjugates of zeros; lines 36-37 leave only the
   first 16 places. *)
Definition find_delay_with_ccf (fuel : nat) (amp pha : list R) : result R :=
  if Nat.ltb (length amp) 32 then Err ValueError
  else
    let ccf_inv := map (fun k => if Nat.ltb k 16 then (nth k amp 0 * cos (nth k pha 0), nth k amp 0 * sin (nth k pha 0)) else c0) (seq 0 64) in
    let ccf := ifft ccf_inv in
    let! imax := argmax (map re ccf) in
    normalize_phase_0d5 fuel (INR imax / 64).

(* fftfit.py:46-67 best_phase_func; more than len(amp) - 1 good harmonics: the shapes differ *)
Definition best_phase_func (tau : R) (amp pha : list R) (ngood : nat) : result R :=
  if Nat.ltb (length amp - 1) ngood then Err ValueError
  else Ok (rlsum (map (fun k => INR k * nth k amp 0 * sin (- nth k pha 0 + 2 * PI * INR k * tau)) (seq 1 ngood))).

(* np.sign *)
Definition rsign (x : R) : Z := if Rlt_dec 0 x then 1%Z else if Rlt_dec x 0 then (-1)%Z else 0%Z.

(* fftfit.py:129-150: the search of an interval around the solution; f is func_to_minimize *)
Fixpoint bracket (fuel : nat) (f : R -> R) (s0 : Z) (step up down : R) : result R :=
  match fuel with
  | O => Err OutOfFuel
  | S fuel =>
    if negb (Z.eqb (rsign (f up)) s0) then Ok up
    else if negb (Z.eqb (rsign (f down)) s0) then Ok down
    else bracket fuel f s0 step (up + step) (down - step)
  end.

(* fftfit.py:73-175 fftfit: amplitude, its error, shift, its error.  brentq: scipy.optimize.brentq (library).  None is nan or
   infinity.  The assertions at lines 112-113 hold in exact arithmetic.  A template of another length raises IndexError
   (line 108); an empty profile is left out. *)
Definition demean (x : list R) : list R := map (fun v => v - mean x) x.
Definition cstd2 (x : list cx) : R :=
  let n := INR (length x) in
  let m := cscal (clsum x) (/ n) in
  rlsum (map (fun v => cnorm2 (csub v m)) x) / n.
Definition amp_of (pf tf : list cx) : list R := map (fun p => cabs (fst p) * cabs (snd p)) (combine pf tf).
Definition pha_of (pf tf : list cx) : list R := map (fun p => angle (fst p) - angle (snd p)) (combine pf tf).
Definition count_good (amp : list R) : nat := length (filter (fun a => if Rle_dec (mean amp) a then true else false) amp).
Definition sum_good {A} (f : nat -> A -> R) (d : A) (l : list A) (ngood : nat) : R :=
  rlsum (map (fun k => f k (nth k l d)) (seq 1 (ngood - 1))).
Definition errors_of (pf tf : list cx) (amp pha : list R) (ngood : nat) (shift : R) : option R * option R * option R :=
  let sigma2 := cstd2 pf in
  let phase := fun k => - nth k pha 0 + 2 * PI * INR k * (- shift) in
  let big_sum := sum_good (fun k a => INR k * INR k * a * cos (phase k)) 0 amp ngood in
  let s2 := sum_good (fun _ s => cabs s * cabs s) c0 tf ngood in
  let b := fdiv (sum_good (fun k a => a * cos (phase k)) 0 amp ngood) s2 in
  let eshift := flet b' := b in fdiv sigma2 (2 * b' * big_sum) in
  let eb := fdiv sigma2 (2 * s2) in
  (b, (flet e := eb in fsqrt e), (flet e := eshift in fsqrt e)).
Definition taylor_fftfit (fuel : nat) (brentq : (R -> R) -> R -> R -> result R) (prof template : list R)
    : result (option R * option R * R * option R) :=
  let nbin := length prof in
  if negb (Nat.eqb (length template) nbin) then Err IndexError
  else
    let tf := fft (map rtoc (demean template)) in
    let pf := fft (map rtoc (demean prof)) in
    let amp := amp_of pf tf in
    let pha := pha_of pf tf in
    let! start := find_delay_with_ccf fuel amp pha in
    let ngood := count_good amp in
    let! _ := best_phase_func (- start) amp pha ngood in
    let f := fun tau => match best_phase_func (- tau) amp pha ngood with Ok v => v | Err _ => 0 end in
    let! best := bracket fuel f (rsign (f start)) (1 / INR nbin) start start in
    let! root := brentq f (best - 2 / INR nbin) (best + 2 / INR nbin) in
    let! shift := normalize_phase_0d5 fuel root in
    let '(b, eb, es) := errors_of pf tf amp pha ngood shift in
    Ok (b, eb, shift, es).

(* pulsar.py:741-771 fftfit: the means are subtracted before and again in fftfit.py; the other arguments have no effect *)
Definition fftfit (fuel : nat) (brentq : (R -> R) -> R -> R -> result R) (prof template : list R) :=
  taylor_fftfit fuel brentq (demean prof) (demean template).

(* pulsar.py:805-863 get_TOA without the plot; np.floor(x) is up x - 1 *)
Definition rfloor (x : R) : R := IZR (up x - 1).
Definition default_template (nbin : nat) : list R := map (fun i => cos (2 * PI * (INR i / INR nbin))) (seq 0 nbin).
Definition get_TOA (fuel : nat) (brentq : (R -> R) -> R -> R -> result R) (prof : list R) (period tstart : R)
    (template : option (list R)) (additional_phase : R) : result (R * option R) :=
  let template := match template with Some t => t | None => default_template (length prof) end in
  let! r := fftfit fuel brentq prof template in
  let '(_, _, phase_res, phase_err) := r in
  let p := phase_res + additional_phase in
  let p := p - rfloor p in
  Ok (tstart + p * period, option_map (fun e => e * period) phase_err).
