(* M_ls.v: model of stingray/lombscargle.py and of the Lomb-Scargle transforms of stingray/fourier.py.  None is nan. *)
From Verif Require Import Np M_utils Cplx M_fourier M_norm.
From Coq Require Import QArith Qreals Reals List.
Import ListNotations.
Open Scope R_scope.

(* stingray/lombscargle.py:30-80 _autofrequency *)
Definition not_positive (x : option Q) : bool := match x with None => true | Some d => qle d 0 end.
Definition autofrequency (min_freq max_freq df dt length : option Q) (nyquist_factor : Q) : result (list Q) :=
  let! df := match not_positive df, length with
             | true, None => Err ValueError
             | true, Some l => if qeq l 0 then Err ZeroDivisionError else Ok (1 / l)%Q
             | false, _ => match df with Some d => Ok d | None => Err ValueError end
             end in
  let! top := match max_freq with
              | Some f => Ok f
              | None => match dt with
                        | None => Err ValueError
                        | Some d => if qeq d 0 then Err ValueError else Ok (nyquist_factor * (1 # 2) / d)%Q
                        end
              end in
  let start := match min_freq with
               | None => (df / 2)%Q
               | Some f => if qle f 0 then (df / 2)%Q else f
               end in
  Ok (arange start (top + df) df).

(* np.mean and the sums of fourier.py:2596-2678 *)
Definition tsum (f : R -> R) (t : list R) : R := rlsum (map f t).
Definition ysum (f : R -> R) (y t : list R) : R := rlsum (map (fun p => fst p * f (snd p)) (combine y t)).
Definition minus_mean (y : list R) : list R := map (fun v => v - rlsum y / INR (length y)) y.
(* exp(-1j * phase) *)
Definition unit_phase (phase : R) : cx := (cos (- phase), sin (- phase)).
(* a / sqrt(s): None if nan or infinite *)
Definition over_sqrt (a s : R) : option R := if Rlt_dec 0 s then Some (a / sqrt s) else None.
Definition both (a b : option R) : option cx := match a, b with Some x, Some y => Some (x, y) | _, _ => None end.
Definition omul (a : option cx) (b : cx) : option cx := match a with Some z => Some (cmul z b) | None => None end.
(* np.sign *)
Definition rsign (x : R) : R := if Rlt_dec 0 x then 1 else if Rlt_dec x 0 then -1 else 0.
(* stingray/fourier.py:2596-2678 lsft_slow, one frequency *)
Definition slow_at (sgn : R) (y t : list R) (f : R) : option cx :=
  let y_ := minus_mean y in
  let n := INR (length y) in
  let const1 := sqrt (1 / 2 * n) in
  let wrun := f * 2 * PI in
  if Req_EM_T wrun 0 then Some (rlsum y_ / sqrt n, 0)
  else
    let csum := tsum (fun x => cos (2 * wrun * x)) t in
    let ssum := tsum (fun x => sin (2 * wrun * x)) t in
    let wtau := 1 / 2 * angle (csum, ssum) in
    let sumr := ysum (fun x => cos (wrun * x - wtau)) y_ t in
    let sumi := ysum (fun x => sin (wrun * x - wtau)) y_ t in
    let scos2 := tsum (fun x => cos (wrun * x - wtau) * cos (wrun * x - wtau)) t in
    let ssin2 := tsum (fun x => sin (wrun * x - wtau) * sin (wrun * x - wtau)) t in
    omul (both (over_sqrt (const1 * sumr) scos2) (over_sqrt (const1 * rsign sgn * sumi) ssin2))
      (unit_phase (wtau - wrun * nth 0 t 0)).
(* y and t have the same length (numpy: ValueError otherwise) *)
Definition nonneg_freqs (freqs : list R) : list R := filter (fun f => if Rle_dec 0 f then true else false) freqs.
Definition lsft_slow (sgn : R) (y t freqs : list R) : result (list (option cx)) :=
  match Nat.eqb (length y) (length t), t with
  | false, _ => Err ValueError
  | true, [] => match nonneg_freqs freqs with [] => Ok [] | _ => Err IndexError end
  | true, _ => Ok (map (slow_at sgn y t) (nonneg_freqs freqs))
  end.

(* stingray/fourier.py:2498-2593 lsft_fast.  [trig t h df N f0 factor] is trig_sum of astropy: the sums of h sin (first) and of h cos
   (second) at the frequencies factor (f0 + j df), j < N, up to interpolation.  Line 2553 names the first result csum and the second ssum. *)
Section Fast.
Variable trig : list R -> list R -> R -> nat -> R -> R -> list R * list R.
Definition fast_one (sgn : R) (n_points n_freqs : nat) (sum_xx t0 : R) (q : R * (R * R) * ((R * R) * (R * R))) : option cx :=
  let '(f, (sh, ch), ((csum, ssum), (s2, c2))) := q in
  let N := INR n_freqs in
  let w := f * 2 * PI in
  let wtau := 1 / 2 * angle (csum, ssum) in
  let const := sqrt (1 / 2) * sqrt N in
  let sumr := ch * cos wtau + sh * sin wtau in
  let sumi := sh * cos wtau - ch * sin wtau in
  let scos2 := 1 / 2 * (N + c2 * cos (2 * wtau) + s2 * sin (2 * wtau)) in
  let ssin2 := 1 / 2 * (N - c2 * cos (2 * wtau) - s2 * sin (2 * wtau)) in
  let ft := if Req_EM_T f 0 then Some (sum_xx / sqrt (INR n_points), 0)
            else both (over_sqrt (const * sumr) scos2) (over_sqrt (const * rsign sgn * sumi) ssin2) in
  omul ft (unit_phase (wtau - w * t0)).
Definition pairs (p : list R * list R) : list (R * R) := combine (fst p) (snd p).
Definition lsft_fast (sgn : R) (y t freqs : list R) : result (list (option cx)) :=
  let y_ := minus_mean y in
  match nonneg_freqs freqs, t with
  | f0 :: f1 :: fs, t0 :: _ =>
    let df := f1 - f0 in
    let l := f0 :: f1 :: fs in
    let N := length l in
    let h := pairs (trig t y_ df N f0 1) in
    let a := pairs (trig t (map (fun _ => 1 / INR (length y)) y) df N f0 2) in
    let b := pairs (trig t (map (fun _ => 1) y) df N f0 2) in
    Ok (map (fast_one sgn (length y) N (rlsum y_) t0) (combine (combine l h) (combine a b)))
  | _, _ => Err IndexError
  end.
End Fast.

(* stingray/fourier.py:2681-2710 impose_symmetry_lsft *)
Definition oconj (z : option cx) : option cx := match z with Some z => Some (cconj z) | None => None end.
Definition impose_symmetry (ft : list (option cx)) (freqs : list R) : list (option cx) * list R :=
  (map oconj (rev ft) ++ [Some c0] ++ ft, rev (map Ropp freqs) ++ [0] ++ freqs).

(* stingray/lombscargle.py:752-803 _ls_cross: [lsft] is lsft_slow or lsft_fast with sign = 1 *)
Record lcurve := mkLc { lc_time : list Q; lc_counts : list Q; lc_res : Q; lc_var : option R }.
Definition times_of (lc : lcurve) : list R := map Q2R (lc_time lc).
Definition counts_of (lc : lcurve) : list R := map Q2R (lc_counts lc).
Definition cross_of (p : option cx * option cx) : option cx :=
  match p with (Some a, Some b) => Some (cmul a (cconj b)) | _ => None end.
Definition ls_cross (lsft : list R -> list R -> list R -> result (list (option cx))) (lc1 lc2 : lcurve) (freq : list R) (fullspec : bool)
  : result (list R * list (option cx)) :=
  let! f1 := lsft (counts_of lc1) (times_of lc1) freq in
  let! f2 := lsft (counts_of lc2) (times_of lc2) freq in
  let '(f1, f2, freq) := if fullspec then (fst (impose_symmetry f1 freq), fst (impose_symmetry f2 freq), snd (impose_symmetry f2 freq))
                         else (f1, f2, freq) in
  Ok (freq, map cross_of (combine f1 f2)).

(* stingray/crossspectrum.py:902-933 _normalize_crossspectrum for power_type="all": each power is multiplied with the same factor
   (fourier.py:459-585), nan stays nan.  With other power types the real part or modulus is taken. *)
Definition otype (pt : ptype) (z : option cx) : result (option cx) :=
  match pt with
  | PAll => Ok z
  | PReal => Ok (match z with Some z => Some (rtoc (re z)) | None => None end)
  | PAbs => Ok (match z with Some z => Some (rtoc (cabs z)) | None => None end)
  | POther => Err ValueError
  end.
Definition omulr (l : list (option cx)) (r : R) : list (option cx) := map (fun z => match z with Some z => Some (cscal z r) | None => None end) l.
Definition normalize_cross (p : list (option cx)) (dt : R) (n : nat) (nph1 nph2 : R) (vars : option (R * R)) (norm : normt) (pt : ptype)
  : result (list (option cx)) :=
  let nph := sqrt (nph1 * nph2) in
  let variance := match vars with Some (a, b) => Some (sqrt (a * b)) | None => None end in
  let! q := normalize omulr p dt n (Some (nph / INR n)) (Some nph) variance 0 norm in
  map_result (otype pt) q.

(* attributes of a spectrum; ls_df is self.df *)
Record lspec := mkLs { ls_freq : list R; ls_unnorm : list (option cx); ls_power : list (option cx); ls_df : option R; ls_dt : R; ls_n : nat;
                       ls_nph1 : R; ls_nph2 : R; ls_vars : option (R * R) }.
Definition last_q (l : list Q) : result Q := match rev l with x :: _ => Ok x | [] => Err IndexError end.
Definition first_q (l : list Q) : result Q := match l with x :: _ => Ok x | [] => Err IndexError end.
(* stingray/lombscargle.py:642-749 lscrossspectrum_from_lightcurve.  lc_var is the variance of a light curve that is not Poisson
   (mean of the errors squared); its mean counts stand for it otherwise. *)
Definition variances (lc1 lc2 : lcurve) : option (R * R) :=
  let v := fun lc => match lc_var lc with Some v => v | None => rlsum (counts_of lc) / INR (length (lc_counts lc)) end in
  match lc_var lc1, lc_var lc2 with None, None => None | _, _ => Some (v lc1, v lc2) end.
Definition ls_from_lightcurve (lsft : list R -> list R -> list R -> result (list (option cx))) (lc1 lc2 : lcurve) (norm : normt) (pt : ptype)
  (fullspec : bool) (min_freq max_freq df : option Q) : result lspec :=
  let! e1 := last_q (lc_time lc1) in
  let! e2 := last_q (lc_time lc2) in
  let! b1 := first_q (lc_time lc1) in
  let! b2 := first_q (lc_time lc2) in
  let len := (qmax e1 e2 - qmin b1 b2)%Q in
  let! freq := autofrequency min_freq max_freq df (Some (qmin (lc_res lc1) (lc_res lc2))) (Some len) 1 in
  let! fc := ls_cross lsft lc1 lc2 (map Q2R freq) fullspec in
  let '(freq, cross) := fc in
  let nph1 := rlsum (counts_of lc1) in
  let nph2 := rlsum (counts_of lc2) in
  let vars := variances lc1 lc2 in
  let dt := Q2R (lc_res lc1) in
  let n := length (lc_time lc1) in
  let! power := normalize_cross cross dt n nph1 nph2 vars norm pt in
  let! power' := map_result (otype pt) power in
  let unnorm := match pt with PReal | PAbs => power' | _ => cross end in
  Ok (mkLs freq unnorm power' None dt n nph1 nph2 vars).
(* stingray/lombscargle.py:180-235 LombScargleCrossspectrum.__init__ and 305-342: df=None is handed on *)
Definition ls_crossspectrum (lsft : list R -> list R -> list R -> result (list (option cx))) (lc1 lc2 : lcurve) (norm : normt) (pt : ptype)
  (fullspec : bool) (min_freq max_freq df : option Q) : result lspec :=
  ls_from_lightcurve lsft lc1 lc2 norm pt fullspec min_freq max_freq None.
(* stingray/lombscargle.py:592-639 LombScarglePowerspectrum.__init__ *)
Definition ls_powerspectrum (lsft : list R -> list R -> list R -> result (list (option cx))) (lc : lcurve) (norm : normt) (pt : ptype)
  (fullspec : bool) (min_freq max_freq df : option Q) : result lspec :=
  ls_from_lightcurve lsft lc lc norm pt fullspec min_freq max_freq df.
(* stingray/lombscargle.py:237-303 initial_checks of frequencies *)
Definition check_freqs (min_freq max_freq : option Q) : result unit :=
  if match min_freq with Some f => qlt f 0 | None => false end then Err ValueError
  else if match max_freq with Some f => qlt f 0 | None => false end then Err ValueError
  else match min_freq, max_freq with Some a, Some b => if qle b a then Err ValueError else Ok tt | _, _ => Ok tt end.
(* stingray/lombscargle.py:405-468 compute_rms: self.df * K_freq *)
Definition ls_bin_width (s : lspec) (k : R) : result R := match ls_df s with Some d => Ok (d * k) | None => Err TypeError end.
