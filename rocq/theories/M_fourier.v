(* M_fourier.v: model of stingray/fourier.py, the periodogram part.
   Numbers are exact reals (stdlib R) and complex numbers are pairs of reals; floating-point
   rounding, nan and inf are not modelled.  A division by zero (nan/inf in numpy) is the
   unspecified value of Coq's division: theorems that depend on it exclude it.
   Light-curve fluxes are real arrays (complex fluxes are not modelled). *)
From Verif Require Import Np Cplx.
Open Scope R_scope.

(* numpy.fft.fft (library): X_k = sum_j x_j exp(-2 pi i j k / n). *)
Definition fft (x : list cx) : list cx :=
  let n := length x in
  map (fun k => cs n (fun j => cmul (nth j x c0) (cis n (- Z.of_nat (k * j))))) (seq 0 n).

(* numpy.fft.fftfreq (library): the first (n-1)//2+1 values are 0,1,2,.., the others
   -(n//2)..-1, all divided by n*d. *)
Definition fftfreq (n : nat) (d : R) : list R :=
  map (fun i => INR i / (INR n * d)) (seq 0 ((n - 1) / 2 + 1)) ++
  map (fun i => (INR i - INR (n / 2)) / (INR n * d)) (seq 0 (n / 2)).

(* fourier.py:111-175 positive_fft_bins; the slice object is the pair (start, stop). *)
Definition positive_fft_bins (n_bin : nat) (include_zero : bool) : nat * nat :=
  let minbin := if include_zero then 0%nat else 1%nat in
  if Nat.eqb (n_bin mod 2) 0 then (minbin, (n_bin / 2)%nat)
  else (minbin, ((n_bin + 1) / 2)%nat).

(* values of the [norm] argument; OtherNorm is any other string *)
Inductive normt := Frac | AbsNorm | Leahy | NoNorm | OtherNorm.
(* values of the [power_type] argument *)
Inductive ptype := PAll | PReal | PAbs | POther.

(* fourier.py:178-268 poisson_level.  [norm.lower()] only matters for the upper-case spellings of
   the four names, which end in a ValueError either way (OtherNorm). *)
Definition poisson_level (norm : normt) (meanrate n_ph : option R) (backrate : R) : result R :=
  match norm, meanrate, n_ph with
  | AbsNorm, None, _ => Err ValueError
  | Frac, None, _ => Err ValueError
  | NoNorm, _, None => Err ValueError
  | AbsNorm, Some mr, _ => Ok (2 * mr)
  | Frac, Some mr, _ => Ok (2 / ((mr - backrate) * (mr - backrate)) * mr)
  | Leahy, _, _ => Ok 2
  | NoNorm, _, Some n => Ok n
  | OtherNorm, _, _ => Err ValueError
  end.

Section Normalize.
(* A is the type of the powers: a number or an array, real or complex; [mul p r] is the
   Python product p * r with a real r, and p / r is written mul p (/ r). *)
Context {A : Type} (mul : A -> R -> A).

(* fourier.py:271-356 normalize_frac *)
Definition normalize_frac (p : A) (dt : R) (n_bin : nat) (mean background : R) : A :=
  if Rlt_dec 0 background
  then mul (mul (mul p 2) dt) (/ ((mean - background) * (mean - background) * INR n_bin))
  else mul (mul (mul p 2) dt) (/ (mean * mean * INR n_bin)).
(* fourier.py:359-408 normalize_abs *)
Definition normalize_abs (p : A) (dt : R) (n_bin : nat) : A :=
  mul (mul (mul p 2) (/ INR n_bin)) (/ dt).
(* fourier.py:411-459 normalize_leahy_from_variance *)
Definition normalize_leahy_from_variance (p : A) (variance : R) (n_bin : nat) : result A :=
  if Req_EM_T variance 0 then Err ValueError
  else Ok (mul (mul p 2) (/ (variance * INR n_bin))).
(* fourier.py:462-499 normalize_leahy_poisson *)
Definition normalize_leahy_poisson (p : A) (n_ph : R) : A := mul (mul p 2) (/ n_ph).

(* fourier.py:502-585 normalize_periodograms with power_type="all"; an argument left at None
   gives a TypeError when it is used. *)
Definition normalize (p : A) (dt : R) (n_bin : nat) (mean n_ph variance : option R)
  (background : R) (norm : normt) : result A :=
  match norm with
  | Leahy =>
      match variance with
      | Some v => normalize_leahy_from_variance p v n_bin
      | None => match n_ph with Some n => Ok (normalize_leahy_poisson p n) | None => Err TypeError end
      end
  | Frac => match mean with
            | Some m => Ok (normalize_frac p dt n_bin m background)
            | None => Err TypeError
            end
  | AbsNorm => Ok (normalize_abs p dt n_bin)
  | NoNorm => Ok p
  | OtherNorm => Err ValueError
  end.

(* fourier.py:588-666 unnormalize_periodograms with power_type="all" *)
Definition unnormalize (p : A) (dt : R) (n_bin : nat) (n_ph : R) (variance : option R)
  (background : R) (norm : normt) : result A :=
  match norm with
  | Leahy =>
      match variance with
      | Some v => Ok (mul (mul p (v * n_ph)) (/ 2))
      | None => Ok (mul (mul p n_ph) (/ 2))
      end
  | Frac =>
      if Rlt_dec 0 background
      then Ok (mul (mul p ((n_ph / INR n_bin - background) * (n_ph / INR n_bin - background) * INR n_bin))
                   (/ (2 * dt)))
      else Ok (mul (mul p (n_ph * n_ph / INR n_bin)) (/ (2 * dt)))
  | AbsNorm => Ok (mul (mul (mul p dt) (INR n_bin)) (/ 2))
  | NoNorm => Ok p
  | OtherNorm => Err ValueError
  end.

(* fourier.py:579-585, 660-666: the power_type switch at the end of both functions; [real] and
   [abs] are p.real and np.abs(p). *)
Definition with_ptype (real abs : A -> A) (pt : ptype) (p : result A) : result A :=
  let! x := p in
  match pt with
  | PAll => Ok x
  | PReal => Ok (real x)
  | PAbs => Ok (abs x)
  | POther => Err ValueError
  end.
End Normalize.

(* the product of arrays with a number, and the real part / absolute value of arrays.  A real
   array obtained from a complex one is kept as complex numbers with zero imaginary part. *)
Definition rmul (l : list R) (r : R) : list R := map (fun x => x * r) l.
Definition cmulr (l : list cx) (r : R) : list cx := map (fun z => cscal z r) l.
Definition creal (l : list cx) : list cx := map (fun z => rtoc (re z)) l.
Definition cabsl (l : list cx) : list cx := map (fun z => rtoc (cabs z)) l.
Definition rabsl (l : list R) : list R := map Rabs l.

(* fourier.py:669-709 bias_term for scalar n_ave *)
Definition bias_term (power1 power2 noise1 noise2 : R) (n_ave : nat) (ic : R) : R :=
  if Nat.ltb 500 n_ave then 0 * power1
  else (power1 * power2 - ic * (power1 - noise1) * (power2 - noise2)) / INR n_ave.

(* fourier.py:712-755 raw_coherence, one frequency bin *)
Definition raw_coherence (cross : cx) (power1 power2 noise1 noise2 : R) (n_ave : nat) (ic : R) : R :=
  let bsq := bias_term power1 power2 noise1 noise2 n_ave ic in
  let num := re (cmul cross (cconj cross)) - bsq in
  let num := if Rlt_dec num 0 then re (cmul cross (cconj cross)) else num in
  num / (power1 * power2).

(* fourier.py:1083-1164 error_on_averaged_cross_spectrum, common_ref=False, one bin:
   (dRe, dIm, dphi, dG) *)
Definition error_on_cs (cross : cx) (seg ref : R) (n_ave : nat) (segn refn : R) : R * R * R * R :=
  let two_n := 2 * INR n_ave in
  let prps := ref * seg in
  let dre := sqrt ((prps + re cross * re cross - im cross * im cross) / two_n) in
  let dim := sqrt ((prps - re cross * re cross + im cross * im cross) / two_n) in
  let gsq := raw_coherence cross seg ref segn refn n_ave 1 in
  let dphi := sqrt ((1 - gsq) / (2 * gsq * INR n_ave)) in
  let dg := sqrt (prps / INR n_ave) in
  (dre, dim, dphi, dg).

(* fourier.py:1167-1195 cross_to_covariance, one bin *)
Definition cross_to_covariance (cross : cx) (ref noise delta_nu : R) : cx :=
  cscal cross (sqrt (delta_nu / (ref - noise))).

(* np.angle (library): the argument of a complex number in (-pi, pi]; 0 for 0. *)
Definition angle (z : cx) : R :=
  if Rlt_dec 0 (re z) then atan (im z / re z)
  else if Rlt_dec (re z) 0 then
    (if Rle_dec 0 (im z) then atan (im z / re z) + PI else atan (im z / re z) - PI)
  else if Rlt_dec 0 (im z) then PI / 2
  else if Rlt_dec (im z) 0 then - (PI / 2)
  else 0.
(* crossspectrum.py:1021-1028 Crossspectrum.phase_lag *)
Definition phase_lag (unnorm_power : list cx) : list R := map angle unnorm_power.
(* crossspectrum.py:1030-1045 Crossspectrum.time_lag *)
Definition time_lag (unnorm_power : list cx) (freq : list R) : list R :=
  map (fun pf => fst pf / (2 * PI * snd pf)) (combine (phase_lag unnorm_power) freq).

(* One element of a flux iterable: None, an array, or a tuple (flux, err). *)
Record seg := { s_flux : list R; s_err : option (list R) }.

(* np.all(flux == 0) on an array; on a tuple, flux == 0 is False. *)
Definition all_zero (s : seg) : bool :=
  match s_err s with
  | None => forallb (fun x => if Req_EM_T x 0 then true else false) (s_flux s)
  | Some _ => false
  end.
(* np.mean *)
Definition rmean (l : list R) : R := rlsum l / INR (length l).
(* np.mean(err) ** 2 *)
Definition seg_var (s : seg) : option R := option_map (fun e => rmean e * rmean e) (s_err s).

(* element-wise A + B and A * B for arrays of equal length (numpy raises ValueError otherwise;
   the broadcasting of length-1 arrays is not modelled). *)
Definition vmap2 {A} (f : A -> A -> A) (x y : list A) : result (list A) :=
  if Nat.eqb (length x) (length y) then Ok (map (fun p => f (fst p) (snd p)) (combine x y))
  else Err ValueError.
(* utils.py:2337-2356 sum_if_not_none_or_initialize, arrays *)
Definition add_or_init {A} (add : A -> A -> A) (a : option (list A)) (b : list A) : result (list A) :=
  match a with None => Ok b | Some x => vmap2 add x b end.
(* the same, numbers *)
Definition add_or_init1 (a : option R) (b : R) : R := match a with None => b | Some x => x + b end.

(* x[slice] *)
Definition cut {A} (l : list A) (s : nat * nat) : list A := slice l (fst s) (snd s).

(* result table of avg_pds_from_iterable (fourier.py:1747-1767) *)
Record pds_table := {
  p_freq : list R; p_power : list R; p_unnorm : list R;
  p_n : nat; p_m : nat; p_dt : R; p_norm : normt; p_df : R; p_nphots : R; p_mean : R;
  p_variance : option R; p_segment_size : R;
  p_subcs : option (list (list R)); p_unnorm_subcs : option (list (list R)) }.

(* local variables of the loop of avg_pds_from_iterable *)
Record pds_state := {
  ps_cross : option (list R); ps_unnorm : option (list R); ps_n_ave : nat; ps_ph : R;
  ps_var : option R; ps_fgt0 : nat * nat; ps_freq : list R; ps_n_bin : nat;
  ps_subcs : list (list R); ps_usubcs : list (list R) }.
Definition pds_init : pds_state :=
  {| ps_cross := None; ps_unnorm := None; ps_n_ave := 0; ps_ph := 0; ps_var := None;
     ps_fgt0 := (0%nat, 0%nat); ps_freq := []; ps_n_bin := 0; ps_subcs := []; ps_usubcs := [] |}.

(* fourier.py:1658-1717: one turn of the loop *)
Definition pds_step (dt : R) (norm : normt) (common : bool) (st : pds_state) (flux : option seg)
  : result pds_state :=
  match flux with
  | None => Ok st
  | Some s =>
    if all_zero s then Ok st
    else
      let variance := seg_var s in
      let n_bin := length (s_flux s) in
      let ft := fft (map rtoc (s_flux s)) in
      let n_ph := rlsum (s_flux s) in
      let unnorm := map (fun z => re (cmul z (cconj z))) ft in
      let var' := match variance with
                  | Some v => Some (add_or_init1 (ps_var st) v)
                  | None => ps_var st
                  end in
      let fgt0 := match ps_cross st with None => positive_fft_bins n_bin false | Some _ => ps_fgt0 st end in
      let freq := match ps_cross st with None => cut (fftfreq n_bin dt) fgt0 | Some _ => ps_freq st end in
      let unnorm := cut unnorm fgt0 in
      let! cs_seg := (if common then Ok unnorm
                      else normalize rmul unnorm dt n_bin (Some (n_ph / INR n_bin)) (Some n_ph)
                             variance 0 norm) in
      let! cross := add_or_init Rplus (ps_cross st) cs_seg in
      let! ucross := add_or_init Rplus (ps_unnorm st) unnorm in
      Ok {| ps_cross := Some cross; ps_unnorm := Some ucross; ps_n_ave := S (ps_n_ave st);
            ps_ph := ps_ph st + n_ph; ps_var := var'; ps_fgt0 := fgt0; ps_freq := freq;
            ps_n_bin := n_bin; ps_subcs := ps_subcs st ++ [cs_seg];
            ps_usubcs := ps_usubcs st ++ [unnorm] |}
  end.

Fixpoint loop {S X} (step : S -> X -> result S) (st : S) (l : list X) : result S :=
  match l with
  | [] => Ok st
  | x :: l' => let! st' := step st x in loop step st' l'
  end.

(* fourier.py:1589-1768 avg_pds_from_iterable.  The iterable is the list of what it yields; the
   progress bar and deep copies are left out. *)
Definition avg_pds (segs : list (option seg)) (dt : R) (norm : normt) (common subcs : bool)
  : result (option pds_table) :=
  let! st := loop (pds_step dt norm common) pds_init segs in
  match ps_cross st, ps_unnorm st with
  | Some cross, Some ucross =>
      let n_ave := INR (ps_n_ave st) in
      let n_bin := ps_n_bin st in
      let n_ph := ps_ph st / n_ave in
      let mean := n_ph / INR n_bin in
      let var := option_map (fun v => v / n_ave) (ps_var st) in
      let ucross := map (fun x => x / n_ave) ucross in
      let cross := map (fun x => x / n_ave) cross in
      let! final :=
        (if common then
           let! factor := normalize Rmult 1 dt n_bin (Some mean) (Some n_ph) var 0 norm in
           Ok (rmul ucross factor, map (fun s => rmul s factor) (ps_subcs st))
         else Ok (cross, ps_subcs st)) in
      Ok (Some {| p_freq := ps_freq st; p_power := fst final; p_unnorm := ucross; p_n := n_bin;
                  p_m := ps_n_ave st; p_dt := dt; p_norm := norm; p_df := 1 / (dt * INR n_bin);
                  p_nphots := n_ph; p_mean := mean; p_variance := var;
                  p_segment_size := dt * INR n_bin;
                  p_subcs := if subcs then Some (snd final) else None;
                  p_unnorm_subcs := if subcs then Some (ps_usubcs st) else None |})
  | _, _ => Ok None
  end.

(* result table of avg_cs_from_iterables (fourier.py:2222-2258); the scalars countrate1/2 are
   mean1/dt and mean2/dt *)
Record cs_table := {
  c_freq : list R; c_power : list cx; c_unnorm : list cx;
  c_n : nat; c_m : nat; c_dt : R; c_norm : normt; c_df : R; c_segment_size : R;
  c_nphots : R; c_nphots1 : R; c_nphots2 : R; c_mean : R; c_mean1 : R; c_mean2 : R;
  c_variance : option R; c_variance1 : option R; c_variance2 : option R;
  c_auxil : option (list R * list R * (list R * list R)); (* pds1, pds2, (unnorm_pds1, unnorm_pds2) *)
  c_subcs : option (list (list cx) * list (list cx)) }.   (* subcs, unnorm_subcs *)

Record cs_state := {
  st_cross : option (list cx); st_unnorm : option (list cx);
  st_upds1 : option (list R); st_upds2 : option (list R);
  st_pds1 : option (list R); st_pds2 : option (list R);
  st_n_ave : nat; st_ph1 : R; st_ph2 : R; st_var1 : option R; st_var2 : option R;
  st_fgt0 : nat * nat; st_freq : list R; st_n_bin : nat;
  st_subcs : list (list cx); st_usubcs : list (list cx) }.
Definition cs_init : cs_state :=
  {| st_cross := None; st_unnorm := None; st_upds1 := None; st_upds2 := None; st_pds1 := None;
     st_pds2 := None; st_n_ave := 0; st_ph1 := 0; st_ph2 := 0; st_var1 := None; st_var2 := None;
     st_fgt0 := (0%nat, 0%nat); st_freq := []; st_n_bin := 0; st_subcs := []; st_usubcs := [] |}.

(* fourier.py:2021-2141: one turn of the loop.  [auxil] is return_auxil. *)
Definition cs_step (dt : R) (norm : normt) (common fullspec : bool) (pt : ptype) (auxil : bool)
  (st : cs_state) (fluxes : option seg * option seg) : result cs_state :=
  match fluxes with
  | (Some s1, Some s2) =>
    if all_zero s1 || all_zero s2 then Ok st
    else
      let variances := match seg_var s1, seg_var s2 with
                       | Some v1, Some v2 => Some (v1, v2)
                       | _, _ => None
                       end in
      let var1' := match variances with Some v => Some (add_or_init1 (st_var1 st) (fst v)) | None => st_var1 st end in
      let var2' := match variances with Some v => Some (add_or_init1 (st_var2 st) (snd v)) | None => st_var2 st end in
      let n_bin := length (s_flux s1) in
      let freq := match st_cross st with None => fftfreq n_bin dt | Some _ => st_freq st end in
      let fgt0 := match st_cross st with None => positive_fft_bins n_bin false | Some _ => st_fgt0 st end in
      let ft1 := fft (map rtoc (s_flux s1)) in
      let ft2 := fft (map rtoc (s_flux s2)) in
      let n_ph1 := rlsum (s_flux s1) in
      let n_ph2 := rlsum (s_flux s2) in
      let n_ph := sqrt (n_ph1 * n_ph2) in
      let! unnorm := vmap2 cmul (map cconj ft1) ft2 in
      let upd1 := map (fun z => re (cmul z (cconj z))) ft1 in
      let upd2 := map (fun z => re (cmul z (cconj z))) ft2 in
      let unnorm := if fullspec then unnorm else cut unnorm fgt0 in
      let upd1 := if fullspec then upd1 else cut upd1 fgt0 in
      let upd2 := if fullspec then upd2 else cut upd2 fgt0 in
      let mean1 := n_ph1 / INR n_bin in
      let mean2 := n_ph2 / INR n_bin in
      let mean := n_ph / INR n_bin in
      let! cs_seg :=
        (if common then Ok unnorm
         else with_ptype creal cabsl pt
                (normalize cmulr unnorm dt n_bin (Some mean) (Some n_ph)
                   (option_map (fun v => sqrt (fst v * snd v)) variances) 0 norm)) in
      let! p1_seg :=
        (if common || negb auxil then Ok upd1
         else with_ptype (fun l => l) rabsl pt
                (normalize rmul upd1 dt n_bin (Some mean1) (Some n_ph1) (option_map fst variances) 0 norm)) in
      let! p2_seg :=
        (if common || negb auxil then Ok upd2
         else with_ptype (fun l => l) rabsl pt
                (normalize rmul upd2 dt n_bin (Some mean2) (Some n_ph2) (option_map snd variances) 0 norm)) in
      let! cross := add_or_init cadd (st_cross st) cs_seg in
      let! ucross := add_or_init cadd (st_unnorm st) unnorm in
      let! a := (if auxil then
                   let! u1 := add_or_init Rplus (st_upds1 st) upd1 in
                   let! u2 := add_or_init Rplus (st_upds2 st) upd2 in
                   let! p1 := add_or_init Rplus (st_pds1 st) p1_seg in
                   let! p2 := add_or_init Rplus (st_pds2 st) p2_seg in
                   Ok (Some u1, Some u2, (Some p1, Some p2))
                 else Ok (None, None, (None, None))) in
      Ok {| st_cross := Some cross; st_unnorm := Some ucross;
            st_upds1 := fst (fst a); st_upds2 := snd (fst a);
            st_pds1 := fst (snd a); st_pds2 := snd (snd a);
            st_n_ave := S (st_n_ave st); st_ph1 := st_ph1 st + n_ph1; st_ph2 := st_ph2 st + n_ph2;
            st_var1 := var1'; st_var2 := var2'; st_fgt0 := fgt0; st_freq := freq;
            st_n_bin := n_bin; st_subcs := st_subcs st ++ [cs_seg];
            st_usubcs := st_usubcs st ++ [unnorm] |}
  | _ => Ok st
  end.

(* map with exceptions, left to right (a Python for loop filling a list) *)
Fixpoint mapr {A B} (f : A -> result B) (l : list A) : result (list B) :=
  match l with
  | [] => Ok []
  | a :: l' => let! b := f a in let! bs := mapr f l' in Ok (b :: bs)
  end.

(* fourier.py:1926-2260 avg_cs_from_iterables; zip stops at the shorter iterable. *)
Definition avg_cs (segs1 segs2 : list (option seg)) (dt : R) (norm : normt)
  (common fullspec : bool) (pt : ptype) (auxil subcs : bool) : result (option cs_table) :=
  let! st := loop (cs_step dt norm common fullspec pt auxil) cs_init (combine segs1 segs2) in
  match st_cross st, st_unnorm st with
  | Some cross, Some ucross =>
      let n_ave := INR (st_n_ave st) in
      let n_bin := st_n_bin st in
      let n_ph1 := st_ph1 st / n_ave in
      let n_ph2 := st_ph2 st / n_ave in
      let n_ph := sqrt (n_ph1 * n_ph2) in
      let mean1 := n_ph1 / INR n_bin in
      let mean2 := n_ph2 / INR n_bin in
      let mean := n_ph / INR n_bin in
      let var1 := option_map (fun v => v / n_ave) (st_var1 st) in
      let var2 := option_map (fun v => v / n_ave) (st_var2 st) in
      let var := match var1, var2 with Some v1, Some v2 => Some (sqrt (v1 * v2)) | _, _ => None end in
      let cross := cmulr cross (/ n_ave) in
      let ucross := cmulr ucross (/ n_ave) in
      let! aux :=
        match st_upds1 st, st_upds2 st, st_pds1 st, st_pds2 st with
        | Some u1, Some u2, Some p1, Some p2 =>
            let u1 := rmul u1 (/ n_ave) in
            let u2 := rmul u2 (/ n_ave) in
            if common then
              let! p1 := with_ptype (fun l => l) rabsl pt
                           (normalize rmul u1 dt n_bin (Some mean1) (Some n_ph1) var1 0 norm) in
              let! p2 := with_ptype (fun l => l) rabsl pt
                           (normalize rmul u2 dt n_bin (Some mean2) (Some n_ph2) var2 0 norm) in
              Ok (Some (p1, p2, (u1, u2)))
            else Ok (Some (p1, p2, (u1, u2)))
        | _, _, _, _ => Ok None
        end in
      let norm_cs := fun p => with_ptype creal cabsl pt
                       (normalize cmulr p dt n_bin (Some mean) (Some n_ph) var 0 norm) in
      let! power := (if common then norm_cs ucross else Ok cross) in
      let! subs := (if subcs then
                      (if common then let! l := mapr norm_cs (st_usubcs st) in Ok (Some (l, st_usubcs st))
                       else Ok (Some (st_subcs st, st_usubcs st)))
                    else Ok None) in
      let freq := if fullspec then st_freq st else cut (st_freq st) (st_fgt0 st) in
      Ok (Some {| c_freq := freq; c_power := power; c_unnorm := ucross; c_n := n_bin;
                  c_m := st_n_ave st; c_dt := dt; c_norm := norm; c_df := 1 / (dt * INR n_bin);
                  c_segment_size := dt * INR n_bin; c_nphots := n_ph; c_nphots1 := n_ph1;
                  c_nphots2 := n_ph2; c_mean := mean; c_mean1 := mean1; c_mean2 := mean2;
                  c_variance := var; c_variance1 := var1; c_variance2 := var2;
                  c_auxil := aux; c_subcs := subs |})
  | _, _ => Ok None
  end.

(* fourier.py:1831-1865: one turn of the loop of avg_cs_from_iterables_quick.  The fluxes are
   arrays (a tuple has no .size: AttributeError). *)
Record quick_state := {
  q_unnorm : option (list cx); q_n_ave : nat; q_ph1 : R; q_ph2 : R;
  q_fgt0 : nat * nat; q_freq : list R; q_n_bin : nat }.
Definition quick_step (dt : R) (st : quick_state) (fluxes : option seg * option seg) : result quick_state :=
  match fluxes with
  | (Some s1, Some s2) =>
    if all_zero s1 || all_zero s2 then Ok st
    else match s_err s1, s_err s2 with
    | None, None =>
      let n_bin := length (s_flux s1) in
      let n_ph1 := rlsum (s_flux s1) in
      let n_ph2 := rlsum (s_flux s2) in
      let freq := match q_unnorm st with None => fftfreq n_bin dt | Some _ => q_freq st end in
      let fgt0 := match q_unnorm st with None => positive_fft_bins n_bin false | Some _ => q_fgt0 st end in
      let! unnorm := vmap2 cmul (map cconj (fft (map rtoc (s_flux s1)))) (fft (map rtoc (s_flux s2))) in
      let unnorm := cut unnorm fgt0 in
      let! ucross := add_or_init cadd (q_unnorm st) unnorm in
      Ok {| q_unnorm := Some ucross; q_n_ave := S (q_n_ave st); q_ph1 := q_ph1 st + n_ph1;
            q_ph2 := q_ph2 st + n_ph2; q_fgt0 := fgt0; q_freq := freq; q_n_bin := n_bin |}
    | _, _ => Err AttributeError
    end
  | _ => Ok st
  end.

(* fourier.py:1771-1923 avg_cs_from_iterables_quick; same table, the fields that the function
   does not set (variance1, variance2) are None. *)
Definition avg_cs_quick (segs1 segs2 : list (option seg)) (dt : R) (norm : normt)
  : result (option cs_table) :=
  let! st := loop (quick_step dt)
               {| q_unnorm := None; q_n_ave := 0; q_ph1 := 0; q_ph2 := 0; q_fgt0 := (0%nat, 0%nat);
                  q_freq := []; q_n_bin := 0 |} (combine segs1 segs2) in
  match q_unnorm st with
  | Some ucross =>
      let n_ave := INR (q_n_ave st) in
      let n_bin := q_n_bin st in
      let n_ph1 := q_ph1 st / n_ave in
      let n_ph2 := q_ph2 st / n_ave in
      let n_ph := sqrt (n_ph1 * n_ph2) in
      let mean := n_ph / INR n_bin in
      let ucross := cmulr ucross (/ n_ave) in
      let! cross := normalize cmulr ucross dt n_bin (Some mean) (Some n_ph) None 0 norm in
      Ok (Some {| c_freq := cut (q_freq st) (q_fgt0 st); c_power := cross; c_unnorm := ucross;
                  c_n := n_bin; c_m := q_n_ave st; c_dt := dt; c_norm := norm;
                  c_df := 1 / (dt * INR n_bin); c_segment_size := dt * INR n_bin;
                  c_nphots := n_ph; c_nphots1 := n_ph1; c_nphots2 := n_ph2; c_mean := mean;
                  c_mean1 := n_ph1 / INR n_bin; c_mean2 := n_ph2 / INR n_bin;
                  c_variance := None; c_variance1 := None; c_variance2 := None;
                  c_auxil := None; c_subcs := None |})
  | None => Ok None
  end.

(* fourier.py:843-930 get_rms_from_rms_norm_periodogram, the rms for scalar M and df (the error
   bar is not modelled): 0 if the noise-subtracted power is negative. *)
Definition rms_from_rms_norm (powers : list R) (noise df : R) : R :=
  let total := rlsum (map (fun p => (p - noise) * df) powers) in
  if Rlt_dec total 0 then 0 else sqrt total.
(* fourier.py:933-997 get_rms_from_unnorm_periodogram with scalar df; frac = kind is "frac" *)
Definition rms_from_unnorm (unnorm : list R) (nphots df : R) (noise segment_size : option R)
  (frac : bool) : R :=
  let segment_size := match segment_size with Some s => s | None => 1 / df end in
  let noise := match noise with Some n => n | None => nphots end in
  let meanrate := nphots / segment_size in
  let to_leahy := fun p => p * 2 / nphots in
  let to_norm := fun p => if frac then to_leahy p / meanrate else to_leahy p * meanrate in
  rms_from_rms_norm (map to_norm unnorm) (to_norm noise) df.

(* fourier.py:1137-1149 error_on_averaged_cross_spectrum, common_ref=True, one bin:
   (dRe = dIm = dG, dphi) *)
Definition error_on_cs_common (cross : cx) (seg ref : R) (n_ave : nat) (segn refn : R) : R * R :=
  let two_n := 2 * INR n_ave in
  let gsq := re (cmul cross (cconj cross)) in
  let bsq := bias_term seg ref segn refn n_ave 1 in
  let frac := (gsq - bsq) / (ref - refn) in
  let power_over_2n := ref / two_n in
  (sqrt (power_over_2n * (seg - frac)),
   sqrt (power_over_2n * (seg / (gsq - bsq) - 1 / (ref - refn)))).

(* np.isclose(new, old, atol=0.01), rtol = 1e-5 *)
Definition close_coherence (new old : R) : bool :=
  if Rle_dec (Rabs (new - old)) (1 / 100 + 1 / 100000 * Rabs old) then true else false.
(* fourier.py:757-803 _estimate_intrinsic_coherence_single: [todo] turns of the loop are left
   (40 - count) *)
Fixpoint intrinsic_loop (todo : nat) (cross : cx) (power1 power2 noise1 noise2 : R) (n_ave : nat)
  (new old : R) : R :=
  match todo with
  | O => new
  | S t =>
      if close_coherence new old then new
      else
        let old := new in
        let bsq := bias_term power1 power2 noise1 noise2 n_ave new in
        let den := (power1 - noise1) * (power2 - noise2) in
        let num := re (cmul cross (cconj cross)) - bsq in
        let num := if Rlt_dec num 0 then re (cmul cross (cconj cross)) else num in
        intrinsic_loop t cross power1 power2 noise1 noise2 n_ave (num / den) old
  end.
Definition intrinsic_coherence (cross : cx) (power1 power2 noise1 noise2 : R) (n_ave : nat) : R :=
  intrinsic_loop 40 cross power1 power2 noise1 noise2 n_ave 1 0.
