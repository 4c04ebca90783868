(* M_pcolor.v: model of stingray/power_colors.py (power colours and hues).  Powers and frequencies are exact rationals, error
   bars and logarithms real numbers. *)
From Coq Require Import Reals Qreals.
From Verif Require Import Np Cplx M_gti M_seg M_utils M_power M_espec M_fourier.
Open Scope Q_scope.

(* power_colors.py:383-386: one range of frequencies to exclude *)
Definition set_power (p : Q) (r : pbin) : pbin := {| b_f := b_f r; b_df := b_df r; b_p := p; b_noise := b_noise r; b_err := b_err r |}.
Definition exclude_one (rows : list pbin) (rg : Q * Q) : result (list pbin) :=
  let freqs := map b_f rows in
  let! p0 := get (map b_p rows) (searchsorted_left freqs (fst rg)) in
  let! p1 := get (map b_p rows) (searchsorted_left freqs (snd rg)) in
  let mean := (p0 + p1) / 2 in
  Ok (map (fun r => if (qlt (fst rg) (b_f r - b_df r / 2) && qlt (b_f r + b_df r / 2) (snd rg))%bool then set_power mean r else r) rows).
Fixpoint exclude_all (rows : list pbin) (l : list (Q * Q)) : result (list pbin) :=
  match l with
  | [] => Ok rows
  | rg :: l' => let! rows' := exclude_one rows rg in exclude_all rows' l'
  end.
(* the error of a ratio of integrated powers: power_colors.py:425-426; the arguments are the integrals with the squares of their errors *)
Definition color_error (a b : Q * Q) : R :=
  (Q2R (fst a / fst b) * (sqrt (Q2R (snd a)) / Q2R (fst a) + sqrt (Q2R (snd b)) / Q2R (fst b)))%R.
(* power_colors.py:279-433 power_color, return_log=False; the power array is a float array, df is given (one number per bin).  m is as in [integrate_power]: Some m when power_err is None.  The default errors are computed
   before the exclusion of frequencies (lines 369-372).  np.asanyarray does not copy an array: the second component
   is the power array of the caller after the call.  freqs_to_exclude is already a list of pairs. *)
Definition power_color (rows : list pbin) (edges : list Q) (m : option Q) (excl : list (Q * Q)) : result ((Q * R) * (Q * R) * list pbin) :=
  match edges with
  | [e0; e1; e2; e3; e4] =>
    let! r0 := get rows 0 in
    let! lo := qmin_list edges in
    let! hi := qmax_list edges in
    let! rl := get_last rows in
    if qlt lo (b_f r0 - b_df r0 / 2) then Err ValueError
    else if qlt (b_f rl + b_df rl / 2) hi then Err ValueError
    else
      let! rows' := exclude_all rows excl in
      let var := fun a b => let! v := integrate_power rows' a b None in
                            let! e := integrate_power rows a b m in Ok (fst v, snd e) in
      let! v00 := var e0 e1 in
      let! v01 := var e2 e3 in
      let! v10 := var e1 e2 in
      let! v11 := var e3 e4 in
      Ok ((fst v00 / fst v01, color_error v00 v01), (fst v10 / fst v11, color_error v10 v11), rows')
  | _ => Err ValueError
  end.
(* power_colors.py:427-431: the colour and its error for return_log=True, on a positive colour (otherwise the logarithm is nan or -inf) *)
Definition log_color (c : Q * R) : R * R := (log10 (Q2R (fst c)), 1 / Q2R (fst c) * snd c)%R.
Definition power_color_log (rows : list pbin) (edges : list Q) (m : option Q) (excl : list (Q * Q)) : result ((R * R) * (R * R) * list pbin) :=
  let! r := power_color rows edges m excl in
  Ok (log_color (fst (fst r)), log_color (snd (fst r)), snd r).

(* power_colors.py:472-497 hue_from_logpower_color; np.arctan2(y, x) is the angle of x + iy *)
Definition hue_from_log (x y : R) (center : R * R) : R := (3 / 4 * PI - angle (x - fst center, y - snd center))%R.
(* power_colors.py:437-469 hue_from_power_color *)
Definition hue_from_power_color (pc0 pc1 : R) (center : R * R) : R :=
  hue_from_log (log10 pc0) (log10 pc1) (log10 (fst center), log10 (snd center)).
(* power_colors.py:104-109 _limit_angle_to_360: the two loops, with fuel *)
Fixpoint lower_angle (fuel : nat) (a : Q) : result Q :=
  match fuel with
  | O => Err OutOfFuel
  | S fuel' => if qle 360 a then lower_angle fuel' (a - 360) else Ok a
  end.
Fixpoint raise_angle (fuel : nat) (a : Q) : result Q :=
  match fuel with
  | O => Err OutOfFuel
  | S fuel' => if qlt a 0 then raise_angle fuel' (a + 360) else Ok a
  end.
Definition limit_angle_to_360 (fuel : nat) (a : Q) : result Q := let! b := lower_angle fuel a in raise_angle fuel b.

(* power_colors.py:112-122 _hue_line_data: the points at abscissas t (np.linspace(0, 4, 20), here any list) for the line of hue
   [angle], without the reduction of plot_angle modulo 2 pi; x is read before it is defined when the tangent is infinite (numpy's tangent of the double nearest to pi/2 is finite, so that
   the branch is reached only in exact arithmetic). *)
Definition sign (x : R) : R := if Rlt_dec 0 x then 1%R else if Rlt_dec x 0 then (-1)%R else 0%R.
Definition hue_line_data (center : R * R) (hue ref_angle : R) (ts : list R) : result (list (R * R)) :=
  let plot_angle := (- hue + ref_angle)%R in
  if Req_EM_T (cos plot_angle) 0 then Err UnboundLocalError
  else Ok (map (fun t => let x := (t * sign (cos plot_angle) + fst center)%R in
                         (x, (snd center + tan plot_angle * (x - fst center))%R)) ts).
