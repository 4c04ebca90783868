(* M_dynobj.v: model of the methods shift_and_add, power_colors and compute_rms of dynamical spectra (stingray/crossspectrum.py).  Powers and
   frequencies are exact rationals, error bars of colors real numbers; dyn_ps is given by its columns, one for each time; m is a number. *)
From Coq Require Import Reals Qreals.
From Verif Require Import Np Lib M_gti M_seg M_utils M_power M_espec M_fourier M_pcolor M_spec.
From Coq Require Import List Bool Arith.
Import ListNotations.
Open Scope Q_scope.

(* the attributes used: freq, dyn_ps.T, df, m, unnorm_conversion, nphots, segment_size *)
Record dynobj := mkDynobj { o_freq : list Q; o_cols : list (list Q); o_df : Q; o_m : Q; o_conv : Q; o_nphots : Q; o_segment : Q }.
(* fourier.py:1508-1586 shift_and_add with rebin; with an average that is nan the rebinned array has nan (OutOfFuel, not modelled) *)
Definition shift_and_add_rebin (freqs : list Q) (powers : list (list Q)) (f0s : list Q) (nbins : nat) (ws : list Q) (df : Q) (rebin : option Q)
  : result (list Q * list (option Q) * list Q) :=
  let! r := shift_and_add freqs powers f0s nbins ws (Some df) in
  match rebin with
  | None => Ok r
  | Some k =>
    let '(f, p, n) := r in
    match all_some p with
    | None => Err OutOfFuel
    | Some v =>
      let! c := rebin_data (fun v => v) (fun v => v) f n (k * df) None MSum DxNone in
      let! w := rebin_data (fun v => v) (fun v => v) f v (k * df) None MSum DxNone in
      Ok (r_x w, map (fun x => Some (x / k)) (r_y w), r_y c)
    end
  end.
(* the averaged spectrum: freq, power, m and df *)
Record avgspec := mkAvgspec { a_freq : list Q; a_power : list Q; a_m : list Q; a_df : Q }.
(* crossspectrum.py:2491-2557 shift_and_add *)
Definition dyn_shift_and_add (d : dynobj) (f0s : list Q) (nbins : nat) (rebin : option Q) : result avgspec :=
  let! r := shift_and_add_rebin (o_freq d) (o_cols d) f0s nbins (map (fun _ => o_m d) (o_cols d)) (o_df d) rebin in
  let '(f, p, n) := r in
  let rows := flat_map (fun x => match snd x with Some v => [(fst x, v)] | None => [] end) (combine (combine f n) p) in
  Ok (mkAvgspec (map (fun x => fst (fst x)) rows) (map snd rows) (map (fun x => snd (fst x)) rows) (o_df d)).
(* crossspectrum.py:2559-2613 power_colors for real powers: dyn_ps.T and ps.real are views, so that power_color changes dyn_ps; the second
   component is the matrix after the call *)
Definition column_rows (d : dynobj) (noise : list Q) (col : list Q) : list pbin :=
  map (fun x => {| b_f := fst (fst x); b_df := o_df d; b_p := snd (fst x); b_noise := snd x; b_err := 0 |}) (combine (combine (o_freq d) col) noise).
Definition dyn_power_colors (d : dynobj) (edges : list Q) (excl : list (Q * Q)) (noise : list Q) : result (list ((Q * R) * (Q * R)) * list (list Q)) :=
  let! l := map_result (fun col => power_color (column_rows d noise col) edges (Some (o_m d)) excl) (o_cols d) in
  Ok (map fst l, map (fun x => map b_p (snd x)) l).
(* crossspectrum.py:2615-2673 compute_rms; unnorm_conversion is not zero *)
Definition dyn_compute_rms (d : dynobj) (lo hi level : Q) : result (list (Q * option Q)) :=
  map_result (fun col =>
    let! u := bool_index (map (fun p => p / o_conv d) col) (map (fun f => qle lo f && qle f hi)%bool (o_freq d)) in
    rms_unnorm u (o_nphots d) (One (o_df d)) (One (o_m d)) (level / o_conv d) (o_segment d)) (o_cols d).
