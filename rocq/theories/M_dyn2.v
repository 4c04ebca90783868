(* M_dyn2.v: model of the rebinning of a dynamical spectrum by resolution (stingray/crossspectrum.py).  Numbers are exact
   rationals and the powers are floating-point numbers. *)
From Verif Require Import Np M_gti M_seg M_utils M_dyn.
Open Scope Q_scope.

(* int(step): an array of more than one element is refused *)
Definition int_step (s : step_out) : result Z :=
  match s with StepScalar v => Ok (py_int v) | StepArray [v] => Ok (py_int v) | StepArray _ => Err TypeError end.
(* the last value bound in a loop *)
Definition loop_last {A} (l : list A) : result A := match rev l with a :: _ => Ok a | [] => Err UnboundLocalError end.

(* crossspectrum.py:2312-2346 rebin_frequency: the new object and its attribute df *)
Definition rebin_frequency (d : dynspec) (df_new : Q) (method : rebin_method) : result (dynspec * Q) :=
  let! outs := map_result (fun data => rebin_data (fun v => v) (fun v => v) (d_freq d) data df_new None method DxNone) (d_cols d) in
  let! out := loop_last outs in
  let! step := int_step (r_step out) in
  Ok (mkDyn (r_x out) (d_time d) (map r_y outs) (d_dt d) (inject_Z step * d_m d), df_new).

(* the rows of the table dyn_ps, one for each frequency, and back *)
Definition rows_of (n : nat) (cols : list (list Q)) : list (list Q) := map (fun f => map (fun c => nth f c 0) cols) (seq 0 n).
(* crossspectrum.py:2348-2395 rebin_time *)
Definition rebin_time (d : dynspec) (dt_new : Q) (method : rebin_method) : result dynspec :=
  if qlt dt_new (d_dt d) then Err ValueError
  else
    let! outs := map_result (fun data => rebin_data (fun v => v) (fun v => v) (d_time d) data dt_new None method (DxScalar (d_dt d)))
                            (rows_of (length (d_freq d)) (d_cols d)) in
    let! out := loop_last outs in
    let! step := int_step (r_step out) in
    Ok (mkDyn (d_freq d) (r_x out) (rows_of (length (r_y out)) (map r_y outs)) dt_new (inject_Z step * d_m d)).
