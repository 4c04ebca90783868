(* M_mtrebin.v: model of the rebinning of multitaper spectra (stingray/multitaper.py Multitaper.rebin).  Numbers are exact. *)
From Verif Require Import Np Lib M_utils.
From Coq Require Import ZArith QArith List Bool.
Import ListNotations.
Open Scope Q_scope.

(* jk_var_deg_freedom: None after the Lomb-Scargle method (multitaper.py:794), integers without jackknife and adaptive weights
   (383: np.full of the int 2 * len(eigvals)), real numbers otherwise (378, 381) *)
Inductive dof := NoDof | IntDof (l : list Q) | RealDof (l : list Q).
(* The attributes that rebin changes.  [t_err] is power_err; after rebinning, its square. *)
Record mtspec := mkMt { t_freq : list Q; t_power : list Q; t_err : list Q; t_unnorm : list Q; t_norm_power : list Q; t_dof : dof; t_df : Q; t_m : Q }.

(* y[0] of the 0-dimensional array made of None (stingray/utils.py:547, 575) raises IndexError; the arrays before had the same
   frequencies, so that nothing else is raised first *)
Definition rebin_dof (x : list Q) (d : dof) (df old : Q) (method : rebin_method) : result dof :=
  match d with
  | NoDof => Err IndexError
  | IntDof l => let! r := rebin_data to_int to_int x l df None method (DxScalar old) in Ok (match method with MSum => IntDof (r_y r) | _ => RealDof (r_y r) end)
  | RealDof l => let! r := rebin_data (fun v => v) (fun v => v) x l df None method (DxScalar old) in Ok (RealDof (r_y r))
  end.
(* stingray/multitaper.py:624-693 rebin *)
Definition mt_rebin (s : mtspec) (df f : option Q) (method : rebin_method) : result mtspec :=
  let! df := match f, df with
             | Some f, _ => Ok (f * t_df s)
             | None, Some d => Ok d
             | None, None => Err ValueError
             end in
  let! r := rebin_data (fun v => v) (fun v => v) (t_freq s) (t_power s) df (Some (t_err s)) method (DxScalar (t_df s)) in
  let! u := rebin_data (fun v => v) (fun v => v) (t_freq s) (t_unnorm s) df None method (DxScalar (t_df s)) in
  let! p := rebin_data (fun v => v) (fun v => v) (t_freq s) (t_norm_power s) df None method (DxScalar (t_df s)) in
  let! d := rebin_dof (t_freq s) (t_dof s) df (t_df s) method in
  (* with a number for dx, step_size is a number (stingray/utils.py:624-625) *)
  let step := match r_step r with StepScalar v => v | StepArray _ => 0 end in
  Ok (mkMt (r_x r) (r_y r) (r_err2 r) (r_y u) (r_y p) d df (inject_Z (rint (step * t_m s)))).
