(* M_sinc.v: model of stingray/pulse/modeling.py.  Numbers are exact reals; None is nan or infinity (width zero). *)
From Verif Require Import Np.
From Coq Require Import Reals String.
Open Scope R_scope.

(* modeling.py:8-24 sinc: np.sinc(x / pi) is 1 at zero and sin(pi (x / pi)) / (pi (x / pi)) elsewhere *)
Definition sinc (x : R) : R := if Req_EM_T x 0 then 1 else sin x / x.
(* modeling.py:27-55 sinc_square_model *)
Definition sinc_square_model (x amplitude mean width : R) : option R :=
  if Req_EM_T width 0 then None
  else Some (amplitude * (sinc ((x - mean) / width) * sinc ((x - mean) / width))).
(* modeling.py:58-107 sinc_square_deriv.  Line 93 has x, not (x - mean) / width, before the cosine.  Line 100 replaces the
   0 / 0 at x = mean by zero. *)
Definition sinc_square_deriv (x amplitude mean width : R) : option (R * R * R) :=
  if Req_EM_T width 0 then None
  else
    let z := (x - mean) / width in
    let d_x := if Req_EM_T x mean then 0 else 2 * amplitude * sinc z * (x * cos z - sin z) / (z * z) in
    Some (sinc z * sinc z, d_x * (-1 / width), d_x * (- (x - mean) / (width * width))).

(* modeling.py:119-169 fit_sinc and 172-207 fit_gaussian up to the call of the fitter (library): the start values and the
   constraints given to the model.  A dictionary is a list of names and flags; the last entry of a name counts.  default is
   the dictionary made once for the default of fixed; None as argument: fixed is not given.  Returned: what the fitter is given
   (amplitude, mean, width, fixed) and the dictionary after the call: the caller's, or the default. *)
Definition dict := list (string * bool).
Definition is_fixed (d : dict) (name : string) : bool :=
  match find (fun p => String.eqb (fst p) name) (rev d) with Some (_, b) => b | None => false end.
Definition fit_sinc_setup (default : dict) (fixed : option dict) (amp mean width : R) (obs_length : option R)
    : result ((R * R * R * dict) * dict) :=
  let d := match fixed with Some d => d | None => default end in
  match obs_length with
  | Some o =>
    if Req_EM_T o 0 then Err ZeroDivisionError
    else let d' := (d ++ [("width"%string, true)])%list in Ok ((amp, mean, 1 / (PI * o), d'), d')
  | None => Ok ((amp, mean, width, d), d)
  end.
