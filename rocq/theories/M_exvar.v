(* M_exvar.v: model of excess_variance and of smaller helpers in stingray/utils.py.  Real numbers are exact; None stands for a value
   that is not finite. *)
From Coq Require Import Reals.
From Verif Require Import Np M_utils.
Open Scope R_scope.

(* quotients and square roots of floating-point numbers *)
Definition fdiv (a b : R) : option R := if Req_EM_T b 0 then None else Some (a / b).
Definition fsqrt (a : R) : option R := if Rle_dec 0 a then Some (sqrt a) else None.
Notation "'flet' x := a 'in' b" := (match a with Some x => b | None => None end) (at level 200, x pattern, right associativity).
(* np.sum, np.mean, np.var *)
Definition rsum (l : list R) : R := fold_right Rplus 0 l.
Definition rmean (l : list R) : R := rsum l / INR (length l).
Definition rvar (l : list R) : R := let m := rmean l in rmean (map (fun x => (x - m) * (x - m)) l).

Inductive xs_norm := XFvar | XNormXs | XNone | XOther.
(* utils.py:1199-1222 excess_variance: counts and counts_err of a light curve that is not empty.  The second level of option is for
   the function returning None. *)
Definition excess_variance (counts counts_err : list R) (normalization : xs_norm) : option (option R * option R) :=
  let lc_mean_var := rmean (map (fun e => e * e) counts_err) in
  let var_xs := rvar counts - lc_mean_var in
  let mean_lc := rmean counts in
  let var_nxs := fdiv var_xs (mean_lc * mean_lc) in
  let fvar := flet v := var_nxs in fsqrt v in
  let n := INR (length counts) in
  let var_nxs_err := flet a := fdiv (sqrt (2 / n) * lc_mean_var) (mean_lc * mean_lc) in
                     flet f := fvar in
                     flet b := fdiv (sqrt (lc_mean_var / n) * 2 * f) mean_lc in
                     fsqrt (a * a + b * b) in
  let fvar_err := flet e := var_nxs_err in flet f := fvar in fdiv e (2 * f) in
  match normalization with
  | XFvar => Some (fvar, fvar_err)
  | XNormXs => Some (var_nxs, var_nxs_err)
  | XNone => Some (Some var_xs, flet e := var_nxs_err in Some (e * (mean_lc * mean_lc)))
  | XOther => None
  end.

(* utils.py:1402-1406 standard_error, column by column: xs_col holds the values of one column in all rows *)
Definition standard_error (xs_col : list R) (mean : R) : option R :=
  let n_seg := INR (length xs_col) in
  let ss := rsum (map (fun x => (x - mean) * (x - mean)) xs_col) in
  flet v := fdiv ss (n_seg - 1) in flet w := fdiv v n_seg in fsqrt w.

(* utils.py:210-223 heaviside *)
Definition heaviside (x : R) : R := if Rle_dec 0 x then 1 else 0.

(* np.bincount refuses negative numbers; np.nonzero of it gives the values that occur, in order *)
Definition count_values (counts : list Z) : result (list Z) :=
  if existsb (fun c => (c <? 0)%Z) counts then Err ValueError
  else let top := fold_right Z.max (-1)%Z counts in
       Ok (filter (fun v => existsb (Z.eqb v) counts) (map Z.of_nat (seq 0 (Z.to_nat (top + 1))))).
Fixpoint zsearch_left (l : list Z) (v : Z) : nat := match l with [] => O | a :: l' => if (a <? v)%Z then S (zsearch_left l' v) else O end.
(* utils.py:1367-1380 poisson_symmetrical_errors for integer counts; conf is astropy's poisson_conf_interval, which works on each
   element of an array separately *)
Definition poisson_symmetrical_errors (conf : Z -> R * R) (counts : list Z) : result (list R) :=
  let! values := count_values counts in
  let err := map (fun v => (Rabs (fst (conf v) - IZR v) + Rabs (snd (conf v) - IZR v)) / 2) values in
  map_result (fun c => get err (zsearch_left values c)) counts.

(* utils.py:365-404 check_isallfinite; None is nan or inf *)
Fixpoint isallfinite {A} (l : list (option A)) : bool := match l with [] => true | None :: _ => false | Some _ :: l' => isallfinite l' end.
(* np.isclose with the default tolerances *)
Definition isclose (a b : Q) : bool := qle (Qabs.Qabs (a - b)) ((1 # 100000000) + (1 # 100000) * Qabs.Qabs b).
(* utils.py:1491-1499 check_iterables_close, iterables of numbers; the keyword arguments are not used *)
Fixpoint iterables_close (l0 l1 : list Q) : bool :=
  match l0, l1 with
  | a :: l0', b :: l1' => if negb (isclose a b) then false else iterables_close l0' l1'
  | _, _ => true
  end.
