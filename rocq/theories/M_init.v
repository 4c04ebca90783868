(* M_init.v: model of the checks made before a cross spectrum or dynamical cross spectrum of two inputs is computed, and of the
   choice of a random number generator (stingray/crossspectrum.py, utils.py). *)
From Coq Require Import String Ascii.
From Verif Require Import Np Lib M_utils M_lc M_base M_io M_mission M_object.
From Coq Require Import ZArith QArith Qabs List Bool.
Import ListNotations.
Open Scope Q_scope.

(* What can be given as data.  Of a light curve: bin time, length of the segment, error distribution.  Lists and tuples tell which
   of their elements are light curves (with the error distribution). *)
Inductive data_in :=
| DNone | DEvents | DCurve (dt tseg : Q) (err_dist : str) | DList (items : list (option str)) | DTuple (items : list (option str))
| DGenerator | DOther (kind : nat).
(* type(data1) == type(data2) *)
Definition same_type (a b : data_in) : bool :=
  match a, b with
  | DNone, DNone | DEvents, DEvents | DCurve _ _ _, DCurve _ _ _ | DList _, DList _ | DTuple _, DTuple _ | DGenerator, DGenerator => true
  | DOther k, DOther k' => Nat.eqb k k'
  | _, _ => false
  end.
Definition is_none (d : data_in) : bool := match d with DNone => true | _ => false end.
(* stingray/crossspectrum.py:723-725: the first elements of two lists or tuples *)
Definition check_lists (l1 l2 : list (option str)) : result bool :=
  match l1 with
  | [] => Err IndexError
  | None :: _ => Err TypeError
  | Some _ :: _ => match l2 with [] => Err IndexError | None :: _ => Err TypeError | Some _ :: _ => Ok true end
  end.
(* stingray/crossspectrum.py:605-737 Crossspectrum.initial_checks: True, False or an exception; warnings are left out.
   [norm]: None stands for what is no text; [gtis]: the number of GTIs; bin times of light curves are numbers; tseg is not 0
   (light curves have tseg >= dt); np.finfo(float).resolution is 1e-15; np.isclose has its default atol = 1e-8. *)
Definition norms : list str := [% "frac"; % "abs"; % "leahy"; % "none"].
Definition power_types : list str := [% "all"; % "absolute"; % "real"].
Definition basic_checks (norm : option str) (power_type : str) (d1 d2 : data_in) (gtis : option nat) (dt : option Q) (seg : option (option Q)) : result bool :=
  match norm with
  | None => Err TypeError
  | Some norm =>
    if negb (mem (lower norm) norms) then Err ValueError
    else if negb (mem power_type power_types) then Err ValueError
    else if (is_none d1 || is_none d2)%bool then (if (negb (is_none d1) || negb (is_none d2))%bool then Err ValueError else Ok false)
    else
      let dt_is_invalid := match dt with None => true | Some v => qle v (1 # 1000000000000000) end in
      if match seg, gtis with None, Some n => Nat.ltb 1 n | _, _ => false end then Err TypeError
      else if negb (same_type d1 d2) then Err TypeError
      else
        match d1, d2 with
        | DEvents, _ => if dt_is_invalid then Err ValueError else Ok true
        | DCurve a t _, DCurve b _ _ => if negb (np_isclose ((1 # 100) * a / t) (1 # 100000000) a b) then Err StingrayError else Ok true
        | DList l1, DList l2 | DTuple l1, DTuple l2 => check_lists l1 l2
        | DGenerator, _ => Ok true
        | _, _ => Err TypeError
        end
  end.
(* stingray/crossspectrum.py:2048-2082 AveragedCrossspectrum.initial_checks; Some None is a segment size that is not finite *)
Definition averaged_checks (norm : option str) (power_type : str) (d1 d2 : data_in) (gtis : option nat) (dt : option Q) (seg : option (option Q)) : result bool :=
  let! good := basic_checks norm power_type d1 d2 gtis dt seg in
  if negb good then Ok false
  else match seg with None => Err ValueError | Some None => Err ValueError | Some (Some _) => Ok true end.

(* stingray/crossspectrum.py:2243-2271 DynamicalCrossspectrum: what happens before _make_matrix.  None: an empty object.  Without a
   sample time the last comparison is a TypeError (2 * None). *)
Inductive dyn_start := Empty | Matrix.
Definition dynamical_start (d1 d2 : data_in) (seg : option Q) (sample_time : option Q) : result dyn_start :=
  match seg with
  | None => if (is_none d1 && is_none d2)%bool then Ok Empty else Err TypeError
  | Some seg =>
    if (is_none d1 || is_none d2)%bool then Err TypeError
    else
      let! st := match d1 with
                 | DEvents => match sample_time with None => Err ValueError | Some s => Ok (Some s) end
                 | DCurve dt tseg _ => if qlt tseg seg then Err ValueError else Ok (Some dt)
                 | _ => Ok sample_time
                 end in
      match st with
      | None => Err TypeError
      | Some s => if qlt seg (2 * s) then Err ValueError else Ok Matrix
      end
  end.

(* Seeds: None; a whole number; a generator; anything else, with its truth value. *)
Inductive seed := SNone | SInt (z : Z) | SState (id : nat) | SOther (truth : bool).
(* Generators: the global one of numpy, whose state depends on what was drawn before; a new one; the given one. *)
Inductive generator := Global | Fresh (z : Z) | Given (id : nat).
(* stingray/utils.py:949-972 get_random_state; np.random.RandomState takes 0 <= seed < 2^32, otherwise ValueError *)
Definition get_random_state (s : seed) : result generator :=
  let truth := match s with SNone => false | SInt z => negb (Z.eqb z 0) | SState _ => true | SOther b => b end in
  if negb truth then Ok Global
  else match s with
       | SInt z => if (Z.leb 0 z && Z.ltb z (2 ^ 32))%bool then Ok (Fresh z) else Err ValueError
       | SState k => Ok (Given k)
       | _ => Err ValueError
       end.
