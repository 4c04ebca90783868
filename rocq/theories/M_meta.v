(* M_meta.v: model of the meta data of tables in stingray/base.py (to_astropy_table, reduce_precision_if_extended), with numpy 2.
   Numbers are exact: rounding of extended precision is left out. *)
From Coq Require Import String Ascii.
From Verif Require Import Np Lib M_io.
From Coq Require Import ZArith QArith List Bool.
Import ListNotations.
Open Scope Q_scope.

(* Python number, np.float64 (or 32, 16), np.int64 (or another size), np.longdouble, text, list, array (of longdoubles?), None *)
Inductive mvalue := MPy (x : Q) | MFloat (x : Q) | MInt (x : Z) | MLong (x : Q) | MText (s : str) | MList (l : list mvalue) | MArr (long : bool) (d : list Q) | MNone.

(* p in s *)
Fixpoint has_sub (p s : str) : bool := (starts_with p s || match s with [] => false | _ :: r => has_sub p r end)%bool.
(* p in repr(v), for p = "np.float" or "np.int": numpy scalars are shown as np.float64(1.0), np.int64(1), np.longdouble('1.0'), arrays as
   array([...]).  Texts have no characters that repr changes. *)
Fixpoint shown (p : str) (v : mvalue) : bool :=
  match v with
  | MFloat _ => starts_with p (% "np.float")
  | MInt _ => starts_with p (% "np.int")
  | MText s => has_sub p s
  | MList l => existsb (shown p) l
  | MPy _ | MLong _ | MArr _ _ | MNone => false
  end.
(* float(v), int(v): [number] reads a text *)
Definition py_number (number : str -> option Q) (v : mvalue) : result mvalue :=
  match v with
  | MPy x | MFloat x | MLong x => Ok (MPy x)
  | MInt z => Ok (MPy (inject_Z z))
  | MText s => match number s with Some x => Ok (MPy x) | None => Err ValueError end
  | MArr _ [x] => Ok (MPy x)
  | MList _ | MArr _ _ | MNone => Err TypeError
  end.
(* stingray/base.py:383-390 *)
Definition clean (number : str -> option Q) (v : mvalue) : result mvalue :=
  if shown (% "np.float") v then py_number number v else if shown (% "np.int") v then py_number number v else Ok v.

(* stingray/base.py:2920-2935 obj2sctype (numpy 2 has no np.obj2sctype): is the type a longdouble? *)
Fixpoint is_long (v : mvalue) : bool :=
  match v with
  | MLong _ => true
  | MArr b _ => b
  | MList (x :: _ :: _) => is_long x
  | _ => false
  end.
(* stingray/base.py:2879-2940 reduce_precision_if_extended: x.astype(float); lists have no astype *)
Definition reduce (v : mvalue) : result mvalue :=
  if is_long v then match v with MLong x => Ok (MFloat x) | MArr _ d => Ok (MArr false d) | _ => Err AttributeError end else Ok v.
(* stingray/base.py:379-391: the meta dictionary of the table *)
Fixpoint table_meta (number : str -> option Q) (no_long : bool) (d : list (str * mvalue)) : result (list (str * mvalue)) :=
  match d with
  | [] => Ok []
  | (k, v) :: r =>
    let! v1 := (if no_long then reduce v else Ok v) in
    let! v2 := clean number v1 in
    let! t := table_meta number no_long r in
    Ok ((k, v2) :: t)
  end.
