(* S_meta.v: meta data that can go to a table, and what should be found there. *)
From Coq Require Import String Ascii.
From Verif Require Import Np M_io M_meta.
From Coq Require Import ZArith QArith List.
Import ListNotations.
Open Scope Q_scope.

(* p is a part of s *)
Definition within (p s : str) : Prop := exists a b, s = a ++ p ++ b.
(* a numpy float or integer, or the name of one in a text, somewhere in a list *)
Inductive numpy_in : mvalue -> Prop :=
| in_float x : numpy_in (MFloat x)
| in_int z : numpy_in (MInt z)
| in_text s : within (% "np.float") s \/ within (% "np.int") s -> numpy_in (MText s)
| in_list l v : In v l -> numpy_in v -> numpy_in (MList l).
(* a text or list that is taken for a number *)
Inductive trouble : mvalue -> Prop :=
| bad_text s : within (% "np.float") s \/ within (% "np.int") s -> trouble (MText s)
| bad_list l v : In v l -> numpy_in v -> trouble (MList l).
(* a list of two or more whose first element is of extended precision, or such a list *)
Inductive long_list : mvalue -> Prop :=
| long_number x v l : long_list (MList (MLong x :: v :: l))
| long_array d v l : long_list (MList (MArr true d :: v :: l))
| long_deep u v l : long_list u -> long_list (MList (u :: v :: l)).
(* numpy numbers become Python numbers, nothing else changes *)
Inductive as_python : mvalue -> mvalue -> Prop :=
| py_float x : as_python (MFloat x) (MPy x)
| py_int z : as_python (MInt z) (MPy (inject_Z z))
| py_same v : (forall x, v <> MFloat x) -> (forall z, v <> MInt z) -> as_python v v.
(* the same without extended precision *)
Inductive as_double : mvalue -> mvalue -> Prop :=
| db_long x : as_double (MLong x) (MPy x)
| db_array b d : as_double (MArr b d) (MArr false d)
| db_other v w : (forall x, v <> MLong x) -> (forall b d, v <> MArr b d) -> as_python v w -> as_double v w.
