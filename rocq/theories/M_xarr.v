(* M_xarr.v: model of the conversion of objects into xarray datasets, stingray/base.py. *)
From Coq Require Import String Ascii.
From Verif Require Import Np M_utils M_base M_io M_mission M_object.
From Coq Require Import ZArith QArith List Bool.
Import ListNotations.
Open Scope Q_scope.

(* A dataset of xarray (library): arrays with one dimension, which xarray makes coordinates along a dimension of their own
   name, the other arrays, and attrs.  The conversions of xarray keep numbers and shapes. *)
Record dataset := mkData { d_coords : list (str * value); d_vars : list (str * value); d_attrs : list (str * value) }.
Definition flat (v : value) : bool := match v with VArr [_] _ => true | _ => false end.
(* base.py:464: the name of dimension i of an array with more than one *)
Definition dim_name (x : str) (i : nat) : str := x ++ % "_dim" ++ map ascii_of_nat (key_chars [i]).
Definition dims (p : str * value) : list (str * nat) :=
  match snd p with
  | VArr [n] _ => [(fst p, n)]
  | VArr s _ => combine (map (dim_name (fst p)) (seq 0 (List.length s))) s
  | _ => []
  end.
(* xarray: a dimension has one size *)
Definition one_size (l : list (str * nat)) : bool :=
  forallb (fun a => forallb (fun b => negb (str_eqb (fst a) (fst b)) || Nat.eqb (snd a) (snd b))%bool l) l.
(* base.py:447-472 to_xarray.  No main array: TypeError here (an array without dimensions, that cannot be read back).  An
   array that has the name of a dimension of another one and more than one dimension itself is left out. *)
Definition to_xarray (c : cls) (o : obj) : result dataset :=
  let! t := to_table c o in
  if one_size (flat_map dims (t_cols t)) then
    Ok (mkData (filter (fun p => flat (snd p)) (t_cols t)) (filter (fun p => negb (flat (snd p))) (t_cols t)) (t_meta t))
  else Err ValueError.
(* setattr that fails for a property without setter *)
Definition put_attr (c : cls) (o : obj) (n : str) (v : value) : result obj :=
  if mem n (c_readonly c) then Err AttributeError else Ok (setattr c o n v).
Fixpoint put_all (c : cls) (skip : str -> bool) (l : list (str * value)) (o : obj) : result obj :=
  match l with
  | [] => Ok o
  | p :: l' => let! o' := if skip (fst p) then Ok o else put_attr c o (fst p) (snd p) in put_all c skip l' o'
  end.
(* base.py:475-506 from_xarray.  A main array without dimensions is left out (TypeError of len). *)
Definition from_xarray (c : cls) (d : dataset) : result obj :=
  let arrays := d_coords d ++ d_vars d in
  match attr arrays (c_main c) with
  | None => Err KeyError
  | Some v =>
    let! n := match first_dim v with Some n => Ok n | None => Err TypeError end in
    if Nat.eqb n 0 then Ok (c_new c)
    else
      let! o := put_attr c (c_new c) (c_main c) v in
      let! o := put_all c (str_eqb (c_main c)) arrays o in
      put_all c (fun x => mem x (map fst arrays)) (d_attrs d) o
  end.
