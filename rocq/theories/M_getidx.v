(* M_getidx.v: model of the indexing of stingray objects (stingray/base.py, StingrayObject.__getitem__). *)
From Coq Require Import String.
From Verif Require Import Np Lib.
From Coq Require Import ZArith List Bool.
Import ListNotations.
Open Scope Z_scope.

(* An object: what meta_attrs lists, the hidden arrays of internal_array_attrs, and the columns: the main array and what array_attrs lists.
   Rows are of any type A, meta values of any type B. *)
Record object (A B : Type) := mkObject { o_meta : list (string * B); o_hidden : list (string * list A); o_columns : list (string * list A); o_main : list A }.
Arguments mkObject {A B}. Arguments o_meta {A B}. Arguments o_hidden {A B}. Arguments o_columns {A B}. Arguments o_main {A B}.

(* a[i:j:k] of an array with n rows (Python and numpy): how i and j are brought into the range, the rows that are visited; k = 0: ValueError *)
Definition adjust (n : Z) (down : bool) (i : Z) : Z :=
  let lo := if down then -1 else 0 in
  let hi := if down then n - 1 else n in
  if i <? 0 then Z.max lo (i + n) else Z.min hi i.
Fixpoint progression (fuel : nat) (i stop step : Z) : list Z :=
  match fuel with
  | O => []
  | S f => if (if 0 <? step then i <? stop else stop <? i) then i :: progression f (i + step) stop step else []
  end.
Definition pick {A} (l : list A) (p : list Z) : list A := flat_map (fun i => match nth_error l (Z.to_nat i) with Some x => [x] | None => [] end) p.
Definition np_slice {A} (l : list A) (i j k : Z) : result (list A) :=
  let n := Z.of_nat (length l) in
  if k =? 0 then Err ValueError
  else Ok (pick l (progression (S (length l)) (adjust n (k <? 0) i) (adjust n (k <? 0) j) k)).

(* int or np.integer, slice(start, stop, step), anything else *)
Inductive index := IInt (i : Z) | ISlice (start stop step : option Z) | IOther.
Definition if_none (o : option Z) (d : Z) : Z := match o with Some v => v | None => d end.
Fixpoint slice_all {A} (cols : list (string * list A)) (i j k : Z) : result (list (string * list A)) :=
  match cols with
  | [] => Ok []
  | (n, l) :: r => let! v := np_slice l i j k in let! t := slice_all r i j k in Ok ((n, v) :: t)
  end.
(* stingray/base.py:1049-1083 StingrayObject.__getitem__; len(self) is the number of rows of the main array.  Hidden arrays are not copied. *)
Definition obj_getitem {A B} (o : object A B) (idx : index) : result (object A B) :=
  let! ijk := match idx with
    | IInt i => Ok (i, i + 1, 1)
    | ISlice a b s => Ok (if_none a 0, if_none b (Z.of_nat (length (o_main o))), if_none s 1)
    | IOther => Err IndexError
    end in
  let '(i, j, k) := ijk in
  let! c := slice_all (o_columns o) i j k in
  let! m := np_slice (o_main o) i j k in
  Ok (mkObject (o_meta o) [] c m).
