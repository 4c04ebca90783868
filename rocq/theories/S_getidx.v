(* S_getidx.v: what the index of an object should select, in the words of the Python reference. *)
From Coq Require Import String.
From Verif Require Import Np M_getidx.
From Coq Require Import ZArith List.
Import ListNotations.
Open Scope Z_scope.

(* bounds of a slice over n rows: i >= 0 counts from the start, i < 0 from the end, both limited to the range *)
Definition limited (n step i j : Z) : Prop :=
  (0 <= i -> j = Z.min i (if 0 <? step then n else n - 1)) /\ (i < 0 -> j = Z.max (i + n) (if 0 <? step then 0 else -1)).
Definition python_first (n step : Z) (o : option Z) (j : Z) : Prop :=
  match o with Some i => limited n step i j | None => j = if 0 <? step then 0 else n - 1 end.
Definition python_stop (n step : Z) (o : option Z) (j : Z) : Prop :=
  match o with Some i => limited n step i j | None => j = if 0 <? step then n else -1 end.
(* the rows first, first + step, ... before stop *)
Definition selects {A} (l : list A) (first stop step : Z) (r : list A) : Prop :=
  forall k, nth_error r k = let i := first + Z.of_nat k * step in if (if 0 <? step then i <? stop else stop <? i) then nth_error l (Z.to_nat i) else None.
(* r is l[a:b:s] *)
Definition python_slice {A} (l : list A) (a b : option Z) (s : Z) (r : list A) : Prop :=
  exists first stop, python_first (Z.of_nat (length l)) s a first /\ python_stop (Z.of_nat (length l)) s b stop /\ selects l first stop s r.
(* r is the list of l[i] *)
Definition python_item {A} (l : list A) (i : Z) (r : list A) : Prop :=
  exists x, r = [x] /\ nth_error l (Z.to_nat (if i <? 0 then i + Z.of_nat (length l) else i)) = Some x.
(* every array of the object is treated like this *)
Definition every_array {A B} (P : list A -> list A -> Prop) (o r : object A B) : Prop :=
  P (o_main o) (o_main r) /\ Forall2 (fun p q => fst q = fst p /\ P (snd p) (snd q)) (o_columns o) (o_columns r).
(* the columns have as many rows as the main array *)
Definition even_columns {A B} (o : object A B) : Prop := Forall (fun p => length (snd p) = length (o_main o)) (o_columns o).
