(* S_object.v: what the attribute lists, the comparison and the conversion of objects should do. *)
From Coq Require Import String Ascii.
From Verif Require Import Np M_io M_object.
From Coq Require Import QArith List.
Import ListNotations.
Open Scope Q_scope.

(* the name does not start with an underscore *)
Definition public (n : str) : Prop := forall m, n <> "_"%char :: m.
(* an object has one value for each name *)
Definition proper (o : obj) : Prop := NoDup (map fst o).
(* the main array has n entries (rows) *)
Definition long (c : cls) (o : obj) (n : nat) : Prop := exists s d, In (c_main c, VArr (n :: s) d) o.
(* a column: an array with as many rows as the main array *)
Definition column (c : cls) (o : obj) (n : nat) (x : str) : Prop :=
  public x /\ x <> c_main c /\ ~ In x (c_not_array c) /\ exists s d, In (x, VArr (n :: s) d) o.
(* a hidden column: the same behind a name with an underscore, and not empty *)
Definition hidden (c : cls) (o : obj) (n : nat) (x : str) : Prop :=
  ~ public x /\ x <> "_"%char :: c_main c /\ ~ In x (map (cons "_"%char) (c_not_array c)) /\ ~ In x (c_not_array c) /\
  exists s d, In (x, VArr (n :: s) d) o /\ n <> 0%nat /\ ~ In 0%nat s.
(* data: a number, a text or an array *)
Definition data (v : value) : Prop := v <> VNone /\ v <> VObj.
(* meta data: what is left, and the attributes that the class says are no columns *)
Definition meta (c : cls) (o : obj) (n : nat) (x : str) : Prop :=
  In x (c_not_array c) \/
  (public x /\ x <> c_main c /\ exists v, In (x, v) o /\ data v /\ forall s d, v <> VArr (n :: s) d).

(* two values are the same: nan is only the same as nan inside an array *)
Definition same_number (x y : option Q) : Prop :=
  match x, y with Some p, Some q => p == q | None, None => True | _, _ => False end.
Definition same (v w : value) : Prop :=
  match v, w with
  | VNum (Some x), VNum (Some y) => x == y
  | VText s, VText t => s = t
  | VArr s d, VArr s' d' => s = s' /\ Forall2 same_number d d'
  | _, _ => False
  end.
(* a name in lower case *)
Definition lowercase (n : str) : Prop := forall a, In a n -> (nat_of_ascii a < 65 \/ 90 < nat_of_ascii a)%nat.
(* the time that a pair of seconds and reference stands for, in days *)
Definition mjd_of (seconds ref : Q) : Q := seconds / 86400 + ref.
(* the same letter, in upper or lower case *)
Definition same_letter (a b : ascii) : Prop :=
  a = b \/ (65 <= nat_of_ascii a <= 90 /\ nat_of_ascii b = nat_of_ascii a + 32)%nat \/ (65 <= nat_of_ascii b <= 90 /\ nat_of_ascii a = nat_of_ascii b + 32)%nat.
(* the same entries, under names that differ in case at most *)
Definition same_entries (l m : list (str * value)) : Prop := Forall2 (fun p q => Forall2 same_letter (fst p) (fst q) /\ snd p = snd q) l m.
