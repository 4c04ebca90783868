(* S_fitslc.v: what the columns of a light curve table mean. *)
From Verif Require Import Np S_gti M_gti M_fitslc.
From Coq Require Import QArith List Arith String.
Import ListNotations.
Open Scope Q_scope.
(* bin i has a rate and an exposure of at least the limit *)
Definition good_bin (limit : Q) (rate frac : list (option Q)) (i : nat) (r f : Q) : Prop :=
  nth_error rate i = Some (Some r) /\ nth_error frac i = Some (Some f) /\ limit <= f.
Definition bad_bin (limit : Q) (rate frac : list (option Q)) (i : nat) : Prop :=
  (i < List.length rate)%nat /\ forall r f, ~ good_bin limit rate frac i r f.
(* all times moved by s *)
Definition moved (s : Q) (l l' : list Q) : Prop := Forall2 (fun a b => b == a + s) l l'.
(* numbers without repetition *)
Definition removes_duplicates (u : list nat -> list nat) : Prop := forall l, NoDup (u l) /\ forall x, In x (u l) <-> In x l.
(* extension i holds the intervals g *)
Definition has_gti (l : hdulist) (i : nat) (g : gtis) : Prop := exists h, nth_error l i = Some h /\ get_gti_from_hdu (snd h) = Ok g.
(* the name of extension i is one of those that are looked for *)
Definition matching (rx : string -> string -> bool) (l : hdulist) (accepted : list string) (dets : option (list nat)) (i : nat) : Prop := exists p h, In p (gti_patterns accepted dets) /\ nth_error l i = Some h /\ rx ("^" ++ p ++ "$")%string (fst h) = true.
