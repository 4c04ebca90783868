(* S_rw.v: what should come back when complex columns are written to a text file and read. *)
From Coq Require Import String Ascii.
From Verif Require Import Np M_io M_mission M_rw.
From Coq Require Import QArith List.
Import ListNotations.
Open Scope Q_scope.

(* a name as attributes have: no dot *)
Definition plain (n : str) : Prop := ~ In "."%char n.
Definition no_capital (n : str) : Prop := lower n = n.
(* a table whose columns have distinct names without dots or capitals, and at least one row *)
Definition sound (t : tab) : Prop := NoDup (map fst t) /\ Forall (fun p => plain (fst p) /\ no_capital (fst p) /\ k_data (snd p) <> []) t.
(* the first value of the column has an imaginary part *)
Definition to_split (p : str * column) : Prop := k_complex (snd p) = true /\ exists v l, k_data (snd p) = v :: l /\ ~ snd v == 0.
(* the two columns in which a complex column is kept *)
Definition two_columns (n : str) (c : column) (l : tab) : Prop :=
  exists a b, l = [(n ++ % ".real", mkCol false a); (n ++ % ".imag", mkCol false b)] /\
    Forall2 (fun v x => x = (fst v, 0)) (k_data c) a /\ Forall2 (fun v x => x = (snd v, 0)) (k_data c) b.
(* the complex column c comes back as it was *)
Definition as_it_was (p q : str * column) : Prop :=
  fst q = fst p /\ k_complex (snd q) = true /\ Forall2 (fun v w => fst w == fst v /\ snd w == snd v) (k_data (snd p)) (k_data (snd q)).
(* the real part was taken for an imaginary part *)
Definition all_imaginary (p q : str * column) : Prop :=
  fst q = fst p /\ k_complex (snd q) = true /\ Forall2 (fun v w => fst w == 0 /\ snd w == fst v + snd v) (k_data (snd p)) (k_data (snd q)).
