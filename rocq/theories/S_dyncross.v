(* Dynamical cross spectra: a segment has a signal in both bands; column and middle of each segment. *)
From Verif Require Import Np M_dyncross.
From Coq Require Import QArith List.
Import ListNotations.
Open Scope Q_scope.

Definition has_signal (f : flux) : Prop :=
  match f with NoFlux => False | Plain l => exists v, In v l /\ ~ v == 0 | WithErr _ _ => True end.
(* the columns that belong to the segments, with the time of each *)
Inductive columns {C} (spectrum : flux -> flux -> C) (seg : Q) : list (Q * flux * flux) -> list (C * Q) -> Prop :=
| no_columns : columns spectrum seg [] []
| one_column s a b r l : has_signal a -> has_signal b -> columns spectrum seg r l ->
    columns spectrum seg ((s, a, b) :: r) ((spectrum a b, s + (1 # 2) * seg) :: l)
| no_signal s a b r l : ~ (has_signal a /\ has_signal b) -> columns spectrum seg r l -> columns spectrum seg ((s, a, b) :: r) l.
