(* Time series and their tables: every column is as long as the times; the moment of a time is its MJD. *)
From Coq Require Import QArith List.
From Verif Require Import M_io M_tseries.
Import ListNotations.
Open Scope Q_scope.

Definition even_columns (s : series) : Prop :=
  exists x t, s_time s = Some (x :: t) /\ Forall (fun c => List.length (snd c) = List.length (x :: t)) (s_cols s).
(* the MJD of the times of a series *)
Definition moments (s : series) : list Q := map (fun t => s_mjdref s + t / 86400) (match s_time s with Some l => l | None => [] end).
Definition same_moments (a b : list Q) : Prop := Forall2 Qeq a b.
