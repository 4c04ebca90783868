(* S_mask.v: what a GTI mask should be. *)
From Verif Require Import Np Lib S_gti S_seg S_base.
Open Scope Q_scope.

(* One flag per sample: the bins inside a GTI (up to a thousandth of a bin), or all bins without GTIs. *)
Definition right_mask (time : list Q) (d : Q) (g : option (list (Q * Q))) (m : list bool) : Prop :=
  match g with
  | None => length m = length time /\ forall b, In b m -> b = true
  | Some g => flags (bin_in g ((1 # 1000) * d) d) time m
  end.
(* GTIs that are accepted: in order, and, for the compiled code, each with a bin inside. *)
Definition usable (numba : bool) (time : list Q) (d : Q) (g : list (Q * Q)) : Prop :=
  g <> [] /\ well_formed g /\ (0 < d \/ gaps_between g) /\ (numba = false \/ all_hold_bins g ((1 # 1000) * d) d time).
(* The times are in order, and the bins are not of negative width. *)
Definition usable_times (time : list Q) (d : Q) : Prop := time <> [] /\ nondecreasing time /\ 0 <= d.
