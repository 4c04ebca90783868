(* Bins with their own widths: bin i is centred on time i and has the width dt i. *)
From Verif Require Import Np.
From Coq Require Import QArith List.
Import ListNotations.
Open Scope Q_scope.

Definition bin_at (time dt : list Q) (i : nat) (lo hi : Q) : Prop :=
  exists t d, nth_error time i = Some t /\ nth_error dt i = Some d /\ lo == t - d / 2 /\ hi == t + d / 2.
(* the window from the start of bin i to the end of bin j *)
Definition bins_window (time dt : list Q) (i j : nat) (w : Q * Q) : Prop :=
  (exists h, bin_at time dt i (fst w) h) /\ (exists l, bin_at time dt j l (snd w)).
