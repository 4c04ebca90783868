(* Rebinned spectra: the new bins of width w start at the first frequency; each value is the mean of the old bins, shared by
   the length of the overlap. *)
From Verif Require Import Np S_utils.
From Coq Require Import ZArith QArith List.
Import ListNotations.
Open Scope Q_scope.

Definition left_edge (x0 w : Q) (i : nat) : Q := x0 + inject_Z (Z.of_nat i) * w.
(* xe: the edges of the old bins, y: old values, y': new values *)
Definition averaged (xe : list Q) (x0 w : Q) (k : nat) (y y' : list Q) : Prop :=
  length y' = k /\
  forall i, (i < k)%nat -> exists v, nth_error y' i = Some v /\
    v == amount xe y (left_edge x0 w i) (left_edge x0 w (S i)) / old_bins xe (left_edge x0 w i) (left_edge x0 w (S i)).
(* the middle of the new bins, when old frequencies are the middle of bins of width d *)
Definition middles (x0 d w : Q) (k : nat) (x' : list Q) : Prop :=
  length x' = k /\ forall i, (i < k)%nat -> exists v, nth_error x' i = Some v /\ v == left_edge x0 w i - d / 2 + w / 2.
(* the square of the errors of the means, e: the sum of the old errors over the squared number of old bins *)
Definition err_squares (xe : list Q) (x0 w : Q) (k : nat) (e e2 : list Q) : Prop :=
  length e2 = k /\
  forall i, (i < k)%nat -> exists v, nth_error e2 i = Some v /\
    let n := old_bins xe (left_edge x0 w i) (left_edge x0 w (S i)) in
    v == amount xe e (left_edge x0 w i) (left_edge x0 w (S i)) / (n * n).
