(* S_make.v: lists of light curves cut in segments. *)
From Coq Require Import Reals Qreals List.
From Verif Require Import Np M_fourier S_gti S_seg S_flux M_make.
Import ListNotations.
Open Scope Q_scope.

(* a light curve with good GTIs and increasing times, whose segments have n bins *)
Definition plain_curve (seg : Q) (n : nat) (lc : curve) : Prop := 0 < l_dt lc /\ well_formed (l_gti lc) /\ S_seg.increasing (l_time lc) /\ seg == nq n * l_dt lc.
(* the segments of a list of light curves: those of each of them, in order; sts: the first samples of the segments of each light curve *)
Definition cut_curves (n : nat) (lcs : list curve) (sts : list (list nat)) : list (option seg) :=
  concat (map (fun p => map (lc_segment (l_counts (fst p)) (l_err (fst p)) n) (snd p)) (combine lcs sts)).
