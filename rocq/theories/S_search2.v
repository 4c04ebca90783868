(* S_search2.v: shape of the results of the searches. *)
From Coq Require Import Reals Qreals.
From Verif Require Import Np S_lc S_fold Cplx S_fourier S_zn M_search S_search.
From Coq Require Import List Bool Arith.
Import ListNotations.
Open Scope Q_scope.

(* two flat arrays for one derivative, grids otherwise *)
Definition shaped (freqs fdots : list Q) (h : Q -> Q -> option R) : search_result :=
  match fdots with
  | [fd] => Flat freqs (map (fun f => h f fd) freqs)
  | _ => Grid (map (fun _ => freqs) fdots) (map (fun fd => map (fun _ => fd) freqs) fdots) (map (fun fd => map (fun f => h f fd) freqs) fdots)
  end.
(* the statistic of a profile *)
Definition value_of (k : search_kind) (p : list R) : R := match k with EpochFolding => flat_chi2 p | ZSearch n => Z2 (profile_points p) n end.
Definition kind_ok (k : search_kind) : Prop := match k with EpochFolding => True | ZSearch n => (0 < n)%nat end.
(* (x, stat) at the first maximum of a region *)
Definition is_peak (x stat : list Q) (r : nat * nat) (p : Q * Q) : Prop := exists i, first_maximum stat (fst r) (snd r) i /\ p = (nth i x 0, nth i stat 0).
(* phaseogram: the weights, the time axis and the reference time in seconds *)
Definition phase_weights (times : list Q) (w : phweights) : list Q := match w with PArray l => l | _ => map (fun _ => 1) times end.
Definition axis_of (mjdref : option Q) (t : Q) : Q := match mjdref with Some r => t / 86400 + r | None => t end.
Definition epoch_used (first last : Q) (mjdref pepoch : option Q) : Q :=
  match mjdref, pepoch with
  | None, Some p => p
  | None, None => (last + first) / 2
  | Some r, Some p => (p - r) * 86400
  | Some r, None => ((last + first) / 2 / 86400 - r) * 86400
  end.
