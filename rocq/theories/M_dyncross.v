(* M_dyncross.v: model of the matrix of dynamical cross spectra (stingray/crossspectrum.py DynamicalCrossspectrum._make_matrix): which
   segments give a column, and the times of the columns. *)
From Verif Require Import Np Lib.
From Coq Require Import QArith List Bool.
Import ListNotations.
Open Scope Q_scope.

(* What the iterables of fluxes give for a segment: None, an array, or an array with errors *)
Inductive flux := NoFlux | Plain (l : list Q) | WithErr (l e : list Q).
(* stingray/fourier.py:2022: a tuple is not equal to 0 *)
Definition skipped (f : flux) : bool := match f with NoFlux => true | Plain l => forallb (fun v => qeq v 0) l | WithErr _ _ => false end.
Definition kept (p : flux * flux) : bool := negb (skipped (fst p) || skipped (snd p)).

Section Matrix.
(* [spectrum]: the cross spectrum of two segments (stingray/fourier.py:2025-2100), normalized, and without normalization *)
Context {C : Type} (spectrum : flux -> flux -> C).
(* stingray/fourier.py:2021-2023: the spectra of the segments (zip) *)
Definition cs_all (fluxes1 fluxes2 : list flux) : list C :=
  map (fun p => spectrum (fst p) (snd p)) (filter kept (combine fluxes1 fluxes2)).
(* stingray/crossspectrum.py:2273-2310 _make_matrix: the columns and their times.  [starts]: the starts of the segments in the
   GTIs (time_intervals_from_gtis), the same as those of the fluxes.  Without any column the average is None: left out (None). *)
Definition make_cross_matrix (seg : Q) (starts : list Q) (fluxes1 fluxes2 : list flux) : option (list C * list Q) :=
  match cs_all fluxes1 fluxes2 with
  | [] => None
  | cols => Some (cols, map (fun s => s + (1 # 2) * seg) starts)
  end.
End Matrix.
