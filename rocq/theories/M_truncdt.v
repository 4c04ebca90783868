(* M_truncdt.v: model of the truncation of time series whose dt is an array (stingray/base.py _truncate_by_index). *)
From Verif Require Import Np Lib S_gti S_seg M_gti M_seg M_merge M_utils.
Open Scope Q_scope.

(* stingray/base.py:1243-1252 gti property, none set: dt[0] and dt[-1] *)
Definition default_gti (time dt : list Q) : result gtis :=
  let! a := get time 0 in
  let! b := get_last time in
  let! d0 := get dt 0 in
  let! d1 := get_last dt in
  Ok [(a - d0 / 2, b + d1 / 2)].
(* stingray/base.py:1793-1806 the window: the first and last time of the new series, dt[0] and dt[-1] of the old one.  start and stop
   are not negative. *)
Definition trunc_window (time dt : list Q) (start stop : nat) : result (Q * Q) :=
  let new := slice time start stop in
  let! a := get new 0 in
  let! b := get_last new in
  let! d0 := get dt 0 in
  let! d1 := get_last dt in
  Ok (a - (1 # 2) * d0, b + (1 # 2) * d1).
(* stingray/base.py:1803-1808: the GTIs of the new series *)
Definition trunc_gti (srt : list tagged -> list tagged) (time dt : list Q) (gti : option gtis) (start stop : nat) : result gtis :=
  let! w := trunc_window time dt start stop in
  let! g := match gti with Some g => Ok g | None => default_gti time dt end in
  cross_two_gtis srt g [w].
