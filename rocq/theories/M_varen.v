(* M_varen.v: model of stingray/varenergyspectrum.py *)
From Verif Require Import Np M_utils M_gti.
Open Scope Q_scope.

(* varenergyspectrum.py:33-77 get_non_overlapping_ref_band; a one-dimensional ref_band is the list with that interval.
   argsort_by_end is the sort used by cross_two_gtis. *)
Definition get_non_overlapping_ref_band (argsort_by_end : list tagged -> list tagged) (channel_band : Q * Q) (ref_band : gtis) : result gtis :=
  let! sep := check_separate ref_band [channel_band] in
  if sep then Ok ref_band
  else
    let! m := qmax_list (flatten ref_band) in
    cross_two_gtis argsort_by_end ref_band [(0, fst channel_band); (snd channel_band, qmax m (snd channel_band + 1))].
