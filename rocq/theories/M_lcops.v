(* M_lcops.v: model of further methods of light curves and event lists: splitting at gaps, sorting by counts, GTIs and checks
   (stingray/lightcurve.py), light curves, colors and intensities of segments (stingray/events.py).  Attributes are numbered and dt is
   a number (see M_base); results with square roots are exact reals. *)
From Coq Require Import Reals Qreals.
From Verif Require Import Np Lib S_gti M_gti M_seg M_merge M_utils M_lc M_base M_segan.
From Coq Require Import List Bool Arith.
Import ListNotations.
Open Scope Q_scope.

(* stingray/lightcurve.py:1162-1213 Lightcurve.split.  [gaps]: time[gap_idx] and time[gap_idx + 1]. *)
Definition gap_ends (min_gap : Q) (time : list Q) : list (Q * Q) :=
  filter (fun p => qle min_gap (snd p - fst p)) (combine time (tl time)).
Definition gap_gtis (min_gap eps t0 tlast : Q) (time : list Q) : gtis :=
  let gaps := gap_ends min_gap time in
  combine (t0 - eps :: map (fun p => snd p - eps) gaps) (map (fun p => fst p + eps) gaps ++ [tlast + eps]).
Definition lc_split (numba : bool) (srt : list tagged -> list tagged) (min_gap : Q) (min_points : nat) (s : series) : result (list series) :=
  let! m := qmin_list (diffs (s_time s)) in
  let eps := m / 2 in
  let! t0 := get (s_time s) 0 in
  let! tlast := get_last (s_time s) in
  let new := gap_gtis min_gap eps t0 tlast (s_time s) in
  let! gti := match gti_of s with Some g => cross_two_gtis srt g new | None => Ok new end in
  split_by_gti numba (touch s) (Some gti) min_points.

(* stingray/lightcurve.py:1252-1287 sort_counts; [counts] is the name of that attribute *)
Definition sort_counts (argsort : list Q -> list nat) (counts : nat) (reverse inplace : bool) (s : series) : result series :=
  match find_col counts (s_cols s) with
  | None => Err TypeError
  | Some c => let o := argsort c in Ok (apply_mask (take_all (if reverse then rev o else o)) inplace s)
  end.

(* stingray/lightcurve.py:1708-1731 Lightcurve.apply_gtis: the returned light curve, its tstart (line 1729 assigns an array) and its
   tseg.  `self.mask` is that of M_segan. *)
Definition lc_apply_gtis (numba inplace : bool) (s : series) : result (series * list Q * Q) :=
  match gti_of s with
  | None => Err TypeError
  | Some g =>
    let! _ := check_gtis g in
    let! m := mask_of numba (touch s) in
    let r := apply_mask (fun l => select l m) inplace (touch s) in
    let! hi := qmax_list (flatten g) in
    let! lo := qmin_list (flatten g) in
    Ok (r, map (fun t => t - s_dt s / 2) (s_time r), hi - lo)
  end.

(* stingray/lightcurve.py:486-527 initial_optional_checks; times are finite; None is a value that is not; err may be missing. *)
Definition all_finite (l : list (option Q)) : bool := forallb (fun v => match v with Some _ => true | None => false end) l.
Definition initial_checks (numba : bool) (time : list Q) (counts : list (option Q)) (err : option (list (option Q))) (gti : option gtis)
  : result unit :=
  let! mask := match gti with
               | None => Ok None
               | Some g => let! m := create_gti_mask numba time g (0, 0) 0 (Some 0) gti_eps in Ok (Some (fst m))
               end in
  let bad := fun arr => (negb (all_finite arr) &&
                         match mask with None => true | Some m => negb (all_finite (select arr m)) end)%bool in
  if (bad counts || match err with None => false | Some e => bad e end)%bool then Err ValueError else Ok tt.

(* stingray/gti.py:1484-1521 generate_indices_of_boundaries with dt = 0 *)
Definition generate_indices_of_boundaries (times : list Q) (g : gtis) (segment_size : option Q) : result (list (Q * Q * (nat * nat))) :=
  match segment_size with
  | Some seg => generate_indices_of_segment_boundaries_unbinned times g seg (1 # 100000)
  | None => generate_indices_of_gti_boundaries times g
  end.
(* stingray/events.py:342-377 to_lc_iter (379-397 to_lc_list): the light curves it yields *)
Definition to_lc_iter (times : list Q) (g : gtis) (dt : Q) (segment_size : option Q) : result (list lightcurve) :=
  let! segs := generate_indices_of_boundaries times g segment_size in
  map_result (fun p : Q * Q * (nat * nat) =>
    let iv := fst p in
    make_lightcurve (slice times (fst (snd p)) (snd (snd p) + 1)) dt (Some (snd iv - fst iv)) (Some (fst iv)) (Some [iv]) true) segs.

(* np.count_nonzero(ev.get_energy_mask(range)); comparing a missing attribute with a number is a TypeError *)
Definition energy_count (energy : nat) (r : Q * Q) (ev : series) : result nat :=
  match find_col energy (s_cols ev) with
  | None => Err TypeError
  | Some e => Ok (length (filter (fun b => b) (get_energy_mask e r)))
  end.
(* stingray/events.py:812-824 color of a segment and its error; None is nan *)
Definition color (energy : nat) (r1 r2 : Q * Q) (ev : series) : result (option R * option R) :=
  let! n1 := energy_count energy r1 ev in
  let! n2 := energy_count energy r2 ev in
  if (Nat.eqb n1 0 || Nat.eqb n2 0)%bool then Ok (None, None)
  else
    let c := (INR n2 / INR n1)%R in
    Ok (Some c, Some (c * (sqrt (INR n1) / INR n1 + sqrt (INR n2) / INR n2))%R).
(* stingray/events.py:786-828 get_color_evolution; the attribute is the energy or the PI channel.  Without any analysed segment the
   result cannot be unpacked (826). *)
Definition color_evolution (srt : list tagged -> list tagged) (energy : nat) (r1 r2 : Q * Q) (segment_size : option Q) (s : series)
  : result (list Q * list Q * list (option R) * list (option R)) :=
  let! x := analyze_segments false srt (color energy r1 r2) s segment_size 1 in
  match snd x with
  | [] => Err ValueError
  | res => Ok (fst x, map fst res, map snd res)
  end.
(* stingray/events.py:855-861 intensity of a segment and its error; a GTI of length zero (inf or nan) is not modelled *)
Definition intensity (energy : nat) (r : Q * Q) (ev : series) : result (R * R) :=
  let! n := energy_count energy r ev in
  match gti_of ev with
  | Some ((a, b) :: _) => if qeq (b - a) 0 then Err OutOfFuel else Ok ((INR n / Q2R (b - a))%R, (sqrt (INR n) / Q2R (b - a))%R)
  | _ => Err IndexError
  end.
(* stingray/events.py:830-864 get_intensity_evolution *)
Definition intensity_evolution (srt : list tagged -> list tagged) (energy : nat) (r : Q * Q) (segment_size : option Q) (s : series)
  : result (list Q * list Q * list R * list R) :=
  let! x := analyze_segments false srt (intensity energy r) s segment_size 1 in
  match snd x with
  | [] => Err ValueError
  | res => Ok (fst x, map fst res, map snd res)
  end.
