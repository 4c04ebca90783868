(* M_seg.v: model of the GTI masks, segment cutting and splitting of stingray/gti.py, and of
   contiguous_regions of stingray/utils.py.  Times are exact rationals. *)
From Verif Require Import Np M_gti.
Open Scope Q_scope.

(* stingray/utils.py:907-941 contiguous_regions: positions i (counted from the given index) where the
   condition differs from its predecessor. *)
Fixpoint changes_from (i : nat) (prev : bool) (c : list bool) : list nat :=
  match c with
  | [] => []
  | x :: c' => (if xorb prev x then [i] else []) ++ changes_from (S i) x c'
  end.
(* idx.shape = (-1, 2): ValueError for an odd number of entries. *)
Fixpoint pair_up {A} (l : list A) : result (list (A * A)) :=
  match l with
  | [] => Ok []
  | [_] => Err ValueError
  | a :: b :: l' => let! r := pair_up l' in Ok ((a, b) :: r)
  end.
(* stingray/utils.py:907-941 contiguous_regions; condition[0] of an empty array raises IndexError. *)
Definition contiguous_regions (c : list bool) : result (list (nat * nat)) :=
  match c with
  | [] => Err IndexError
  | c0 :: c' =>
    pair_up ((if c0 then [0%nat] else []) ++ changes_from 1 c0 c' ++ (if last c c0 then [length c] else []))
  end.

(* stingray/gti.py:595-643 create_gti_from_condition, safe_interval as a pair.  [dt] is the optional
   array; the default is the constant array (time[1]-time[0])/2 (IndexError for fewer than 2 samples). *)
Fixpoint condition_gtis (time dt : list Q) (safe : Q * Q) (idxs : list (nat * nat)) : result gtis :=
  match idxs with
  | [] => Ok []
  | (startidx, stop) :: rest =>
    let stopidx := (stop - 1)%nat in
    let! ta := get time startidx in
    let! da := get dt startidx in
    let! tb := get time stopidx in
    let! db := get dt stopidx in
    let t0 := ta - da + fst safe in
    let t1 := tb + db - snd safe in
    let! r := condition_gtis time dt safe rest in
    Ok (if qlt (t1 - t0) 0 then r else (t0, t1) :: r)
  end.
Definition create_gti_from_condition (time : list Q) (condition : list bool) (safe : Q * Q)
           (dt : option (list Q)) : result gtis :=
  if negb (length time =? length condition)%nat then Err StingrayError
  else
    let! idxs := contiguous_regions condition in
    let! dt := match dt with
               | Some d => Ok d
               | None => match time with
                         | a :: b :: _ => Ok (repeat ((b - a) / 2) (length time))
                         | _ => Err IndexError
                         end
               end in
    condition_gtis time dt safe idxs.

(* np.diff, np.median (mean of the two middle elements for even length).  For an empty array numpy
   returns nan: None. *)
Fixpoint diffs (l : list Q) : list Q :=
  match l with a :: ((b :: _) as l') => (b - a) :: diffs l' | _ => [] end.
Definition median (l : list Q) : option Q :=
  let s := np_sort l in
  let n := length l in
  match n with
  | O => None
  | _ => if Nat.even n
         then match nth_error s (n / 2 - 1), nth_error s (n / 2) with
              | Some a, Some b => Some ((a + b) / 2) | _, _ => None end
         else nth_error s (n / 2)
  end.

(* stingray/gti.py:342-390 create_gti_mask_jit.  [cur] is gtis[gti_el] (None before the first sample),
   [rest] the GTIs after it, [nxt] is next_gti.  Returns the mask of the samples and the flags
   gti_mask of [rest]. *)
Fixpoint mask_jit (minlen : Q) (time : list Q) (cur : option ivl) (nxt : bool) (rest : gtis)
  : list bool * list bool :=
  match time with
  | [] => ([], map (fun _ => false) rest)
  | t :: time' =>
    let advance := match cur with None => true | Some iv => qlt (snd iv) t || nxt end in
    if advance then
      match rest with
      | [] => (map (fun _ => false) time, [])            (* break *)
      | iv :: rest' =>
        if qlt (snd iv - fst iv) minlen
        then let r := mask_jit minlen time' (Some iv) true rest' in (false :: fst r, false :: snd r)
        else let r := mask_jit minlen time' (Some iv) false rest' in
             ((qle (fst iv) t && qle t (snd iv)) :: fst r, true :: snd r)
      end
    else
      let r := mask_jit minlen time' cur nxt rest in
      ((match cur with Some iv => qle (fst iv) t && qle t (snd iv) | None => false end) :: fst r, snd r)
  end.

(* stingray/gti.py:514-592 create_gti_mask_complete with safe_interval as a pair and [dts] the array of
   bin widths (a scalar dt is the constant array).  Returns the mask and the new GTIs; newgtis has the
   dtype of gtis, floating point here. *)
Definition mask_complete_core (time dts : list Q) (g : gtis) (safe : Q * Q) (minlen eps : Q)
  : list bool * gtis :=
  let new := filter (fun iv => qle minlen (snd iv - fst iv))
                    (map (fun iv => (fst iv + fst safe, snd iv - snd safe)) g) in
  (map (fun p : Q * Q =>
          existsb (fun iv => qle (fst iv + snd p / 2 - eps * snd p) (fst p)
                             && qle (fst p) (snd iv - snd p / 2 + eps * snd p)) new)
       (combine time dts), new).
(* The default dt is np.median(np.diff(np.sort(time)) / 2); nan for a single sample (all comparisons
   False: nothing selected). *)
Definition create_gti_mask_complete (time : list Q) (g : gtis) (safe : Q * Q) (minlen : Q)
           (dt : option (list Q)) (eps : Q) : result (list bool * gtis) :=
  let! _ := check_gtis g in
  match dt with
  | Some dts => Ok (mask_complete_core time dts g safe minlen eps)
  | None =>
    match median (map (fun d => d / 2) (diffs (np_sort time))) with
    | Some d => Ok (mask_complete_core time (map (fun _ => d) time) g safe minlen eps)
    | None => Ok (map (fun _ => false) time, snd (mask_complete_core time time g safe minlen eps))
    end
  end.

(* stingray/gti.py:393-511 create_gti_mask with a scalar (or missing) dt; [numba] is HAS_NUMBA, safe is
   the pair of safe intervals (None is (0, 0)).  Lines 448-454: `np.max(min_length, dt)` passes dt as
   the axis argument, which raises (TypeError for a float, AxisError for an int: both TypeError
   here).  When no GTI is long enough only the mask is
   returned, here with an empty list.  The shift by time[0] is dropped (exact arithmetic). *)
Definition create_gti_mask (numba : bool) (time : list Q) (g : gtis) (safe : Q * Q) (minlen : Q)
           (dt : option Q) (eps : Q) : result (list bool * gtis) :=
  match time, g with
  | [], _ => Err ValueError
  | _, [] => Err ValueError
  | _, _ =>
    let run := fun g : gtis =>
      if numba then
        let! _ := check_gtis g in
        match (match dt with Some d => Some d | None => median (diffs time) end) with
        | None =>     (* a single sample: dt is nan, all comparisons are False, the first GTI is flagged *)
          Ok (map (fun _ => false) time, firstn 1 (map (fun iv => (fst iv + fst safe, snd iv - snd safe)) g))
        | Some d =>
          let gnew := map (fun iv => (fst iv + fst safe, snd iv - snd safe)) g in
          let gmask := map (fun iv => (fst iv - eps * d + d / 2, snd iv + eps * d - d / 2)) gnew in
          let r := mask_jit (minlen - 2 * (1 + eps) * d) time None false gmask in
          Ok (fst r, select gnew (snd r))
        end
      else create_gti_mask_complete time g safe minlen (option_map (fun d => map (fun _ => d) time) dt) eps
    in
    if qlt 0 minlen then
      match dt with
      | Some _ => Err TypeError
      | None =>
        let g' := filter (fun iv => qle minlen (snd iv - fst iv)) g in
        match g' with
        | [] => Ok (map (fun _ => false) time, [])
        | _ => run g'
        end
      end
    else run g
  end.

(* stingray/gti.py:1180-1224 time_intervals_from_gtis.  epsilon = 1e-5 by default. *)
Definition segment_starts (seg fraction_step eps : Q) (iv : ivl) : list Q :=
  if qlt (snd iv - fst iv + eps) seg then []
  else arange (fst iv) (snd iv - seg + eps) (seg * fraction_step).
Definition time_intervals_from_gtis (g : gtis) (seg fraction_step eps : Q) : result (list Q * list Q) :=
  match flat_map (segment_starts seg fraction_step eps) g with
  | [] => Err AssertionError
  | st => Ok (st, map (fun s => s + seg) st)
  end.

(* np.arange on integers (non-negative start, stop, step > 0). *)
Definition arange_nat (start stop step : nat) : list nat :=
  map (fun i => start + i * step)%nat (seq 0 ((stop - start + step - 1) / step)).
(* stingray/gti.py:1227-1276 calculate_segment_bin_start.  [step] is int(nbin * fraction_step);
   step 0 raises ZeroDivisionError in numpy (ValueError here).  st[-1] on an empty array: IndexError. *)
Definition calculate_segment_bin_start (startbin stopbin nbin step : nat) : result (list nat) :=
  match step with
  | O => Err ValueError
  | _ =>
    let st := arange_nat startbin stopbin step in
    let! l := get_last st in
    if (stopbin <? l + nbin)%nat then Ok (removelast st) else Ok st
  end.

(* stingray/gti.py:1352-1367 and 1459-1474: start and stop bin of one GTI, already narrowed by half a bin. *)
Definition border_bins_one (time : list Q) (g0 g1 : Q) : result (nat * nat) :=
  let startbin := searchsorted_left time g0 in
  let stopbin := (searchsorted_left time g1 + 1)%nat in
  let stopbin := if (length time <? stopbin)%nat then length time else stopbin in
  let! ts := get time startbin in
  let startbin := if qlt ts g0 then S startbin else startbin in
  let! te := get time (stopbin - 1) in
  let stopbin := if qlt g1 te then (stopbin - 1)%nat else stopbin in
  Ok (startbin, stopbin).
Fixpoint border_bins_loop (time : list Q) (g : gtis) : result (list (nat * nat)) :=
  match g with
  | [] => Ok []
  | (g0, g1) :: g' =>
    let! b := border_bins_one time g0 g1 in
    let! r := border_bins_loop time g' in
    Ok (b :: r)
  end.
Definition narrow (dt eps : Q) (g : gtis) : gtis :=
  map (fun iv => (fst iv + dt / 2 - eps * dt, snd iv - dt / 2 + eps * dt)) g.
(* stingray/gti.py:1344-1345, 1447-1448: time[-1] < np.min(gtis) or time[0] > np.max(gtis). *)
Definition outside (time : list Q) (g : gtis) : result bool :=
  match time, g with
  | t0 :: _, _ :: _ =>
    Ok (forallb (qlt (last time t0)) (flatten g) || forallb (fun x => qlt x t0) (flatten g))
  | [], _ => Err IndexError
  | _, [] => Err ValueError
  end.
(* stingray/gti.py:1377-1481 gti_border_bins, scalar dt given. *)
Definition gti_border_bins (g : gtis) (time : list Q) (dt eps : Q) : result (list (nat * nat)) :=
  let! o := outside time g in
  if o then Err ValueError else border_bins_loop time (narrow dt eps g).

(* stingray/gti.py:1279-1374 bin_intervals_from_gtis, dt given (positive); nbin = rint(seg / dt);
   [step] is int(nbin * fraction_step). *)
Fixpoint bin_intervals_loop (time : list Q) (seg dt eps : Q) (nbin step : nat) (g : gtis)
  : result (list nat) :=
  match g with
  | [] => Ok []
  | (g0, g1) :: g' =>
    if qlt (g1 - g0 + dt + eps * dt) seg then bin_intervals_loop time seg dt eps nbin step g'
    else
      let! b := border_bins_one time g0 g1 in
      let! new := calculate_segment_bin_start (fst b) (snd b) nbin step in
      let! r := bin_intervals_loop time seg dt eps nbin step g' in
      Ok (new ++ r)
  end.
Definition bin_intervals_from_gtis (g : gtis) (seg : Q) (time : list Q) (dt fraction_step eps : Q)
  : result (list nat * list nat) :=
  let nbin := Z.to_nat (rint (seg / dt)) in
  let step := Z.to_nat (py_int (inject_Z (Z.of_nat nbin) * fraction_step)) in
  let! o := outside time g in
  if o then Err ValueError
  else
    let! st := bin_intervals_loop time seg dt eps nbin step (narrow dt eps g) in
    match st with
    | [] => Err AssertionError
    | _ => Ok (st, map (fun s => s + nbin)%nat st)
    end.

(* stingray/utils.py:407-463 is_sorted *)
Fixpoint is_sorted (l : list Q) : bool :=
  match l with a :: ((b :: _) as l') => qle a b && is_sorted l' | _ => true end.

(* stingray/gti.py:1573-1646 generate_indices_of_segment_boundaries_unbinned.  The dictionary from the
   sorted set of boundaries to times.searchsorted(boundary) is read back at each boundary: it is the
   function s |-> searchsorted(times, s). *)
Definition generate_indices_of_segment_boundaries_unbinned (times : list Q) (g : gtis) (seg eps : Q)
  : result (list (Q * Q * (nat * nat))) :=
  let! ss := time_intervals_from_gtis g seg 1 eps in
  if negb (is_sorted times) then Err AssertionError
  else Ok (map (fun p : Q * Q => (p, (searchsorted_left times (fst p), searchsorted_left times (snd p))))
               (combine (fst ss) (snd ss))).
(* stingray/gti.py:1524-1570 generate_indices_of_gti_boundaries with dt=0. *)
Definition generate_indices_of_gti_boundaries (times : list Q) (g : gtis)
  : result (list (Q * Q * (nat * nat))) :=
  let! b := gti_border_bins g times 0 (1 # 1000) in
  Ok (combine g b).
(* stingray/gti.py:1649-1694 generate_indices_of_segment_boundaries_binned, dt given. *)
Definition generate_indices_of_segment_boundaries_binned (times : list Q) (g : gtis) (seg dt : Q)
  : result (list (Q * Q * (nat * nat))) :=
  let! ss := bin_intervals_from_gtis g seg times dt 1 (1 # 1000) in
  (fix go (l : list (nat * nat)) : result (list (Q * Q * (nat * nat))) :=
     match l with
     | [] => Ok []
     | (i0, i1) :: l' =>
       let! ta := get times i0 in
       let! tb := get times (Nat.min i1 (length times - 1)) in
       let! r := go l' in
       Ok ((ta - dt / 2, tb - dt / 2, (i0, i1)) :: r)
     end) (combine (fst ss) (snd ss)).

(* a[i:j] for integers of any sign (numpy slice, negative indices count from the end). *)
Definition norm_idx (n : nat) (i : Z) : nat :=
  if (i <? 0)%Z then Z.to_nat (Z.max 0 (i + Z.of_nat n)) else Z.to_nat i.
Definition zslice {A} (l : list A) (i j : Z) : list A :=
  slice l (norm_idx (length l) i) (norm_idx (length l) j).
(* stingray/gti.py:1697-1732 split_gtis_at_indices. *)
Fixpoint split_loop (g : gtis) (prev : Z) (idx : list Z) : list gtis * Z :=
  match idx with
  | [] => ([], prev)
  | i :: idx' => let r := split_loop g i idx' in (zslice g prev i :: fst r, snd r)
  end.
Definition split_gtis_at_indices (g : gtis) (index_list : list Z) : result (list gtis) :=
  match index_list with
  | [] => Err IndexError
  | i0 :: tl0 =>
    let idx := if (i0 =? 0)%Z then tl0 else index_list in
    let r := split_loop g 0%Z idx in
    let! l := get_last idx in
    if negb (l =? -1)%Z && (l <=? Z.of_nat (length g) - 1)%Z
    then Ok (fst r ++ [skipn (norm_idx (length g) (snd r)) g]) else Ok (fst r)
  end.

(* stingray/gti.py:1735-1767 find_large_bad_time_intervals *)
Fixpoint large_btis (limit last_edge : Q) (g : gtis) : list Q :=
  match g with
  | [] => []
  | iv :: g' =>
    (if qlt limit (fst iv - last_edge) then [(fst iv + last_edge) / 2] else [])
      ++ large_btis limit (snd iv) g'
  end.
Definition find_large_bad_time_intervals (g : gtis) (limit : Q) : result (list Q) :=
  match g with [] => Err IndexError | iv :: _ => Ok (large_btis limit (fst iv) g) end.

(* stingray/gti.py:1810-1849 split_gtis_by_exposure without new_interval_if_gti_sep. *)
Definition cut_gti (chunk : Q) (iv : ivl) : gtis :=
  if qlt chunk (snd iv - fst iv) then
    let new_edges := arange (fst iv) (snd iv) chunk in
    let new_edges := if qlt (last new_edges (fst iv)) (snd iv) then new_edges ++ [snd iv] else new_edges in
    combine (removelast new_edges) (tl new_edges)
  else [iv].
Fixpoint exposure_edges (acc : Q) (g : gtis) : list Q :=
  match g with [] => [] | iv :: g' => acc :: exposure_edges (acc + (snd iv - fst iv)) g' end.
Definition split_gtis_by_exposure_nogap (g : gtis) (chunk : Q) : result (list gtis) :=
  let n_intervals := rint (qsum (get_gti_lengths g) / chunk) in
  if (n_intervals <=? 1)%Z then Ok [g]
  else
    let g := if (Z.of_nat (length g) <=? n_intervals)%Z then flat_map (cut_gti chunk) g else g in
    let total := qsum (get_gti_lengths g) in
    let per := total / inject_Z n_intervals in
    let index_list := map (fun v => Z.of_nat (searchsorted_left (exposure_edges 0 g) v))
                          (arange 0 (total + per) per) in
    split_gtis_at_indices g index_list.
(* stingray/gti.py:1797-1809: the branch with new_interval_if_gti_sep. *)
Fixpoint split_each (chunk : Q) (l : list gtis) : result (list gtis) :=
  match l with
  | [] => Ok []
  | g :: l' => let! a := split_gtis_by_exposure_nogap g chunk in
               let! b := split_each chunk l' in Ok (a ++ b)
  end.
Definition split_gtis_by_exposure (g : gtis) (chunk : Q) (sep : option Q) : result (list gtis) :=
  match sep with
  | None => split_gtis_by_exposure_nogap g chunk
  | Some limit =>
    let! edges := find_large_bad_time_intervals g limit in
    let! base := split_gtis_at_indices g (map (fun e => Z.of_nat (searchsorted_left (map snd g) e)) edges) in
    split_each chunk base
  end.
