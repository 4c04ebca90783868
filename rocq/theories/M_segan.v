(* M_segan.v: model of the segment by segment methods of stingray/base.py StingrayTimeseries (lines 1086-1094, 2204-2373,
   2487-2785).  Array attributes are one-dimensional, dt is a number (see M_base). *)
From Verif Require Import Np S_gti S_seg M_gti M_seg M_merge M_utils M_lc M_base.
Open Scope Q_scope.

(* self[i:j]; the class decides (M_base) *)
Definition item (lc : bool) (srt : list tagged -> list tagged) (s : series) (i j : Z) : result series :=
  if lc then lc_getitem srt s i (Some j) 1 else getitem srt s i (Some j) 1.

(* base.py:2645-2683 the loop of analyze_segments; a function with a single result.  Segments with one sample or less are
   skipped. *)
Fixpoint analyze_loop {A} (lc : bool) (srt : list tagged -> list tagged) (func : series -> result A) (s : series)
  (segs : list (nat * nat * (Q * Q))) : result (list A) :=
  match segs with
  | [] => Ok []
  | (st, sp, (tst, tsp)) :: segs' =>
    if (Z.of_nat sp - Z.of_nat st <=? 1)%Z then analyze_loop lc srt func s segs'
    else
      let! x := item lc srt s (Z.of_nat st) (Z.of_nat sp) in
      let! r := func (with_gti (Some [(tst, tsp)]) x) in
      let! rest := analyze_loop lc srt func s segs' in
      Ok (r :: rest)
  end.
(* base.py:2584-2691 analyze_segments: start times, stop times, results. *)
Definition analyze_segments {A} (lc : bool) (srt : list tagged -> list tagged) (func : series -> result A) (s : series)
  (segment_size : option Q) (fraction_step : Q) : result (list Q * list Q * list A) :=
  match gti_of s with
  | None => Err TypeError
  | Some g =>
    let! segs :=
      match segment_size with
      | None => Ok (map (fun iv : ivl => (searchsorted_left (s_time s) (fst iv), searchsorted_left (s_time s) (snd iv), iv)) g)
      | Some seg =>
        if qlt 0 (s_dt s) then
          let! b := bin_intervals_from_gtis g seg (s_time s) (s_dt s) fraction_step gti_eps in
          map_result (fun p : nat * nat =>
            let! a := zget (s_time s) (Z.of_nat (fst p)) in
            let! z := zget (s_time s) (Z.of_nat (snd p) - 1) in
            Ok (fst p, snd p, (a - (1 # 2) * s_dt s, z + s_dt s * (3 # 2)))) (combine (fst b) (snd b))
        else
          let! b := time_intervals_from_gtis g seg fraction_step (1 # 100000) in
          Ok (map (fun p : Q * Q => (searchsorted_left (s_time s) (fst p), searchsorted_left (s_time s) (snd p), p)) (combine (fst b) (snd b)))
      end in
    let! res := analyze_loop lc srt func (touch s) segs in
    Ok (map (fun p => fst (snd p)) segs, map (fun p => snd (snd p)) segs, res)
  end.
(* base.py:2693-2723 analyze_by_gti *)
Definition analyze_by_gti {A} (lc : bool) (srt : list tagged -> list tagged) (func : series -> result A) (s : series) (fraction_step : Q) :=
  analyze_segments lc srt func s None fraction_step.

(* base.py:2725-2763 apply_gti_lists; the generator is the list of what it yields.  An empty series raises TypeError. *)
Definition close_lists (a b : gtis) : bool :=
  (Nat.eqb (length a) (length b) && forallb (fun d => qlt (Qabs d) (1 # 1000)) (zip_with Qminus (flatten a) (flatten b)))%bool.
Fixpoint apply_lists_loop (lc : bool) (srt : list tagged -> list tagged) (s : series) (l : list gtis) : result (list series) :=
  match l with
  | [] => Ok []
  | [] :: l' => apply_lists_loop lc srt s l'
  | ((g0 :: _) as g) :: l' =>
    let glast := last g g0 in
    let lower := Z.of_nat (searchsorted_left (s_time s) (fst g0)) in
    let upper := Z.of_nat (searchsorted_left (s_time s) (snd glast)) in
    let upper := if (upper =? Z.of_nat (length (s_time s)))%Z then (upper - 1)%Z else upper in
    let! t := zget (s_time s) upper in
    let upper := if qlt (snd glast) t then (upper - 1)%Z else upper in
    let! ev := item lc srt s lower (upper + 1) in
    let! rest := apply_lists_loop lc srt s l' in
    Ok (with_gti (Some g) ev :: rest)
  end.
Definition apply_gti_lists (lc : bool) (srt : list tagged -> list tagged) (s : series) (l : list gtis) : result (list series) :=
  let! first := get l 0 in
  match gti_of s with
  | None => Err TypeError
  | Some g =>
    if close_lists first g then let! ev := item lc srt (touch s) 0 (Z.of_nat (length (s_time s))) in Ok [ev]
    else apply_lists_loop lc srt (touch s) l
  end.
(* base.py:2765-2784 filter_at_time_intervals *)
Definition filter_at_time_intervals (lc : bool) (srt : list tagged -> list tagged) (s : series) (ivs : gtis) (check : bool) : result (list series) :=
  match gti_of s with
  | None => Err TypeError
  | Some g =>
    let! l := if check then map_result (fun iv => cross_two_gtis srt g [iv]) ivs else Ok (map (fun iv => [iv]) ivs) in
    apply_gti_lists lc srt s l
  end.

(* base.py:1086-1094 _ts_sum; [counts] is the name of the attribute counts.  mask (1262-1270): the samples in the GTIs. *)
Definition mask_of (numba : bool) (s : series) : result (list bool) :=
  match s_gti s with
  | Some g => let! m := create_gti_mask numba (s_time s) g (0, 0) 0 (Some (s_dt s)) gti_eps in Ok (fst m)
  | None => Ok (map (fun _ => true) (s_time s))
  end.
Definition ts_sum (numba : bool) (counts : nat) (s : series) : result Q :=
  let! m := mask_of numba s in
  match find_col counts (s_cols s) with
  | Some c => Ok (qsum (select c m))
  | None => Ok (inject_Z (Z.of_nat (length (select (s_time s) m))))
  end.
(* base.py:2573-2582 the loop of estimate_segment_size *)
Fixpoint estimate_loop (fuel : nat) (lc numba : bool) (srt : list tagged -> list tagged) (counts : nat) (s : series)
  (min_counts step size : Q) : result Q :=
  match fuel with
  | O => Err OutOfFuel
  | S fuel' =>
    let! r := analyze_segments lc srt (ts_sum numba counts) s (Some size) 1 in
    let! m := qmin_list (snd r) in
    if qle min_counts m then Ok size else estimate_loop fuel' lc numba srt counts s min_counts step (size + step)
  end.
(* base.py:2487-2582 estimate_segment_size.  min_samples=None makes `min_samples * step` a TypeError.  A zero count rate
   gives an infinite (or nan) size in numpy, which no GTI contains: AssertionError here. *)
Definition evenly (s : series) (even : option bool) : bool :=
  match even with
  | Some b => b
  | None => match median (diffs (s_time s)) with
            | Some d => (qlt 0 (s_dt s) && np_isclose (1 # 100) (1 # 100000000) d (s_dt s))%bool
            | None => false end
  end.
Definition estimate_segment_size (fuel : nat) (lc numba : bool) (srt : list tagged -> list tagged) (counts : nat) (s : series)
  (min_counts min_samples : option Q) (even : option bool) : result Q :=
  match min_counts, min_samples with
  | None, None => Err ValueError
  | _, _ =>
    let even := evenly s even in
    let mc := match min_counts, min_samples with
              | Some c, _ => c
              | None, Some n => if (even && match find_col counts (s_cols s) with Some _ => true | None => false end)%bool then 0 else n
              | None, None => 0
              end in
    let! total := ts_sum numba counts s in
    match gti_of s with
    | None => Err TypeError
    | Some g =>
      let rate := total / get_total_gti_length g 0 in
      let step := if even then s_dt s else 1 in
      match min_samples with
      | None => Err TypeError
      | Some ms =>
        if qeq total 0 then Err AssertionError
        else
          let rough := inject_Z (Qceiling (mc / rate / step)) * step in
          estimate_loop fuel lc numba srt counts (touch s) mc step (qmax rough (ms * step))
      end
    end
  end.

(* Random generator used by fill_bad_time_intervals: for the k-th gap, a Poisson number, uniform times, and a choice of n
   values out of a list for each attribute. *)
Record rng := { poisson : nat -> Q -> nat; uniform : nat -> Q -> Q -> nat -> list Q; choice : nat -> nat -> list Q -> nat -> list Q }.
(* RandomState.choice(a, n) fails for empty a and n > 0 *)
Definition choose (r : rng) (gap name : nat) (a : list Q) (n : nat) : result (list Q) :=
  match a, n with [], S _ => Err ValueError | _, _ => Ok (choice r gap name a n) end.
(* base.py:2318-2333: one count rate near the gap; None is nan.  np.count_nonzero counts the times that are not 0. *)
Definition side_rate (arr : list Q) (len : Q) : option Q :=
  match arr with
  | [] => None
  | _ => if qlt 0 len then Some (inject_Z (Z.of_nat (length (filter (fun t => negb (qeq t 0)) arr))) / len) else None
  end.
(* base.py:2298-2356: times simulated in one gap and the pools of indices: [lo, idx_low) and [idx_high, hi).  None: the gap is skipped
   for lack of data.  max_length and buffer_size given or computed in [fill_bad]. *)
Definition gap_times (r : rng) (k : nat) (even : bool) (dt : Q) (buffer : Z) (ft : list Q) (bti : ivl) : result (option (list Q * (Z * Z))) :=
  let! low := find_nearest ft (fst bti) true in
  let! hig := find_nearest ft (snd bti) false in
  if even then Ok (Some (arange (fst bti + dt / 2) (snd bti) dt, (snd low, snd hig)))
  else
    let la := filter (fun t => qlt (fst bti - inject_Z buffer) t) (zslice ft (Z.max (snd low - buffer) 0) (snd low)) in
    let ha := filter (fun t => qlt t (snd bti + inject_Z buffer)) (zslice ft (snd hig) (buffer + snd hig)) in
    let rl := match la with [] => None | t0 :: _ => side_rate la (fst low - t0) end in
    let rh := match get_last ha with Ok tl => side_rate ha (tl - fst hig) | Err _ => None end in
    match rl, rh with
    | None, None => Ok None
    | _, _ =>
      let rate := match rl, rh with Some a, Some b => (a + b) / 2 | Some a, None => a | None, Some b => b | None, None => 0 end in
      let n := poisson r k (rate * (snd bti - fst bti)) in
      Ok (Some (uniform r k (fst bti) (snd bti) n, (snd low, snd hig)))
    end.
(* base.py:2340-2345: new values of one attribute of the series; the positions found among the good samples index the whole array *)
Definition gap_values (r : rng) (k : nat) (buffer : Z) (lh : Z * Z) (n : nat) (col : nat * list Q) : result (list Q) :=
  let lo := zslice (snd col) (Z.max (buffer - fst lh) 0) (fst lh) in
  let hi := zslice (snd col) (snd lh) (buffer + snd lh) in
  choose r k (fst col) (lo ++ hi) n.
(* base.py:2298-2356 the loop over the bad time intervals: GTIs added, and for each gap filled its times and the values
   of the attributes (in the order of the columns) *)
Fixpoint fill_loop (r : rng) (k : nat) (even : bool) (dt max_length : Q) (buffer : Z) (ft : list Q) (cols : list (nat * list Q)) (btis : gtis)
  : result (gtis * list (list Q * list (list Q))) :=
  match btis with
  | [] => Ok ([], [])
  | b :: btis' =>
    let length := snd b - fst b in
    if qlt max_length length then fill_loop r (S k) even dt max_length buffer ft cols btis'
    else
      let eps := (1 # 100000) * length in
      let! o := gap_times r k even dt buffer ft b in
      let! new := match o with
                  | None => Ok []
                  | Some (t, lh) => let! v := map_result (gap_values r k buffer lh (List.length t)) cols in Ok [(t, v)]
                  end in
      let! rest := fill_loop r (S k) even dt max_length buffer ft cols btis' in
      Ok ((fst b - eps, snd b + eps) :: fst rest, new ++ snd rest)
  end.
(* base.py:2204-2373 fill_bad_time_intervals, all array attributes randomized; an attribute of the result exists only if
   some gap was filled.  Error bars are array attributes like the others: they are part of the columns.  argsort: any. *)
Definition fill_bad (numba : bool) (r : rng) (s_start : gtis -> gtis) (s_edge : list edge -> list edge) (argsort : list Q -> list nat)
  (s : series) (max_length : option Q) (buffer_size : option Z) (even : option bool) : result series :=
  match gti_of s with
  | None => Err TypeError
  | Some g =>
    let! t0 := get (s_time s) 0 in
    let! tl := get_last (s_time s) in
    let! ml := match max_length with Some m => Ok m | None => let! m := qmax_list (get_gti_lengths g) in Ok (m / 100) end in
    let! btis := get_btis g (Some t0) (Some tl) in
    match btis with
    | [] => Ok (touch s)
    | _ =>
      let! mask := mask_of numba (touch s) in
      let ft := select (s_time s) mask in
      match median (diffs ft) with
      | None => Err ValueError       (* int(nan) *)
      | Some sep =>
        let ev := match even with
                  | Some b => b
                  | None => (qlt 0 (s_dt s) && np_isclose (1 # 100) (1 # 100000000) sep (s_dt s))%bool end in
        let est := py_int (ml / (if ev then s_dt s else sep)) in
        let buffer := match buffer_size with Some b => b | None => Z.max 100 est end in
        let! out := fill_loop r 0 ev (s_dt s) ml buffer ft (s_cols s) btis in
        let! g' := join_gtis s_start s_edge g (fst out) in
        let times := ft ++ flat_map fst (snd out) in
        let order := argsort times in
        let cols := match snd out with
                    | [] => []
                    | new => map (fun c : nat * (nat * list Q) =>
                               (fst (snd c), take_all order (select (snd (snd c)) mask ++ flat_map (fun n => nth (fst c) (snd n) []) new)))
                             (combine (seq 0 (length (s_cols s))) (s_cols s))
                    end in
        Ok (mkSeries (take_all order times) cols [] (s_dt s) (Some g') (s_mjdref s) (s_tstart s) (s_tseg s))
      end
    end
  end.
