(* M_utils.v: model of the binning helpers of stingray/utils.py.  Arrays are lists of exact rationals. *)
From Verif Require Import Np M_gti M_seg.
Open Scope Q_scope.

(* a[i] for an integer of any sign (numpy: negative indices count from the end). *)
Definition zget {A} (l : list A) (i : Z) : result A :=
  if (0 <=? i)%Z then get l (Z.to_nat i)
  else if (0 <=? i + Z.of_nat (length l))%Z then get l (Z.to_nat (i + Z.of_nat (length l)))
  else Err IndexError.

(* ---------- rebin_data ---------- *)
(* The dx argument of rebin_data: None, a number, or an array. *)
Inductive dx_arg := DxNone | DxScalar (d : Q) | DxArray (l : list Q).
(* The method argument: one of the accepted names of the mean, "sum", or anything else. *)
Inductive rebin_method := MMean | MSum | MOther.
(* step_size is returned as a number or as an array. *)
Inductive step_out := StepScalar (s : Q) | StepArray (l : list Q).

(* stingray/utils.py:550-555 choice of dx_old. *)
Definition dx_old_of (x : list Q) (dx : dx_arg) : list Q :=
  match dx with
  | DxArray l => l
  | DxNone => diffs x
  | DxScalar d => if qeq d 0 then diffs x else [d]
  end.

(* stingray/utils.py:581-601 one iteration of the loop.  [cast] and [caste] are the conversions applied when a
   value is stored in [output] (dtype of y) and [outputerr] (dtype of yerr): the identity for floating
   point arrays, truncation for integer arrays.  Returns output[i], outputerr[i], step_size[i].
   Division by zero widths (nan in numpy) is Coq's x/0 = 0: theorems assume increasing x. *)
Definition rebin_one (cast caste : Q -> Q) (xe y yerr : list Q) (xmin xmax : Q) : result (Q * Q * Q) :=
  let mn := Z.of_nat (searchsorted_left xe xmin) in
  let mx := Z.of_nat (searchsorted_left xe xmax) in
  let o := cast (qsum (zslice y mn (mx - 1))) in
  let oe := caste (qsum (zslice yerr mn (mx - 1))) in
  let s := inject_Z (mx - 1 - mn) in
  let! e_mn := zget xe mn in
  let! e_pr := zget xe (mn - 1) in
  let prev_frac := (e_mn - xmin) / (e_mn - e_pr) in
  let! y_pr := zget y (mn - 1) in
  let! ye_pr := zget yerr (mn - 1) in
  let o := cast (o + y_pr * prev_frac) in
  let oe := caste (oe + ye_pr * prev_frac) in
  let s := s + prev_frac in
  if (mx =? Z.of_nat (length xe))%Z then Ok (o, oe, s)
  else
    let! e_mx := zget xe mx in
    let! e_pm := zget xe (mx - 1) in
    let post_frac := (xmax - e_pm) / (e_mx - e_pm) in
    let! y_mx := zget y (mx - 1) in
    let! ye_mx := zget yerr (mx - 1) in
    Ok (cast (o + y_mx * post_frac), caste (oe + ye_mx * post_frac), s + post_frac).

(* stingray/utils.py:581 the loop over zip(xmins, xmaxs, ...): consecutive elements of xbin. *)
Fixpoint rebin_loop (cast caste : Q -> Q) (xe y yerr : list Q) (xbin : list Q) : result (list (Q * Q * Q)) :=
  match xbin with
  | a :: ((b :: _) as rest) =>
    let! v := rebin_one cast caste xe y yerr a b in
    let! r := rebin_loop cast caste xe y yerr rest in
    Ok (v :: r)
  | _ => Ok []
  end.

Definition mean (l : list Q) : Q := qsum l / inject_Z (Z.of_nat (length l)).
(* np.var *)
Definition variance (l : list Q) : Q := let m := mean l in mean (map (fun v => (v - m) * (v - m)) l).

(* What rebin_data returns; [r_err2] is the square of ybin_err (the code takes np.sqrt). *)
Record rebinned := { r_x : list Q; r_y : list Q; r_err2 : list Q; r_step : step_out }.

(* stingray/utils.py:489-631 rebin_data.  yerr = None stands for zeros_like(y). *)
Definition rebin_data (cast caste : Q -> Q) (x y : list Q) (dx_new : Q) (yerr : option (list Q))
           (method : rebin_method) (dx : dx_arg) : result rebinned :=
  let yerr := match yerr with Some l => l | None => map (fun _ => 0) y end in
  let dx_old := dx_old_of x dx in
  if existsb (fun d => qlt dx_new d) dx_old then Err ValueError
  else
    let! x_last := get_last x in
    let! d_last := get_last dx_old in
    let! x_first := get x 0 in
    let! d_first := get dx_old 0 in
    let xe := x ++ [x_last + d_last] in
    let xbin := arange x_first (x_last + d_last + dx_new) dx_new in
    let! _ := get y 0 in
    let! _ := get yerr 0 in
    let! out := rebin_loop cast caste xe y yerr xbin in
    let! ys := match method with
               | MMean => Ok (map (fun v => let '(o, oe, s) := v in (o / s, oe / (s * s))) out)
               | MSum => Ok (map (fun v => let '(o, oe, s) := v in (o, oe)) out)
               | MOther => Err ValueError
               end in
    let steps := map snd out in
    let tseg := x_last - x_first + d_last in
    let r := tseg / dx_new in
    let drop := qlt 0 (r - inject_Z (Qfloor r)) in
    let ys := if drop then removelast ys else ys in
    let steps := if drop then removelast steps else steps in
    let dx_var := variance dx_old / mean dx_old in
    let! step := if (Nat.eqb (length dx_old) 1 || qlt dx_var (1 # 1000000))%bool
                 then let! s := get steps 0 in Ok (StepScalar s) else Ok (StepArray steps) in
    let new_x0 := x_first - (1 # 2) * d_first + (1 # 2) * dx_new in
    Ok {| r_x := map (fun i => inject_Z (Z.of_nat i) * dx_new + new_x0) (seq 0 (length ys));
          r_y := map fst ys; r_err2 := map snd ys; r_step := step |}.

(* Storing into an integer array. *)
Definition to_int (v : Q) : Q := inject_Z (py_int v).

(* ---------- rebin_data_log ---------- *)
(* stingray/utils.py:694-699 the while loop growing the bin edges: [last] is the last edge so far, [dx] the
   last width.  Returns the edges appended. *)
Fixpoint log_edges (fuel : nat) (f maxx last dx : Q) : result (list Q) :=
  match fuel with
  | O => Err OutOfFuel
  | S k => if qle last maxx
           then let nxt := last + dx * (1 + f) in
                let! r := log_edges k f maxx nxt (nxt - last) in Ok (nxt :: r)
           else Ok []
  end.
(* scipy.stats.binned_statistic with explicit edges: sample v falls in bin i (from 0) when
   edges[i] <= v < edges[i+1], the last bin being closed on the right. *)
Fixpoint stat_bin (edges : list Q) (v : Q) : option nat :=
  match edges with
  | a :: ((b :: r) as rest) =>
    if qle a v && (qlt v b || (match r with [] => qeq v b | _ => false end)) then Some 0%nat
    else option_map S (stat_bin rest v)
  | _ => None
  end.
Definition in_stat_bin (edges : list Q) (i : nat) (v : Q) : bool :=
  match stat_bin edges v with Some j => Nat.eqb i j | None => false end.
Definition bin_values (edges : list Q) (i : nat) (xy : list (Q * Q)) : list Q :=
  map snd (filter (fun p => in_stat_bin edges i (fst p)) xy).
(* Mean of a bin; None stands for the nan of an empty bin. *)
Definition stat_mean (l : list Q) : option Q := match l with [] => None | _ => Some (mean l) end.
(* stingray/utils.py:466-468 _root_squared_mean, squared. *)
Definition root_squared_mean2 (l : list Q) : option Q :=
  match l with
  | [] => None
  | _ => let n := inject_Z (Z.of_nat (length l)) in Some (qsum (map (fun v => v * v) l) / (n * n))
  end.
(* stingray/utils.py:634-748 rebin_data_log for real y.  Returns the bin edges used, binx, biny, the square
   of biny_err, nsamples.  nsamples stops at the highest occupied bin (np.max(binno)); here binno counts
   from 1 and a sample outside all bins has binno 0 or nbins+1 (nbins+1 cannot occur: the last edge is
   above max(x)).  np.max of no samples raises ValueError (x[0] raises first). *)
Definition rebin_data_log (fuel : nat) (x y : list Q) (f : Q) (yerr : option (list Q)) (dx : option Q)
  : result (list Q * (list (option Q) * list (option Q) * list (option Q) * list nat)) :=
  let! dx_init := match dx with Some d => Ok d
                  | None => match median (diffs x) with Some d => Ok d | None => Err ValueError end end in
  let yerr := match yerr with Some l => l | None => map (fun _ => 0) y end in
  if negb (Nat.eqb (length x) (length y)) then Err ValueError
  else if negb (Nat.eqb (length y) (length yerr)) then Err ValueError
  else
    let! x0 := get x 0 in
    let! maxx := get_last x in
    let minx := x0 * (1 # 2) in
    let! more := log_edges fuel f maxx (minx + dx_init) dx_init in
    let edges := minx :: (minx + dx_init) :: more in
    let nb := (length edges - 1)%nat in
    let binno := map (fun v => match stat_bin edges v with Some j => S j | None => 0%nat end) x in
    let nmax := fold_right Nat.max 0%nat binno in
    Ok (edges,
        (map (fun i => stat_mean (bin_values edges i (combine x x))) (seq 0 nb),
         map (fun i => stat_mean (bin_values edges i (combine x y))) (seq 0 nb),
         map (fun i => root_squared_mean2 (bin_values edges i (combine x yerr))) (seq 0 nb),
         map (fun i => length (filter (Nat.eqb i) binno)) (seq 1 nmax))).

(* ---------- histograms ---------- *)
(* H[k] += w.  All call sites below check 0 <= k < len(H), except the third index of the 3-d ones. *)
Fixpoint add_at (H : list Q) (k : nat) (w : Q) : list Q :=
  match H, k with
  | [], _ => []
  | h :: H', O => (h + w) :: H'
  | h :: H', S k' => h :: add_at H' k' w
  end.
(* (x - ranges[0]) * (1 / ((ranges[1] - ranges[0]) / bins)) *)
Definition hist_pos (r : Q * Q) (bins : nat) (v : Q) : Q :=
  (v - fst r) * (1 / ((snd r - fst r) / inject_Z (Z.of_nat bins))).
Definition in_hist (bins : nat) (i : Q) : bool := (qle 0 i && qlt i (inject_Z (Z.of_nat bins)))%bool.

(* stingray/utils.py:1582-1591 _hist1d_numba_seq, on the zero array of stingray/utils.py:1671-1673.
   The counter array has the dtype of the data (no overflow of narrow integer types here). *)
Definition hist1d (tracks : list Q) (bins : nat) (r : Q * Q) : list Q :=
  fold_left (fun H t => let i := hist_pos r bins t in
                        if in_hist bins i then add_at H (Z.to_nat (py_int i)) 1 else H)
            tracks (repeat 0 bins).
(* stingray/utils.py:1807-1816 _hist1d_numba_seq_weight with 1869-1877; [cast] is the conversion to the dtype
   of the DATA (hist_arr is allocated with a.dtype, not with the dtype of the weights). *)
Definition hist1d_weight (cast : Q -> Q) (tracks weights : list Q) (bins : nat) (r : Q * Q) : list Q :=
  fold_left (fun H (tw : Q * Q) => let i := hist_pos r bins (fst tw) in
                        if in_hist bins i
                        then map cast (add_at H (Z.to_nat (py_int i)) (snd tw)) else H)
            (combine tracks weights) (repeat 0 bins).
(* stingray/utils.py:1678-1688 _hist2d_numba_seq and 1880-1890 _hist2d_numba_seq_weight (weights 1 for the
   former).  H[i, j] as a list of rows. *)
Fixpoint add_at2 (H : list (list Q)) (i j : nat) (w : Q) : list (list Q) :=
  match H, i with
  | [], _ => []
  | h :: H', O => add_at h j w :: H'
  | h :: H', S i' => h :: add_at2 H' i' j w
  end.
Definition hist2d_weight (tracks : list (Q * Q * Q)) (bx by_ : nat) (rx ry : Q * Q) : list (list Q) :=
  fold_left (fun H t => let '(x, y, w) := t in
                        let i := hist_pos rx bx x in
                        let j := hist_pos ry by_ y in
                        if in_hist bx i && in_hist by_ j
                        then add_at2 H (Z.to_nat (py_int i)) (Z.to_nat (py_int j)) w else H)
            tracks (repeat (repeat 0 by_) bx).
Definition hist2d (tracks : list (Q * Q)) (bx by_ : nat) (rx ry : Q * Q) : list (list Q) :=
  hist2d_weight (map (fun p => (fst p, snd p, 1)) tracks) bx by_ rx ry.

(* stingray/utils.py:1742-1753 _hist3d_numba_seq, 1951-1962 _hist3d_numba_seq_weight: the third coordinate is not
   compared with its range.  numba indexing without bounds check: a negative index counts from the end; an
   index outside the array is an out-of-bounds memory access, [Err IndexError] here. *)
Definition wrap_index (n : nat) (i : Z) : result nat :=
  if (0 <=? i)%Z && (i <? Z.of_nat n)%Z then Ok (Z.to_nat i)
  else if (i <? 0)%Z && (0 <=? i + Z.of_nat n)%Z then Ok (Z.to_nat (i + Z.of_nat n))
  else Err IndexError.
Fixpoint add_at3 (H : list (list (list Q))) (i j k : nat) (w : Q) : list (list (list Q)) :=
  match H, i with
  | [], _ => []
  | h :: H', O => add_at2 h j k w :: H'
  | h :: H', S i' => h :: add_at3 H' i' j k w
  end.
Fixpoint hist3d_loop (bx by_ bz : nat) (rx ry rz : Q * Q) (tracks : list (Q * Q * Q * Q))
         (H : list (list (list Q))) : result (list (list (list Q))) :=
  match tracks with
  | [] => Ok H
  | (x, y, z, w) :: rest =>
    let i := hist_pos rx bx x in
    let j := hist_pos ry by_ y in
    let k := hist_pos rz bz z in
    if in_hist bx i && in_hist by_ j
    then let! k := wrap_index bz (py_int k) in
         hist3d_loop bx by_ bz rx ry rz rest (add_at3 H (Z.to_nat (py_int i)) (Z.to_nat (py_int j)) k w)
    else hist3d_loop bx by_ bz rx ry rz rest H
  end.
Definition hist3d_weight (tracks : list (Q * Q * Q * Q)) (bx by_ bz : nat) (rx ry rz : Q * Q) :=
  hist3d_loop bx by_ bz rx ry rz tracks (repeat (repeat (repeat 0 bz) by_) bx).

(* stingray/utils.py:2022-2033 _index_arr, _index_set_arr: position of an index tuple in the flattened C-ordered
   array of shape [bins]: sum of index * stride. *)
Fixpoint flat_index (bins idx : list nat) : nat :=
  match bins, idx with
  | b :: bins', i :: idx' => i * fold_right Nat.mul 1 bins' + flat_index bins' idx'
  | _, _ => 0
  end%nat.
(* stingray/utils.py:2036-2052 _histnd_numba_seq with 2107-2109; each track is the list of its coordinates. *)
Fixpoint positions (rs : list (Q * Q)) (bins : list nat) (t : list Q) : list Q :=
  match rs, bins, t with
  | r :: rs', b :: bins', v :: t' => hist_pos r b v :: positions rs' bins' t'
  | _, _, _ => []
  end.
Definition all_in (bins : list nat) (pos : list Q) : bool :=
  forallb (fun bp => in_hist (fst bp) (snd bp)) (combine bins pos).
Definition histnd (tracks : list (list Q)) (bins : list nat) (rs : list (Q * Q)) : list Q :=
  fold_left (fun H t => let pos := positions rs bins t in
                        if all_in bins pos
                        then add_at H (flat_index bins (map (fun p => Z.to_nat (py_int p)) pos)) 1 else H)
            tracks (repeat 0 (fold_right Nat.mul 1%nat bins)).

(* numpy.histogram (numpy itself, used when numba is missing): bins are half open, the last one closed. *)
Definition np_histogram (tracks : list Q) (bins : nat) (r : Q * Q) : list Q :=
  map (fun k =>
    let lo := fst r + inject_Z (Z.of_nat k) * ((snd r - fst r) / inject_Z (Z.of_nat bins)) in
    let hi := fst r + inject_Z (Z.of_nat (S k)) * ((snd r - fst r) / inject_Z (Z.of_nat bins)) in
    inject_Z (Z.of_nat (length (filter (fun t => qle lo t &&
      (if Nat.eqb (S k) bins then qle t hi else qlt t hi))%bool tracks)))) (seq 0 bins).
(* stingray/utils.py:2112-2163, 2254-2278 histogram without weights. *)
Definition histogram (numba : bool) (tracks : list Q) (bins : nat) (r : Q * Q) : list Q :=
  if numba then hist1d tracks bins r else np_histogram tracks bins r.

(* stingray/utils.py:1538-1579 compute_bin. *)
Definition compute_bin (x : Q) (edges : list Q) : result (option Z) :=
  let n := (Z.of_nat (length edges) - 1)%Z in
  let! a_min := get edges 0 in
  let! a_max := get_last edges in
  if qeq x a_max then Ok (Some (n - 1)%Z)
  else let b := py_int (inject_Z n * (x - a_min) / (a_max - a_min)) in
       if (b <? 0)%Z || (n <=? b)%Z then Ok None else Ok (Some b).

(* ---------- small helpers ---------- *)
(* int.bit_length *)
Definition bit_length (z : Z) : Z := if (z =? 0)%Z then 0%Z else (Z.log2 (Z.abs z) + 1)%Z.
(* stingray/utils.py:1409-1427 nearest_power_of_two (argument already int(x)). *)
Definition nearest_power_of_two (x : Z) : Z :=
  let lower := if (x =? 0)%Z then 1%Z else (2 ^ bit_length (x - 2))%Z in
  let upper := if (x =? 0)%Z then 1%Z else (2 ^ bit_length (x - 1))%Z in
  if (x - lower <? upper - x)%Z then lower else upper.

(* stingray/utils.py:1430-1462 find_nearest; [left] selects side. *)
Definition find_nearest (array : list Q) (value : Q) (left : bool) : result (Q * Z) :=
  let idx := Z.of_nat (if left then searchsorted_left array value else searchsorted_right array value) in
  if (idx =? Z.of_nat (length array))%Z then
    let! a := zget array (idx - 1) in Ok (a, idx - 1)%Z
  else
    let! a := zget array (idx - 1) in
    let! b := zget array idx in
    if qlt (Qabs (value - a)) (Qabs (value - b)) then Ok (a, idx - 1)%Z else Ok (b, idx).

(* stingray/utils.py:1056-1098 fix_segment_size_to_integer_samples. *)
Definition fix_segment_size (segment_size dt tolerance : Q) : Q * Z :=
  let f := segment_size / dt in
  let n := if qlt (inject_Z (Qceiling f) - f) tolerance then Qceiling f else Qfloor f in
  (inject_Z n * dt, n).

(* stingray/utils.py:809-826 look_for_array_in_array. *)
Definition look_for_array_in_array (a1 a2 : list Q) : option Q := find (fun i => existsb (qeq i) a2) a1.

(* np.percentile(a, q) with linear interpolation, q in percent; IndexError stands for the failure on an empty
   array. *)
Definition percentile (l : list Q) (q : Q) : result Q :=
  let s := np_sort l in
  let v := q / 100 * inject_Z (Z.of_nat (length l) - 1) in
  let i := Z.to_nat (Qfloor v) in
  let! a := get s i in
  let! b := get s (Nat.min (S i) (length l - 1)) in
  Ok (a + (v - inject_Z (Qfloor v)) * (b - a)).
Fixpoint map_result {A B} (f : A -> result B) (l : list A) : result (list B) :=
  match l with [] => Ok [] | a :: l' => let! b := f a in let! r := map_result f l' in Ok (b :: r) end.
Definition qmin_list (l : list Q) : result Q := match l with [] => Err ValueError | a :: l' => Ok (fold_left qmin l' a) end.
Definition qmax_list (l : list Q) : result Q := match l with [] => Err ValueError | a :: l' => Ok (fold_left qmax l' a) end.
(* stingray/utils.py:2281-2334 equal_count_energy_ranges; np.linspace(0, 100, n+1)[1:-1] = 100 k / n, 0 < k < n. *)
Definition equal_count_energy_ranges (energies : list Q) (n : nat) (emin emax : option Q) : result (list Q) :=
  let! lo := match emin with Some e => Ok e | None => qmin_list energies end in
  let! hi := match emax with Some e => Ok e | None => qmax_list energies end in
  let en := match emin, emax with
            | None, None => energies
            | _, _ => filter (fun e => qle lo e && qle e hi)%bool energies end in
  if Nat.ltb 1 n then
    let! ps := map_result (fun k => percentile en (inject_Z (Z.of_nat k) * (100 / inject_Z (Z.of_nat n)))) (seq 1 (n - 1)) in
    Ok (lo :: ps ++ [hi])
  else Ok [lo; hi].

(* stingray/utils.py:2399-2412 _int_sum_non_zero. *)
Definition int_sum_non_zero (l : list Q) : Z :=
  fold_left (fun s a => if qlt 0 a then (s + py_int a)%Z else s) l 0%Z.

(* ---------- columns of n-dimensional arrays ---------- *)
(* Decimal digits as character codes ("0" = 48). *)
Fixpoint uint_chars (u : Decimal.uint) : list nat :=
  match u with
  | Decimal.Nil => []
  | Decimal.D0 v => 48 :: uint_chars v | Decimal.D1 v => 49 :: uint_chars v | Decimal.D2 v => 50 :: uint_chars v
  | Decimal.D3 v => 51 :: uint_chars v | Decimal.D4 v => 52 :: uint_chars v | Decimal.D5 v => 53 :: uint_chars v
  | Decimal.D6 v => 54 :: uint_chars v | Decimal.D7 v => 55 :: uint_chars v | Decimal.D8 v => 56 :: uint_chars v
  | Decimal.D9 v => 57 :: uint_chars v
  end%nat.
(* What follows "<label>_dim" in a key: the indices in decimal, joined by "_" (code 95). *)
Fixpoint key_chars (idx : list nat) : list nat :=
  match idx with
  | [] => []
  | [i] => uint_chars (Nat.to_uint i)
  | i :: idx' => uint_chars (Nat.to_uint i) ++ [95%nat] ++ key_chars idx'
  end.
(* Index tuples of an array of shape [dims], in C order. *)
Fixpoint all_indices (dims : list nat) : list (list nat) :=
  match dims with
  | [] => [[]]
  | d :: dims' => flat_map (fun i => map (cons i) (all_indices dims')) (seq 0 d)
  end.
(* stingray/utils.py:242-284 make_nd_into_arrays for an array of shape (N, *dims), given as its columns in C
   order: the dict's entries in insertion order.  An entry is (indices, column); its key is
   label ++ "_dim" ++ key_chars indices (the label has no "_dim" in it). *)
Definition make_nd_into_arrays {A} (dims : list nat) (columns : list A) : list (list nat * A) :=
  combine (all_indices dims) columns.
(* str comparison <= *)
Fixpoint str_le (a b : list nat) : bool :=
  match a, b with
  | [], _ => true
  | _, [] => false
  | x :: a', y :: b' => Nat.ltb x y || (Nat.eqb x y && str_le a' b')
  end.
(* sorted(keys) *)
Fixpoint key_insert {A} (e : list nat * A) (l : list (list nat * A)) : list (list nat * A) :=
  match l with
  | [] => [e]
  | e' :: l' => if str_le (key_chars (fst e)) (key_chars (fst e')) then e :: l else e' :: key_insert e l'
  end.
Definition sort_keys {A} (l : list (list nat * A)) : list (list nat * A) := fold_right key_insert [] l.
(* np.max([a, b], axis=0) *)
Fixpoint max_lists (a b : list nat) : list nat :=
  match a, b with x :: a', y :: b' => Nat.max x y :: max_lists a' b' | _, _ => [] end.
(* stingray/utils.py:287-312 get_dimensions_from_list_of_column_labels and 315-357 make_1d_arrays_into_nd: trailing
   shape and columns in C order of the returned array.  Reading the integers back from the key (regular
   expression and int()) is taken to give the indices the key was written from; TypeError when no key matches. *)
Definition make_1d_arrays_into_nd {A} (data : list (list nat * A)) : result (list nat * list A) :=
  match map fst data with
  | [] => Err TypeError
  | i :: is => Ok (map S (fold_left max_lists is i), map snd (sort_keys data))
  end.
