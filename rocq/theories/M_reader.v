(* M_reader.v: model of the index look-up and of the splitting of event files of
   stingray/io.py (FITSTimeseriesReader), and of two header and calibration look-ups. *)
From Coq Require Import String Ascii.
From Verif Require Import Np M_gti M_seg M_utils.
Open Scope Q_scope.

(* stingray/io.py:640-760 FITSTimeseriesReader: what the modelled methods use of the object.  A row of
   the event table is its TIME and the rest of the columns; the length of the table is NAXIS2.  The
   reader has no detector column (no re-reading of the GTIs while slicing) and no mission-specific
   processing of the rows; the conversions of the other columns act on each row alone and are left
   out.  The GTIs were read from the file (a list, not None). *)
Record reader (A : Type) := { rd_rows : list (Q * A); rd_zero : Q; rd_gti : gtis }.
Arguments rd_rows {A} _.
Arguments rd_zero {A} _.
Arguments rd_gti {A} _.
Definition rd_times {A} (rd : reader A) : list Q := map fst (rd_rows rd).
(* the attributes _time_edges and _idx_edges, absent at the beginning *)
Notation edges_cache := (option (list Q * list nat)).

(* np.linspace(0, size - 1, n).astype(int): the rounding of the floating-point products is left out
   (i * (size - 1) / (n - 1) rounded down); one point gives 0. *)
Definition index_grid (size n : nat) : list nat :=
  map (fun i => ((i * (size - 1)) / (n - 1))%nat) (seq 0 n).
(* all numbers of a list of intervals (np.min and np.max of the two-dimensional array) *)
Definition gti_flat (g : gtis) : list Q := flat_map (fun iv => [fst iv; snd iv]) g.
(* x[0] = v, x[-1] = v *)
Definition set_first (v : Q) (l : list Q) : list Q := match l with [] => [] | _ :: l' => v :: l' end.
Definition set_last (v : Q) (l : list Q) : list Q := match l with [] => [] | _ => removelast l ++ [v] end.

(* stingray/io.py:1203-1223 _trace_nphots_in_file: the part after the test of the stored edges; a negative
   number of points is a ValueError of np.zeros, none an IndexError. *)
Definition trace_fresh {A} (rd : reader A) (nedges : Z) : result (list Q * list nat) :=
  let size := length (rd_rows rd) in
  let nedges := Z.min nedges (Z.of_nat (size / 10 + 2)) in
  if (nedges <? 0)%Z then Err ValueError else
  let idx := index_grid size (Z.to_nat nedges) in
  let! te := map_result (get (rd_times rd)) idx in
  let! mingti := qmin_list (gti_flat (rd_gti rd)) in
  let! maxgti := qmax_list (gti_flat (rd_gti rd)) in
  let! e0 := get te 0 in
  let te := if qlt mingti e0 then set_first mingti te else te in
  let! e1 := get_last te in
  let te := if qlt e1 maxgti then set_last maxgti te else te in
  Ok (te, idx).
(* stingray/io.py:1179-1223 _trace_nphots_in_file; the result is also what is stored. *)
Definition trace_nphots {A} (rd : reader A) (cache : edges_cache) (nedges : Z) : result (list Q * list nat) :=
  match cache with
  | Some (te, ie) => if (nedges <=? Z.of_nat (length te))%Z then Ok (te, ie) else trace_fresh rd nedges
  | None => trace_fresh rd nedges
  end.

(* stingray/io.py:1069-1122 _get_idx_from_time_range: first and last row (the last can be -1), and the edges
   stored by the call.  exposure // 0 is inf or nan, which int() refuses (OverflowError or ValueError, both
   written ValueError). *)
Definition get_idx {A} (rd : reader A) (cache : edges_cache) (start stop : Q) : result (Z * Z * (list Q * list nat)) :=
  if qeq start stop then Err ValueError else
  let! edges := trace_nphots rd cache (Qfloor (get_total_gti_length (rd_gti rd) 0 / (stop - start)) + 2)%Z in
  let te := fst edges in
  let ie := snd edges in
  let raw_min := (searchsorted_left te start - 2)%nat in
  let raw_max := Nat.min (length te - 1) (searchsorted_right te stop + 2) in
  let! raw_lower := get ie raw_min in
  let! raw_upper := get ie raw_max in
  let! t0 := get te raw_min in
  let! t1 := get te raw_max in
  if negb (qle 0 (start - t0)) then Err AssertionError else
  if negb (qle 0 (t1 - stop)) then Err AssertionError else
  let filtered := slice (rd_times rd) raw_lower (raw_upper + 1) in
  Ok (Z.of_nat (searchsorted_left filtered start) + Z.of_nat raw_lower,
      Z.of_nat (searchsorted_left filtered stop) - 1 + Z.of_nat raw_lower, edges)%Z.

(* Consecutive calls on the same object. *)
Fixpoint get_idx_all {A} (rd : reader A) (cache : edges_cache) (l : list (Q * Q)) : result (list (Z * Z)) :=
  match l with
  | [] => Ok []
  | q :: l' => let! r := get_idx rd cache (fst q) (snd q) in
               let! rest := get_idx_all rd (Some (snd r)) l' in
               Ok (fst r :: rest)
  end.

(* stingray/io.py:792-889 __getitem__, transform_slice, _transform_slice_into_events on the rows a .. b-1:
   times and GTIs are shifted by timezero. *)
Definition shift_row {A} (z : Q) (r : Q * A) : Q * A := (fst r + z, snd r).
Definition shift_gti (z : Q) (g : gtis) : gtis := map (fun iv => (fst iv + z, snd iv + z)) g.
Definition getitem {A} (rd : reader A) (rows : list (Q * A)) : list (Q * A) * gtis :=
  (map (shift_row (rd_zero rd)) rows, shift_gti (rd_zero rd) (rd_gti rd)).

(* stingray/io.py:1148-1150: the first new list is the list of the reader to within 1e-3 *)
Definition same_gti (g h : gtis) : bool :=
  (Nat.eqb (length g) (length h) &&
   forallb (fun p => qlt (Qabs (fst p - snd p)) (1 # 1000)) (combine (gti_flat g) (gti_flat h)))%bool.
(* stingray/io.py:1160-1177: the loop of apply_gti_lists; ev.gti = gti, not shifted. *)
Fixpoint apply_loop {A} (rd : reader A) (cache : edges_cache) (l : list gtis) : result (list (list (Q * A) * gtis)) :=
  match l with
  | [] => Ok []
  | [] :: l' => apply_loop rd cache l'
  | (iv :: g) :: l' =>
    let g0 := iv :: g in
    let! lst := get_last g0 in
    let! r := get_idx rd cache (fst iv) (snd lst) in
    let ev := getitem rd (slice (rd_rows rd) (Z.to_nat (fst (fst r))) (Z.to_nat (snd (fst r) + 1))) in
    let! rest := apply_loop rd (Some (snd r)) l' in
    Ok ((fst ev, g0) :: rest)
  end.
(* stingray/io.py:1124-1177 apply_gti_lists with root_file_name = None: everything the generator yields; an
   exception after some pieces is an exception of the whole. *)
Definition apply_gti_lists {A} (rd : reader A) (cache : edges_cache) (l : list gtis) : result (list (list (Q * A) * gtis)) :=
  let! g0 := get l 0 in
  if same_gti g0 (rd_gti rd) then Ok [getitem rd (rd_rows rd)] else apply_loop rd cache l.

(* stingray/io.py:1225-1252 split_by_number_of_samples; nphot is the number of rows.  With no interval the
   exposure per interval is inf and split_gtis_by_exposure gives back the list (gti.py:1815-1817). *)
Definition split_by_number {A} (rd : reader A) (cache : edges_cache) (nsamples : Z) : result (list (list (Q * A) * gtis)) :=
  if (nsamples =? 0)%Z then Err ZeroDivisionError else
  let n := rint (inject_Z (Z.of_nat (length (rd_rows rd))) / inject_Z nsamples) in
  let! lists := if (n =? 0)%Z then Ok [rd_gti rd]
                else split_gtis_by_exposure (rd_gti rd) (get_total_gti_length (rd_gti rd) 0 / inject_Z n) None in
  apply_gti_lists rd cache lists.

(* stingray/io.py:1254-1286 filter_at_time_intervals, list of intervals *)
Definition filter_at {A} (srt : list tagged -> list tagged) (rd : reader A) (cache : edges_cache) (ints : list (Q * Q)) (check : bool)
  : result (list (list (Q * A) * gtis)) :=
  let! lists := if check then map_result (fun iv => cross_two_gtis srt (rd_gti rd) [iv]) ints
                else Ok (map (fun iv => [iv]) ints) in
  apply_gti_lists rd cache lists.

(* stingray/io.py:140-176 high_precision_keyword_read; the header as a list of keys and values, one value
   for each key.  np.longdouble is exact here. *)
Fixpoint hdr_get (hdr : list (string * Q)) (k : string) : result Q :=
  match hdr with
  | [] => Err KeyError
  | p :: hdr' => if String.eqb (fst p) k then Ok (snd p) else hdr_get hdr' k
  end.
Definition keyword_read (hdr : list (string * Q)) (keyword : string) : option Q :=
  match hdr_get hdr keyword with
  | Ok v => Some v
  | Err _ =>
    let keyword := if Nat.eqb (String.length keyword) 8 then substring 0 7 keyword else keyword in
    match (let! v := hdr_get hdr (keyword ++ "I")%string in let! w := hdr_get hdr (keyword ++ "F")%string in Ok (v + w)) with
    | Ok v => Some v
    | Err _ => None
    end
  end.

(* stingray/io.py:94-118 pi_to_energy on the table (channel, lowest and highest energy) of the RMF file:
   the loop over the channels writes the energies of the events of that channel. *)
Definition write_channel (pis : list Z) (es : list Q) (row : Z * (Q * Q)) : list Q :=
  map (fun p => if (fst p =? fst row)%Z then (fst (snd row) + snd (snd row)) / 2 else snd p) (combine pis es).
Definition pi_to_energy (pis : list Z) (rmf : list (Z * (Q * Q))) : list Q :=
  fold_left (write_channel pis) rmf (repeat 0 (length pis)).
