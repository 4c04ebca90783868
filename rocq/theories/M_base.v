(* M_base.v: model of stingray/base.py StingrayTimeseries and of the overriding methods of stingray/lightcurve.py:
   filtering, arithmetic, slicing, truncating, splitting, joining and rebinning.
   Array attributes are one-dimensional; they are named by numbers.  dt is a number. *)
From Verif Require Import Np Lib S_gti S_seg M_gti M_seg M_merge M_utils M_lc.
Open Scope Q_scope.

(* A time series.  time = [] stands for None.  [s_errs] holds the squares of the attributes ending in _err.  s_gti is
   the private _gti (None until set or read).  tstart/tseg exist in light curves and after truncate. *)
Record series := mkSeries {
  s_time : list Q; s_cols : list (nat * list Q); s_errs : list (nat * list Q); s_dt : Q; s_gti : option gtis;
  s_mjdref : Q; s_tstart : option Q; s_tseg : option Q }.
Definition with_gti (g : option gtis) (s : series) : series :=
  mkSeries (s_time s) (s_cols s) (s_errs s) (s_dt s) g (s_mjdref s) (s_tstart s) (s_tseg s).
Definition gti_eps : Q := 1 # 1000.   (* default epsilon of the GTI functions *)

(* stingray/base.py:1243-1252 gti property: the default covers all samples.  Reading stores it ([touch]). *)
Definition gti_of (s : series) : option gtis :=
  match s_gti s with
  | Some g => Some g
  | None => match get (s_time s) 0, get_last (s_time s) with
            | Ok a, Ok b => Some [(a - s_dt s / 2, b + s_dt s / 2)]
            | _, _ => None end
  end.
Definition touch (s : series) : series := with_gti (gti_of s) s.

(* stingray/base.py:723-778 apply_mask (all attributes); [f] is indexing by a boolean mask, a slice or an index array. *)
Definition map_cols (f : list Q -> list Q) (c : list (nat * list Q)) : list (nat * list Q) := map (fun p => (fst p, f (snd p))) c.
Definition apply_mask (f : list Q -> list Q) (inplace : bool) (s : series) : series :=
  mkSeries (f (s_time s)) (map_cols f (s_cols s)) (map_cols f (s_errs s)) (s_dt s)
    (if inplace then s_gti s else gti_of s) (s_mjdref s) (s_tstart s) (s_tseg s).

(* stingray/base.py:1360-1384 apply_gtis: the object afterwards and the returned one. *)
Definition apply_gtis (numba : bool) (new_gti : option gtis) (inplace : bool) (s : series) : result (series * series) :=
  let g := match new_gti with Some g => Some g | None => gti_of s end in
  match g with
  | None => Err TypeError
  | Some g =>
    let! _ := check_gtis g in
    let! m := create_gti_mask numba (s_time s) g (0, 0) 0 (Some (s_dt s)) gti_eps in
    let r := apply_mask (fun l => select l (fst m)) inplace s in
    if inplace then let r := with_gti (Some g) r in Ok (r, r) else Ok (touch s, r)
  end.

(* stingray/base.py:1534-1564 shift *)
Definition shift (d : Q) (s : series) : result series :=
  match s_time s with
  | [] => Err TypeError
  | t => Ok (mkSeries (map (fun x => x + d) t) (s_cols s) (s_errs s) (s_dt s)
               (option_map (map (fun iv => (fst iv + d, snd iv + d))) (s_gti s)) (s_mjdref s) (s_tstart s) (s_tseg s))
  end.
(* stingray/base.py:1507-1532 change_mjdref *)
Definition change_mjdref (m : Q) (s : series) : result series :=
  let! r := shift ((s_mjdref s - m) * 86400) s in
  Ok (mkSeries (s_time r) (s_cols r) (s_errs r) (s_dt r) (s_gti r) m (s_tstart r) (s_tseg r)).

(* np.array_equal *)
Fixpoint same_list (a b : list Q) : bool :=
  match a, b with [], [] => true | x :: a', y :: b' => (qeq x y && same_list a' b')%bool | _, _ => false end.
Fixpoint zip_with (f : Q -> Q -> Q) (a b : list Q) : list Q :=
  match a, b with x :: a', y :: b' => f x y :: zip_with f a' b' | _, _ => [] end.
Fixpoint find_col (k : nat) (c : list (nat * list Q)) : option (list Q) :=
  match c with [] => None | (k', v) :: c' => if Nat.eqb k' k then Some v else find_col k c' end.
(* attribute by attribute; a missing one raises AttributeError; one of another length (not an array attribute there)
   raises ValueError (broadcasting of single values is not modelled). *)
Fixpoint operate_cols (f : Q -> Q -> Q) (a b : list (nat * list Q)) : result (list (nat * list Q)) :=
  match a with
  | [] => Ok []
  | (k, v) :: a' =>
    match find_col k b with
    | None => Err AttributeError
    | Some w => if Nat.eqb (length v) (length w)
                then let! r := operate_cols f a' b in Ok ((k, zip_with f v w) :: r) else Err ValueError
    end
  end.
(* stingray/base.py:780-860 StingrayObject._operation_with_other_obj with default attributes; errors add in quadrature
   (sqsum, stingray/utils.py:2394-2396). *)
Definition operate_base (f : Q -> Q -> Q) (a b : series) : result series :=
  if same_list (s_time a) (s_time b) then
    let! c := operate_cols f (s_cols a) (s_cols b) in
    let! e := operate_cols Qplus (s_errs a) (s_errs b) in
    Ok (mkSeries (s_time a) c e (s_dt a) (gti_of a) (s_mjdref a) (s_tstart a) (s_tseg a))
  else Err ValueError.
(* np.array_equal on GTIs; None only for empty series *)
Definition same_gtis (a b : option gtis) : bool :=
  match a, b with
  | Some a, Some b => same_list (flatten a) (flatten b)
  | None, None => true
  | _, _ => false end.
(* stingray/base.py:1566-1626 StingrayTimeseries._operation_with_other_obj: the outcome, and both operands afterwards
   (apply_gtis works in place by default). *)
Definition operate (srt : list tagged -> list tagged) (numba : bool) (f : Q -> Q -> Q) (a b : series) : result series * series * series :=
  let other := if qeq (s_mjdref a) (s_mjdref b) then Ok b else change_mjdref (s_mjdref a) b in
  let keep_b (b' : series) := if qeq (s_mjdref a) (s_mjdref b) then b' else b in
  match other with
  | Err e => (Err e, a, b)
  | Ok o =>
    if same_gtis (gti_of a) (gti_of o) then (operate_base f (touch a) (touch o), touch a, keep_b (touch o))
    else match gti_of a, gti_of o with
         | Some ga, Some gb =>
           match cross_two_gtis srt ga gb with
           | Err e => (Err e, touch a, keep_b (touch o))
           | Ok g =>
             match apply_gtis numba (Some g) true (touch a) with
             | Err e => (Err e, touch a, keep_b (touch o))
             | Ok (a', _) =>
               match apply_gtis numba (Some g) true (touch o) with
               | Err e => (Err e, a', keep_b (touch o))
               | Ok (o', _) => (operate_base f a' o', a', keep_b o')
               end
             end
           end
         | _, _ => (Err TypeError, touch a, keep_b (touch o))
         end
  end.
(* stingray/base.py:872-990 add, sub, += and -=: they pass inplace=, which the override of lines 1566-1568 does not accept. *)
Definition operate_kw (f : Q -> Q -> Q) (a b : series) : result series * series * series := (Err TypeError, a, b).

(* Lightcurve arithmetic, stingray/lightcurve.py:560-634: one column (the counts) and its squared errors; same err_dist.
   The operands are not written to (beyond caches): [touch]. *)
Definition lc_operate (srt : list tagged -> list tagged) (numba : bool) (f : Q -> Q -> Q) (a b : series) : result series * series * series :=
  let other := if qeq (s_mjdref a) (s_mjdref b) then Ok b else change_mjdref (s_mjdref a) b in
  let out :=
    let! o := other in
    match gti_of a, gti_of o, s_cols a, s_cols o, s_errs a, s_errs o with
    | Some ga, Some gb, [(_, ca)], [(_, cb)], [(_, ea)], [(_, eb)] =>
      let! g := cross_two_gtis srt ga gb in
      let! ma := create_gti_mask numba (s_time a) g (0, 0) 0 (Some (s_dt a)) gti_eps in
      let! mb := create_gti_mask numba (s_time o) g (0, 0) 0 (Some (s_dt o)) gti_eps in
      let ta := select (s_time a) (fst ma) in
      let tb := select (s_time o) (fst mb) in
      if (Nat.eqb (length ta) (length tb) && forallb (fun d => qlt (Qabs d) (s_dt a / 100)) (zip_with Qminus ta tb))%bool
      then
        Ok (mkSeries ta [(0%nat, zip_with f (select ca (fst ma)) (select cb (fst mb)))]
              [(0%nat, zip_with Qplus (select ea (fst ma)) (select eb (fst mb)))] (s_dt a) (Some g) (s_mjdref a)
              (match ta with [] => None | t0 :: _ => Some (t0 - s_dt a / 2) end)
              (match get ta 0, get_last ta with Ok t0, Ok tl => Some (tl - t0 + s_dt a) | _, _ => None end))
      else Err ValueError
    | _, _, _, _, _, _ => Err TypeError
    end in
  (out, touch a, if qeq (s_mjdref a) (s_mjdref b) then touch b else b).

(* l[i:j:step] with step >= 1. *)
Fixpoint every_aux (A : Type) (step wait : nat) (l : list A) : list A :=
  match l with
  | [] => []
  | a :: l' => match wait with O => a :: every_aux A step (step - 1) l' | S w => every_aux A step w l' end
  end.
Definition every {A} (step : nat) (l : list A) : list A := every_aux A step 0 l.
Definition zslice_opt {A} (l : list A) (i : Z) (j : option Z) : list A :=
  zslice l i (match j with Some j => j | None => Z.of_nat (length l) end).
(* stingray/base.py:1684-1732 StingrayTimeseries.__getitem__ over 1049-1084; an integer i is the slice i:i+1. *)
Definition getitem (srt : list tagged -> list tagged) (s : series) (start : Z) (stop : option Z) (step : nat) : result series :=
  let f := fun A (l : list A) => every step (zslice_opt l start stop) in
  let time := f Q (s_time s) in
  match get time 0, get_last time, gti_of s with
  | Ok t0, Ok tl, Some g =>
    let d := s_dt s * (1 # 2) in
    let g0 := [(t0 - d, tl + d)] in
    let! g1 := if (1 <? step)%nat && qlt 0 d then cross_two_gtis srt g0 (map (fun t => (t - s_dt s / 2, t + s_dt s / 2)) time) else Ok g0 in
    let! g2 := cross_two_gtis srt g g1 in
    Ok (with_gti (Some g2) (apply_mask (f Q) false s))
  | _, _, _ => Err TypeError
  end.
Definition getitem_int (srt : list tagged -> list tagged) (s : series) (i : Z) : result series := getitem srt s i (Some (i + 1)%Z) 1.
(* stingray/lightcurve.py:718-775 Lightcurve.__getitem__ on slices: time[start], time[stop-1] are plain indexing. *)
Definition py_get {A} (l : list A) (i : Z) : result A :=
  if (i <? 0)%Z then (if (i + Z.of_nat (length l) <? 0)%Z then Err IndexError else get l (Z.to_nat (i + Z.of_nat (length l))))
  else get l (Z.to_nat i).
Definition lc_getitem (srt : list tagged -> list tagged) (s : series) (start : Z) (stop : option Z) (step : nat) : result series :=
  let stop := match stop with Some j => j | None => Z.of_nat (length (s_time s)) end in
  let f := fun l : list Q => every step (zslice l start stop) in
  let time := f (s_time s) in
  let! t0 := py_get (s_time s) start in
  let! tl := py_get (s_time s) (stop - 1) in
  match gti_of s with
  | None => Err TypeError
  | Some g =>
    let g0 := [(t0 - (1 # 2) * s_dt s, tl + (1 # 2) * s_dt s)] in
    let! g1 := if (1 <? step)%nat then cross_two_gtis srt g0 (map (fun t => (t - s_dt s / 2, t + s_dt s / 2)) time) else Ok g0 in
    let! g2 := cross_two_gtis srt g g1 in
    Ok (mkSeries time (map_cols f (s_cols s)) (map_cols f (s_errs s)) (s_dt s) (match time with [] => None | _ => Some g2 end) (s_mjdref s)
          (match time with [] => None | t :: _ => Some (t - (1 # 2) * s_dt s) end)
          (match get time 0, get_last time with Ok a, Ok b => Some (b - a + s_dt s) | _, _ => None end))
  end.

(* stingray/base.py:1793-1810 _truncate_by_index and 1785-1791: a new series with tstart and tseg from its GTIs.  An
   empty selection raises IndexError (time[0]), and so does an empty list of GTIs. *)
Definition truncate_by_index (srt : list tagged -> list tagged) (s : series) (start : Z) (stop : option Z) : result series :=
  let r := apply_mask (fun l => zslice_opt l start stop) false s in
  let! t0 := get (s_time r) 0 in
  let! tl := get_last (s_time r) in
  match gti_of s with
  | None => Err TypeError
  | Some g =>
    let! g' := cross_two_gtis srt g [(t0 - (1 # 2) * s_dt s, tl + (1 # 2) * s_dt s)] in
    let! first := get g' 0 in
    let! lst := get_last g' in
    Ok (mkSeries (s_time r) (s_cols r) (s_errs r) (s_dt r) (Some g') (s_mjdref r) (Some (fst first)) (Some (snd lst - fst first)))
  end.
(* stingray/base.py:1812-1842 _truncate_by_time *)
Definition truncate_by_time (srt : list tagged -> list tagged) (s : series) (start : Q) (stop : option Q) : result series :=
  if (match stop with Some e => qlt e start | None => false end) then Err ValueError
  else
    let i := if qeq start 0 then 0%Z else Z.of_nat (searchsorted_left (s_time s) start) in
    let j := option_map (fun e => Z.of_nat (searchsorted_left (s_time s) e)) stop in
    truncate_by_index srt s i j.

(* stingray/base.py:1386-1426 split_by_gti *)
Fixpoint split_loop (numba : bool) (s : series) (min_points : nat) (gb : list (ivl * (nat * nat))) : result (list series) :=
  match gb with
  | [] => Ok []
  | (iv, (start, stop)) :: gb' =>
    if (stop - start <? min_points)%nat then split_loop numba s min_points gb'
    else
      let! m := create_gti_mask numba (s_time s) [iv] (0, 0) 0 None gti_eps in
      let r := with_gti (Some [iv]) (apply_mask (fun l => select l (fst m)) false s) in
      let! rest := split_loop numba s min_points gb' in
      Ok (r :: rest)
  end.
Definition split_by_gti (numba : bool) (s : series) (gti : option gtis) (min_points : nat) : result (list series) :=
  match (match gti with Some g => Some g | None => gti_of s end) with
  | None => Err TypeError
  | Some g =>
    let! b := gti_border_bins g (s_time s) (s_dt s) gti_eps in
    split_loop numba s min_points (combine g b)
  end.

(* stingray/base.py:2167-2203 sort (and stingray/events.py:496-532): apply_mask with the indices of np.argsort, an
   unstable sort: [argsort] is any function. *)
Definition take_all (order : list nat) (l : list Q) : list Q := map (fun i => nth i l 0) order.
Definition sort_series (argsort : list Q -> list nat) (reverse inplace : bool) (s : series) : series :=
  let o := argsort (s_time s) in
  apply_mask (take_all (if reverse then rev o else o)) inplace s.

(* stingray/base.py:1869-2025 _join_timeseries, GTIs, times and array attributes; None is nan. *)
Record joined := mkJoined { j_time : list Q; j_cols : list (nat * list (option Q)); j_gti : option gtis; j_dt : list Q }.
(* 1921-1929: `for obj in others: ... others.remove(obj)` skips the element after a removed one. *)
Fixpoint drop_empty (skip : bool) (l : list series) : list series :=
  match l with
  | [] => []
  | s :: l' => if skip then s :: drop_empty false l'
               else match s_time s with [] => drop_empty true l' | _ => s :: drop_empty false l' end
  end.
Fixpoint col_names (l : list series) : list nat :=
  match l with [] => [] | s :: l' => nodup Nat.eq_dec (map fst (s_cols s) ++ col_names l') end.
(* 1981-1997: an attribute missing somewhere becomes nan there; np.concatenate fails on the 0-d array made from an empty
   series (ValueError). *)
Fixpoint concat_col (k : nat) (l : list series) : result (list (option Q)) :=
  match l with
  | [] => Ok []
  | s :: l' =>
    let! r := concat_col k l' in
    match find_col k (s_cols s), s_time s with
    | Some v, _ => Ok (map Some v ++ r)
    | None, [] => Err ValueError
    | None, t => Ok (map (fun _ => None) t ++ r)
    end
  end.
Fixpoint concat_cols (ks : list nat) (order : list nat) (l : list series) : result (list (nat * list (option Q))) :=
  match ks with
  | [] => Ok []
  | k :: ks' => let! c := concat_col k l in let! r := concat_cols ks' order l in
                Ok ((k, map (fun i => nth i c None) order) :: r)
  end.
(* 1934-1939: np.isclose(self.mjdref, other.mjdref, atol=1e-6 / 86400) keeps its default rtol = 1e-5. *)
Definition same_mjdref (a b : Q) : bool := np_isclose (1 # 100000) ((1 # 1000000) / 86400) a b.
Fixpoint rereference (m : Q) (l : list series) : result (list series) :=
  match l with
  | [] => Ok []
  | s :: l' => let! s' := if same_mjdref m (s_mjdref s) then Ok s else change_mjdref m s in
               let! r := rereference m l' in Ok (s' :: r)
  end.
Definition join_timeseries (s_end : list tagged -> list tagged) (s_start : gtis -> gtis) (s_edge : list edge -> list edge)
  (argsort : list Q -> list nat) (self : series) (others : list series) (st : strategy) : result joined :=
  match drop_empty false others with
  | [] => Ok (mkJoined (s_time self) (map (fun c => (fst c, map Some (snd c))) (s_cols self)) (s_gti self) [s_dt self])
  | l =>
    let! l := rereference (s_mjdref self) l in
    let all := self :: l in
    let! g := match filter (fun s => match s_gti s with Some _ => true | None => false end) all, st with
              | [], _ => Ok None
              | _, NoMerge => Ok None
              | _, _ => merge_gtis s_end s_start s_edge (map gti_of all) st
              end in
    let time := flat_map s_time all in
    let order := argsort time in
    let! cols := concat_cols (col_names all) order all in
    Ok (mkJoined (take_all order time) cols g
          (if forallb (fun s => qeq (s_dt s) (s_dt self)) all then [s_dt self] else take_all order (flat_map (fun s => map (fun _ => s_dt s) (s_time s)) all)))
  end.

(* stingray/base.py:2082-2165 StingrayTimeseries.rebin of one attribute without error bars, method "sum" or "mean":
   every GTI at least dt_new long is rebinned on its own.  The GTIs gathered (2149) are overwritten by the copy of the
   meta attributes (2160-2163: meta_attrs() ends with "gti"): the old GTIs stay. *)
Fixpoint rebin_gtis (dx : dx_arg) (time y : list Q) (dt_new : Q) (m : rebin_method) (g : gtis) : result (list Q * list Q * gtis) :=
  match g with
  | [] => Ok ([], [], [])
  | iv :: g' =>
    if qlt (snd iv - fst iv) dt_new then rebin_gtis dx time y dt_new m g'
    else
      let i := searchsorted_left time (fst iv) in
      let j := searchsorted_left time (snd iv) in
      let! r := rebin_data (fun v => v) (fun v => v) (slice time i j) (slice y i j) dt_new None m dx in
      let! rest := rebin_gtis dx time y dt_new m g' in
      Ok (r_x r ++ fst (fst rest), r_y r ++ snd (fst rest), iv :: snd rest)
  end.
Definition rebin_series (s : series) (dt_new : Q) (m : rebin_method) : result series :=
  if qlt dt_new (s_dt s) then Err ValueError
  else match gti_of s, s_cols s with
       | Some g, [(k, y)] =>
         let! r := rebin_gtis (DxScalar (s_dt s)) (s_time s) y dt_new m g in
         match snd r with
         | [] => Err ValueError
         | _ => Ok (mkSeries (fst (fst r)) [(k, snd (fst r))] [] dt_new (Some g) (s_mjdref s) (s_tstart s) (s_tseg s))
         end
       | _, _ => Err TypeError
       end.
(* stingray/lightcurve.py:906-983 Lightcurve.rebin of the counts (errors not modelled here): only the rebinned GTIs stay;
   rebin_data takes dx from the time array. *)
Definition lc_rebin (s : series) (dt_new : Q) (m : rebin_method) : result series :=
  if qlt dt_new (s_dt s) then Err ValueError
  else match gti_of s, s_cols s with
       | Some g, [(k, y)] =>
         let! r := rebin_gtis DxNone (s_time s) y dt_new m g in
         match snd r with
         | [] => Err ValueError
         | g' => let t := fst (fst r) in
                 Ok (mkSeries t [(k, snd (fst r))] [] dt_new (match t with [] => None | _ => Some g' end) (s_mjdref s)
                      (match t with [] => None | t0 :: _ => Some (t0 - (1 # 2) * dt_new) end)
                      (match get t 0, get_last t with Ok a, Ok b => Some (b - a + dt_new) | _, _ => None end))
         end
       | _, _ => Err TypeError
       end.
