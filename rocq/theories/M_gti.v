(* M_gti.v: model of stingray/gti.py.  Times are exact rationals. *)
From Verif Require Import Np.
Open Scope Q_scope.

(* A good time interval (start, stop); a GTI array is a list of them. *)
Notation ivl := (Q * Q)%type.
Notation gtis := (list (Q * Q)).

(* stingray/gti.py:55-74 get_gti_lengths: np.diff(gti, axis=1).flatten() *)
Definition get_gti_lengths (g : gtis) : list Q := map (fun iv => snd iv - fst iv) g.

(* stingray/gti.py:77-100 get_total_gti_length *)
Definition get_total_gti_length (g : gtis) (minlen : Q) : Q :=
  qsum (filter (fun l => qle minlen l) (get_gti_lengths g)).

(* stingray/gti.py:294-338 check_gtis.  The shape test (TypeError) is not representable: gtis is a
   list of pairs by typing. *)
Definition check_gtis (g : gtis) : result unit :=
  match g with
  | [] => Err ValueError
  | _ =>
    if negb (forallb (fun iv : ivl => qle (fst iv) (snd iv)) g) then Err ValueError
    else if negb (forallb (fun p : ivl * ivl => qle (snd (fst p)) (fst (snd p))) (combine g (tl g))) then Err ValueError
    else Ok tt
  end.

(* stingray/gti.py:931-961 join_equal_gti_boundaries: the while loop.  new_gtis[count] is [cur], with
   its start possibly moved back; its end is the original one, as in [touching].
   An empty array raises IndexError (gti[:-1, 1] on a 1-d empty array). *)
Fixpoint join_equal_loop (threshold : Q) (cur : ivl) (rest : gtis) : gtis :=
  match rest with
  | [] => [cur]
  | nxt :: rest' =>
    if qle (Qabs (snd cur - fst nxt)) threshold
    then join_equal_loop threshold (fst cur, snd nxt) rest'
    else cur :: join_equal_loop threshold nxt rest'
  end.
Definition join_equal_gti_boundaries (g : gtis) (threshold : Q) : result gtis :=
  match g with
  | [] => Err IndexError
  | iv :: rest => Ok (join_equal_loop threshold iv rest)
  end.

(* One entry of the merged end series of cross_two_gtis: (start, end, tag), tag = true for gti1. *)
Notation tagged := (Q * Q * bool)%type.
Definition t_start (x : tagged) : Q := fst (fst x).
Definition t_end (x : tagged) : Q := snd (fst x).
Definition t_tag (x : tagged) : bool := snd x.

(* stingray/gti.py:723-731 (inside the try): position of np.argmax(starts[starts < e]); Err when no
   start is < e (np.argmax of an empty array raises and the code does `continue`). *)
Definition opening_pos (starts : list Q) (e : Q) : result nat :=
  argmax (filter (fun s => qlt s e) starts).

(* stingray/gti.py:716-750: one iteration of the loop over conc_end.  State: (last_end, final_gti in
   reverse order).  [gs k], [ge k] are gti_start[k], gti_end[k]. *)
Definition cross_step (gs ge : bool -> list Q) (max_end : Q)
           (st : Q * gtis) (x : tagged) : Q * gtis :=
  let e := t_end x in
  let this := t_tag x in
  let other := negb this in
  match opening_pos (gs this) e, opening_pos (gs other) e with
  | Ok st_pos, Ok so_pos =>
    match nth_error (gs this) st_pos, nth_error (gs other) so_pos, nth_error (ge other) so_pos with
    | Some s_t, Some s_o, Some e_o =>
      let s := qmax s_t s_o in
      if qle s (fst st) then st
      else
        let cond1 := existsb (fun y => qlt s y && qlt y e) (ge other) in
        let cond2 := qlt e_o s in
        let condition := cond1 || cond2 || qlt max_end e in
        if condition then st else (e, (s, e) :: snd st)
    | _, _, _ => st
    end
  | _, _ => st
  end.

(* stingray/gti.py:646-752 cross_two_gtis.  [argsort_by_end] stands for `order = np.argsort(conc_end)`
   followed by indexing; numpy does not specify the order of equal ends, so the sorter is a parameter. *)
Definition tag_list (b : bool) (g : gtis) : list tagged := map (fun iv => (fst iv, snd iv, b)) g.
Definition cross_two_gtis (argsort_by_end : list tagged -> list tagged) (g0 g1 : gtis) : result gtis :=
  let! g0 := join_equal_gti_boundaries g0 0 in
  let! g1 := join_equal_gti_boundaries g1 0 in
  let! _ := check_gtis g0 in
  let! _ := check_gtis g1 in
  let gs := fun b : bool => map fst (if b then g1 else g0) in
  let ge := fun b : bool => map snd (if b then g1 else g0) in
  let conc := argsort_by_end (tag_list false g0 ++ tag_list true g1) in
  match conc, rev conc with
  | first :: _, _ :: second_last :: _ =>
    let last_end := t_start first - 1 in
    let max_end := t_end second_last in
    Ok (rev (snd (fold_left (cross_step gs ge max_end) conc (last_end, []))))
  | _, _ => Err IndexError
  end.

(* stingray/gti.py:755-800 cross_gtis.  gti_list[0] on an empty collection raises IndexError. *)
Fixpoint cross_gtis_loop (srt : list tagged -> list tagged) (acc : gtis) (rest : list gtis) : result gtis :=
  match rest with
  | [] => Ok acc
  | g :: rest' =>
    let! acc' := cross_two_gtis srt acc g in
    match acc' with [] => Ok [] | _ => cross_gtis_loop srt acc' rest' end
  end.
Fixpoint check_all (l : list gtis) : result unit :=
  match l with [] => Ok tt | g :: l' => let! _ := check_gtis g in check_all l' end.
Definition cross_gtis (srt : list tagged -> list tagged) (l : list gtis) : result gtis :=
  let! _ := check_all l in
  match l with
  | [] => Err IndexError
  | g0 :: rest => cross_gtis_loop srt g0 rest
  end.

(* stingray/gti.py:803-852 get_btis.  The zip of flat_gtis[1:-2:2] and flat_gtis[2:-1:2] pairs each
   interval's end with the next interval's start. *)
Fixpoint gaps (g : gtis) : gtis :=
  match g with
  | a :: ((b :: _) as g') => (snd a, fst b) :: gaps g'
  | _ => []
  end.
Definition get_btis (g : gtis) (start_time stop_time : option Q) : result gtis :=
  match g with
  | [] =>
    match start_time, stop_time with
    | Some a, Some b => Ok [(a, b)]
    | _, _ => Err ValueError
    end
  | g0 :: _ =>
    let! _ := check_gtis g in
    let gl := last g g0 in
    let start := match start_time with Some a => a | None => fst g0 end in
    let stop := match stop_time with Some b => b | None => snd gl end in
    Ok ((if qle (fst g0) start then [] else [(start, fst g0)])
        ++ gaps g
        ++ (if qlt (snd gl) stop then [(snd gl, stop)] else []))
  end.

(* stingray/gti.py:855-874 _check_separate (both arrays non-empty). *)
Definition flatten (g : gtis) : list Q := flat_map (fun iv => [fst iv; snd iv]) g.
Definition touches_any (g : gtis) (x : Q) : bool :=
  existsb (fun iv => qle x (snd iv) && qle (fst iv) x) g.
Definition check_separate_core (g0 g1 : gtis) (f0 l0 f1 l1 : ivl) : bool :=
  if qle (snd l0) (fst f1) || qle (snd l1) (fst f0) then true
  else if existsb (touches_any g0) (flatten g1) then false
  else if existsb (touches_any g1) (flatten g0) then false
  else true.
(* stingray/gti.py:877-928 check_separate.  The common shift by t0 and the cast to double are dropped
   (exact arithmetic, all comparisons are shift invariant). *)
Definition check_separate (g0 g1 : gtis) : result bool :=
  match g0, g1 with
  | f0 :: _, f1 :: _ =>
    let! _ := check_gtis g0 in
    let! _ := check_gtis g1 in
    Ok (check_separate_core g0 g1 f0 (last g0 f0) f1 (last g1 f1))
  | _, _ => Ok true
  end.

(* stingray/gti.py:1039-1080 append_gtis.  [argsort_by_start] stands for np.argsort(new_gtis[:, 0]). *)
Definition append_gtis (argsort_by_start : gtis -> gtis) (g0 g1 : gtis) : result gtis :=
  let! _ := check_gtis g0 in
  let! _ := check_gtis g1 in
  let! sep := check_separate g0 g1 in
  if negb sep then Err ValueError
  else join_equal_gti_boundaries (argsort_by_start (g0 ++ g1)) 0.

(* stingray/gti.py:1083-1177 join_gtis: the sweep.  Edges carry type -1 (opening) or 1 (closing). *)
Notation edge := (Q * Z)%type.
Definition edges (g : gtis) : list edge := flat_map (fun iv => [(fst iv, -1); (snd iv, 1)]%Z) g.
Fixpoint cumsum (acc : Z) (l : list Z) : list Z :=
  match l with [] => [] | x :: l' => (acc + x)%Z :: cumsum (acc + x)%Z l' end.
(* np.roll(l, -1) and np.roll(l, 1) *)
Definition roll_left {A} (l : list A) : list A := match l with [] => [] | a :: l' => l' ++ [a] end.
Definition roll_right {A} (l : list A) : list A :=
  match rev l with [] => [] | a :: r => a :: rev r end.
(* stingray/gti.py:1151-1177: np.sort(final_gti, axis=0) sorts each column separately. *)
Definition sort_columns (g : gtis) : gtis := combine (np_sort (map fst g)) (np_sort (map snd g)).
Definition sweep (ev : list edge) : gtis :=
  let g_all := map fst ev in
  let sums := cumsum 0 (map snd ev) in
  let closing := map (fun p : Z * (Q * Q) => (fst p =? 0)%Z && negb (qeq (fst (snd p)) (snd (snd p))))
                     (combine sums (combine g_all (roll_left g_all))) in
  let starting := roll_right closing in
  sort_columns (combine (select g_all starting) (select g_all closing)).
Definition join_gtis (argsort_by_start : gtis -> gtis) (argsort_edges : list edge -> list edge)
           (g0 g1 : gtis) : result gtis :=
  let! _ := check_gtis g0 in
  let! _ := check_gtis g1 in
  let! sep := check_separate g0 g1 in
  if sep then append_gtis argsort_by_start g0 g1
  else Ok (sweep (argsort_edges (edges g0 ++ edges g1))).
