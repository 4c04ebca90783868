(* M_filters.v: model of the dead-time filters of stingray/filters.py.  Times are exact rationals. *)
From Verif Require Import Np.
Open Scope Q_scope.

(* stingray/filters.py:81-105 _paralyzable_dead_time: mask[1:][dead_time_end[:-1] > event_list[1:]] = False.
   [dts] is the array of dead times, one per event. *)
Fixpoint par_from (prev_end : Q) (ev : list (Q * Q)) : list bool :=
  match ev with
  | [] => []
  | (t, d) :: ev' => negb (qlt t prev_end) :: par_from (t + d) ev'
  end.
Definition paralyzable_dead_time (ev dts : list Q) : result (list bool) :=
  match combine ev dts with
  | [] => Ok []
  | (t, d) :: r => Ok (true :: par_from (t + d) r)
  end.

(* stingray/filters.py:108-130 _nonpar_core: dead_time_end[i-1], possibly overwritten in the previous
   iteration, is [prev_end]. *)
Fixpoint nonpar_core (prev_end : Q) (ev : list (Q * Q)) : list bool :=
  match ev with
  | [] => []
  | (t, d) :: ev' =>
    if qlt t prev_end then false :: nonpar_core prev_end ev' else true :: nonpar_core (t + d) ev'
  end.
(* stingray/filters.py:133-154 _non_paralyzable_dead_time; event_list[0] of an empty array raises
   IndexError; the shift by event_list[0] is dropped (exact arithmetic). *)
Definition non_paralyzable_dead_time (ev dts : list Q) : result (list bool) :=
  match combine ev dts with
  | [] => Err IndexError
  | (t, d) :: r => Ok (true :: nonpar_core (t + d) r)
  end.

(* stingray/filters.py:157-162 DeadtimeFilterOutput; [o_deadtime] is the array (the scalar input for zero
   dead time is the one-element list). *)
Record dt_output := { uf_events : list Q; is_event : list bool; o_deadtime : list Q; o_bkg : list Q }.
(* A mask alone, or the two-element list [mask, additional_output]. *)
Inductive dt_return := JustMask (m : list bool) | WithOutput (m : list bool) (o : dt_output).

(* stingray/filters.py:165-280 get_deadtime_mask.  [argsort] stands for np.argsort of the merged stream
   (ties in any order); [noise] for the values drawn by ra.normal when dt_sigma is given (one per event). *)
Definition get_deadtime_mask (argsort : list (Q * bool) -> list (Q * bool)) (ev : list Q) (deadtime : Q)
           (bkg : option (list Q)) (noise : option (list Q)) (paralyzable return_all : bool) : result dt_return :=
  let tot := match bkg with
             | Some b => argsort (map (fun t => (t, true)) ev ++ map (fun t => (t, false)) b)
             | None => map (fun t => (t, true)) ev
             end in
  let times := map fst tot in
  let kind := map snd tot in
  if qle deadtime 0 then
    if qlt deadtime 0 then Err ValueError
    else Ok (WithOutput (map (fun _ => true) ev)
               {| uf_events := times; is_event := kind; o_deadtime := [deadtime];
                  o_bkg := select times (map negb kind) |})
  else
    let dts := match noise with
               | Some l => map (fun x => if qlt x 0 then 0 else x) l
               | None => map (fun _ => 0 + deadtime) times
               end in
    let! mask := if paralyzable then paralyzable_dead_time times dts else non_paralyzable_dead_time times dts in
    let retval := select mask kind in
    Ok (if return_all
        then WithOutput retval
               {| uf_events := select times mask; is_event := select kind mask; o_deadtime := select dts mask;
                  o_bkg := select (select times mask) (map negb (select kind mask)) |}
        else JustMask retval).

(* stingray/filters.py:283-319 filter_for_deadtime on an array (events.py:775-784 apply_deadtime computes
   the same mask and applies it to every array attribute). *)
Definition filter_for_deadtime (argsort : list (Q * bool) -> list (Q * bool)) (ev : list Q) (deadtime : Q)
           (bkg : option (list Q)) (noise : option (list Q)) (paralyzable : bool) : result (list Q * dt_output) :=
  let! r := get_deadtime_mask argsort ev deadtime bkg noise paralyzable true in
  match r with
  | WithOutput m o => Ok (select ev m, o)
  | JustMask _ => Err ValueError    (* unreachable: return_all is True *)
  end.
