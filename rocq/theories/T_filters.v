(* T_filters.v: property theorems about the dead-time filters (C15-C17). *)
From Verif Require Import Np Lib S_gti S_seg M_gti M_seg P_seg_cut S_filters M_filters P_filters.
From Coq Require Import Permutation.
Open Scope Q_scope.

(* ---------- C15 ---------- *)
(* Any dead times, one per event; events in any order. *)
Theorem C15_nonparalyzable_exact : forall ev dts,
  ev <> [] -> length dts = length ev ->
  exists m, non_paralyzable_dead_time ev dts = Ok m /\ nonparalyzable_record ev dts m.
Proof. exact nonparalyzable_main. Qed.
Print Assumptions C15_nonparalyzable_exact.
Theorem C15_record_unique : forall ev dts m m',
  nonparalyzable_record ev dts m -> nonparalyzable_record ev dts m' -> m = m'.
Proof. exact nonparalyzable_unique. Qed.
Print Assumptions C15_record_unique.
(* First event kept, kept events one dead time apart, every dropped event within one dead time of a kept one. *)
Theorem C15_consequences : forall ev d m,
  0 <= d -> nondecreasing ev -> nonparalyzable_record ev (const_dt d ev) m ->
  (ev <> [] -> nth_error m 0 = Some true) /\
  (forall i j t u, (j < i)%nat -> nth_error m i = Some true -> nth_error m j = Some true ->
     nth_error ev i = Some t -> nth_error ev j = Some u -> u + d <= t) /\
  (forall i t, nth_error ev i = Some t -> nth_error m i = Some false ->
     exists j u, (j < i)%nat /\ nth_error m j = Some true /\ nth_error ev j = Some u /\ u <= t /\ t < u + d).
Proof. exact record_consequences. Qed.
Print Assumptions C15_consequences.
Theorem C15_idempotent : forall ev d m,
  0 <= d -> nondecreasing ev ->
  non_paralyzable_dead_time ev (const_dt d ev) = Ok m ->
  non_paralyzable_dead_time (kept ev m) (const_dt d (kept ev m)) = Ok (map (fun _ => true) (kept ev m)).
Proof. exact dead_time_idempotent. Qed.
Print Assumptions C15_idempotent.

Example C15_nonvacuous : nondecreasing [0; 1; 2; 3; 3; 7] /\
  non_paralyzable_dead_time [0; 1; 2; 3; 3; 7] (const_dt 2 [0; 1; 2; 3; 3; 7]) = Ok [true; false; true; false; false; true] /\
  kept [0; 1; 2; 3; 3; 7] [true; false; true; false; false; true] = [0; 2; 7].
Proof. split; [apply is_sorted_iff; reflexivity|]. split; reflexivity. Qed.

Theorem C15_empty_refuted : exists ev dts, nondecreasing ev /\ non_paralyzable_dead_time ev dts = Err IndexError.
Proof. exists [], []. split; [intros [|i] j x y _ H; discriminate|reflexivity]. Qed.
Print Assumptions C15_empty_refuted.

(* ---------- C16 ---------- *)
Theorem C16_paralyzable_exact : forall ev dts,
  length dts = length ev ->
  exists m, paralyzable_dead_time ev dts = Ok m /\ paralyzable_record ev dts m.
Proof. exact paralyzable_main. Qed.
Print Assumptions C16_paralyzable_exact.
Theorem C16_subset : forall ev d mp mn,
  nondecreasing ev ->
  paralyzable_record ev (const_dt d ev) mp -> nonparalyzable_record ev (const_dt d ev) mn ->
  forall i, nth_error mp i = Some true -> nth_error mn i = Some true.
Proof. exact par_subset_nonpar. Qed.
Print Assumptions C16_subset.

Example C16_nonvacuous : nondecreasing [0; 1; 2; 3; 3; 7] /\
  paralyzable_dead_time [0; 1; 2; 3; 3; 7] (const_dt 2 [0; 1; 2; 3; 3; 7]) = Ok [true; false; false; false; false; true].
Proof. split; [apply is_sorted_iff; reflexivity|reflexivity]. Qed.

(* Outside the property (constant dead time): with per-event dead times the inclusion fails. *)
Theorem C16_varying_refuted : 
  exists ev dts mp mn i, increasing ev /\ Forall (fun d => 0 <= d) dts /\
  paralyzable_dead_time ev dts = Ok mp /\ non_paralyzable_dead_time ev dts = Ok mn /\
  nth_error mp i = Some true /\ nth_error mn i = Some false.
Proof. exact par_subset_varying. Qed.
Print Assumptions C16_varying_refuted.

(* ---------- C17 ---------- *)
(* Sorted source events.  [stream] is what the detector sees, [record] its response; the mask is the response
   restricted to the source events, in their order.  Missing: unsorted source lists (refuted below). *)
Theorem C17_background_partial : forall srt ev bkg d (par : bool),
  sorts_by fst srt -> 0 < d -> nondecreasing ev -> (ev <> [] \/ bkg <> []) ->
  exists stream record mask,
    Permutation stream (map (fun t => (t, true)) ev ++ map (fun t => (t, false)) bkg) /\
    nondecreasing (map fst stream) /\
    (if par then paralyzable_record (map fst stream) (const_dt d (map fst stream)) record
     else nonparalyzable_record (map fst stream) (const_dt d (map fst stream)) record) /\
    get_deadtime_mask srt ev d (Some bkg) None par false = Ok (JustMask mask) /\
    get_deadtime_mask srt ev d (Some bkg) None par true = Ok (WithOutput mask
      {| uf_events := kept (map fst stream) record; is_event := kept (map snd stream) record;
         o_deadtime := kept (map (fun _ => 0 + d) (map fst stream)) record;
         o_bkg := kept (map fst stream) (map (fun p => fst p && negb (snd p))%bool (combine record (map snd stream))) |}) /\
    length mask = length ev /\
    mask = kept record (map snd stream) /\ Forall2 Qeq ev (kept (map fst stream) (map snd stream)).
Proof. exact background_main. Qed.
Print Assumptions C17_background_partial.
Theorem C17_no_background : forall srt ev d (par all : bool),
  ev <> [] -> 0 < d ->
  exists record, get_deadtime_mask srt ev d None None par all =
    Ok (if all then WithOutput record {| uf_events := kept ev record; is_event := kept (map (fun _ => true) ev) record;
          o_deadtime := kept (map (fun _ => 0 + d) ev) record; o_bkg := [] |} else JustMask record) /\
    (if par then paralyzable_record ev (map (fun _ => 0 + d) ev) record else nonparalyzable_record ev (map (fun _ => 0 + d) ev) record).
Proof. exact no_background. Qed.
Print Assumptions C17_no_background.
Theorem C17_filter_no_background : forall srt ev d (par : bool),
  ev <> [] -> 0 < d ->
  exists record o, filter_for_deadtime srt ev d None None par = Ok (kept ev record, o) /\ uf_events o = kept ev record /\ o_bkg o = [] /\
    (if par then paralyzable_record ev (map (fun _ => 0 + d) ev) record else nonparalyzable_record ev (map (fun _ => 0 + d) ev) record).
Proof. exact filter_no_background. Qed.
Print Assumptions C17_filter_no_background.
Theorem C17_random_dead_time : forall srt ev d noise (par : bool),
  ev <> [] -> 0 < d -> length noise = length ev ->
  exists record, get_deadtime_mask srt ev d None (Some noise) par false = Ok (JustMask record) /\
    (if par then paralyzable_record ev (map (fun x => if qlt x 0 then 0 else x) noise) record
     else nonparalyzable_record ev (map (fun x => if qlt x 0 then 0 else x) noise) record).
Proof. exact noise_main. Qed.
Print Assumptions C17_random_dead_time.
Theorem C17_negative_rejected : forall srt ev bkg noise par all d,
  d < 0 -> get_deadtime_mask srt ev d bkg noise par all = Err ValueError.
Proof. exact negative_dead_time. Qed.
Print Assumptions C17_negative_rejected.

Example C17_nonvacuous : nondecreasing [0; 1; 4] /\
  get_deadtime_mask (isort_by fst) [0; 1; 4] 2 (Some [3; 7]) None false false = Ok (JustMask [true; false; false]) /\
  get_deadtime_mask (isort_by fst) [0; 1; 4] 2 None None false false = Ok (JustMask [true; false; true]).
Proof. split; [apply is_sorted_iff; reflexivity|]. split; vm_compute; reflexivity. Qed.

(* Zero dead time: a two-element list instead of a mask, whatever return_all says. *)
Theorem C17_zero_dead_time_type : forall srt ev bkg noise par all,
  exists o,
  get_deadtime_mask srt ev 0 bkg noise par all = Ok (WithOutput (map (fun _ => true) ev) o).
Proof. exact zero_dead_time. Qed.
Print Assumptions C17_zero_dead_time_type.
Theorem C17_unsorted_refuted : 
  exists ev ev' bkg d out out' o o',
  Permutation ev ev' /\
  filter_for_deadtime (isort_by fst) ev d (Some bkg) None false = Ok (out, o) /\
  filter_for_deadtime (isort_by fst) ev' d (Some bkg) None false = Ok (out', o') /\
  uf_events o = uf_events o' /\
  In 0 (uf_events o) /\ ~ In 0 out /\ ~ In 1 (uf_events o) /\ In 1 out /\ In 0 out'.
Proof. exact background_unsorted. Qed.
Print Assumptions C17_unsorted_refuted.

