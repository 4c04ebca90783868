(* T_search.v: property theorems about pulsation searches (C117, C118, C119, C120, C121). *)
From Coq Require Import Reals Qreals.
From Verif Require Import Np Lib S_lc S_seg S_fold M_gti M_utils M_lc M_seg M_fold Cplx S_fourier S_zn M_zn M_search S_search S_search2 P_search P_search2 P_search3 P_search4 P_search5 P_search6.
From Coq Require Import List Bool Arith Permutation Lia.
Import ListNotations.
Open Scope Q_scope.

(* ---------- C117: every cell is the average of the statistic over the windows ---------- *)
Theorem C117_events : forall k times freqs nbin size gti c fdots t0 tl,
  get times 0 = Ok t0 -> get_last times = Ok tl -> t0 < tl ->
  (match size with Some s => 0 < s | None => True end) -> (0 < nbin)%nat -> kind_ok k ->
  let len := window_length size (tl - t0) in
  exists n, covers n len (tl - t0) /\
    pulsation_search true k times freqs nbin size false gti (WScalar c) fdots =
    Ok (shaped freqs fdots (fun f fd => window_average (fun ev => value_of k (profile_of nbin f fd ev)) (windows len n (events_of t0 times (map (fun _ => 1) times))))).
Proof. exact fast_search. Qed.
Print Assumptions C117_events.
Theorem C117_weighted : forall numba k times freqs nbin size gti w fdots t0 tl,
  get times 0 = Ok t0 -> get_last times = Ok tl -> t0 < tl ->
  (match size with Some s => 0 < s | None => True end) -> (0 < nbin)%nat -> kind_ok k -> length w = length times -> (forall x, In x w -> 0 < x) ->
  let len := window_length size (tl - t0) in
  exists n, covers n len (tl - t0) /\
    pulsation_search numba k times freqs nbin size false gti (WArray w) fdots =
    Ok (shaped freqs fdots (fun f fd => window_average (fun ev => value_of k (profile_of nbin f fd ev)) (windows len n (events_of t0 times w)))).
Proof. exact array_search. Qed.
Print Assumptions C117_weighted.
Theorem C117_one_weight : forall k times freqs nbin size gti c fdots t0 tl,
  get times 0 = Ok t0 -> get_last times = Ok tl -> t0 < tl ->
  (match size with Some s => 0 < s | None => True end) -> (0 < nbin)%nat -> kind_ok k -> 0 < c ->
  let len := window_length size (tl - t0) in
  exists n, covers n len (tl - t0) /\
    pulsation_search false k times freqs nbin size false gti (WScalar c) fdots =
    Ok (shaped freqs fdots (fun f fd => window_average (fun ev => value_of k (profile_of nbin f fd ev)) (windows len n (events_of t0 times (map (fun _ => c) times))))).
Proof. exact scalar_search. Qed.
Print Assumptions C117_one_weight.
Theorem C117_numba : forall k times freqs nbin size gti gti' W c fdots numba t0 tl,
  get times 0 = Ok t0 -> get_last times = Ok tl -> t0 < tl ->
  (match size with Some s => 0 < s | None => True end) -> (0 < nbin)%nat -> kind_ok k -> weight_list times W = map (fun _ => 1) times ->
  (match W with WScalar x => x = 1 | WArray _ => True end) ->
  pulsation_search numba k times freqs nbin size false gti W fdots = pulsation_search true k times freqs nbin size false gti' (WScalar c) fdots.
Proof. exact unit_search. Qed.
Print Assumptions C117_numba.
Theorem C117_origin : forall k times freqs nbin size gti W fdots c t0 tl,
  get times 0 = Ok t0 -> get_last times = Ok tl -> t0 < tl ->
  (match size with Some s => 0 < s | None => True end) -> (0 < nbin)%nat -> kind_ok k ->
  (match W with WScalar _ => True | WArray w => length w = length times /\ forall x, In x w -> 0 < x end) ->
  pulsation_search true k (map (fun t => t + c) times) freqs nbin size false gti W fdots = pulsation_search true k times freqs nbin size false gti W fdots.
Proof. exact search_shift. Qed.
Print Assumptions C117_origin.
Theorem C117_instant_error : forall k times freqs nbin size gti W fdots numba t0,
  get times 0 = Ok t0 -> get_last times = Ok t0 ->
  (match size with Some s => 0 < s | None => True end) ->
  pulsation_search numba k times freqs nbin size false gti W fdots = Err ZeroDivisionError.
Proof. exact single_time_error. Qed.
Print Assumptions C117_instant_error.

Example C117_nonvacuous : get [3; 7; 13] 0 = Ok 3 /\ get_last [3; 7; 13] = Ok 13 /\ 3 < 13 /\ covers 1 (window_length None (13 - 3)) (13 - 3) /\
  windows (window_length None (13 - 3)) 1 (events_of 3 [3; 7; 13] [1; 2; 1]) = [[(0, 1); (4, 2)]] /\ kind_ok (ZSearch 2).
Proof.
  split; [reflexivity|]. split; [reflexivity|]. split; [reflexivity|]. split; [|split; [vm_compute; reflexivity|cbn; lia]].
  intros k. change (window_length None (13 - 3)) with 10. change (13 - 3) with 10. destruct k as [|k]; [split; [reflexivity|lia]|]. split; [lia|].
  intros H. exfalso. rewrite Nat2Z.inj_succ, <- Z.add_1_r, inject_Z_plus in H. assert (P : 0 <= inject_Z (Z.of_nat k)) by (unfold Qle; cbn; lia). change (inject_Z 1) with 1 in H. lra.
Qed.

(* ---------- C118: weights and good time intervals ---------- *)
Theorem C118_no_gti_error : forall numba k times freqs nbin size W fdots,
  pulsation_search numba k times freqs nbin size true None W fdots = Err ValueError.
Proof. exact expocorr_error. Qed.
Print Assumptions C118_no_gti_error.
Theorem C118_weight_refuted : 
  exists times freqs nbin c a b, 0 < c /\
  pulsation_search true EpochFolding times freqs nbin None false None (WScalar c) [0] = Ok (Flat freqs [Some a]) /\
  pulsation_search false EpochFolding times freqs nbin None false None (WScalar c) [0] = Ok (Flat freqs [Some b]) /\ a <> b.
Proof. exact weight_refuted. Qed.
Print Assumptions C118_weight_refuted.
Theorem C118_gti_masked_refuted : 
  exists gti extra v, snd extra <= 0 /\ ex_search 0 gti = Ok (Flat [1] [None]) /\ ex_search 0 (extra :: gti) = Ok (Flat [1] [Some v]).
Proof. exact gti_masked_refuted. Qed.
Print Assumptions C118_gti_masked_refuted.
Theorem C118_gti_origin_refuted : 
  exists c gti v, ex_search 0 gti = Ok (Flat [1] [Some v]) /\ ex_search c (map (fun g => (fst g + c, snd g + c)) gti) = Ok (Flat [1] [None]).
Proof. exact gti_origin_refuted. Qed.
Print Assumptions C118_gti_origin_refuted.

(* ---------- C119: phase dispersion ---------- *)
Theorem C119_search : forall times freqs flux nbin size fdots t0 tl,
  get times 0 = Ok t0 -> get_last times = Ok tl -> t0 < tl ->
  (match size with Some s => 0 < s | None => True end) -> (0 < nbin)%nat -> length flux = length times ->
  let len := window_length size (tl - t0) in
  (forall n ev, covers n len (tl - t0) -> In ev (windows len n (events_of t0 times flux)) ->
     (nbin < length ev)%nat /\ ~ squares (map snd ev) == 0 /\ (exists e, In e ev /\ (1001 # 100000000) < Qabs (snd e - 1)) /\
     (forall f fd j, In f freqs -> In fd fdots -> (j < nbin)%nat -> weights_in nbin j (folded_events f fd ev) <> [])) ->
  exists n, covers n len (tl - t0) /\
    phase_dispersion_search times freqs flux nbin size fdots =
    Ok (shaped freqs fdots (fun f fd => window_average (fun ev => Q2R (dispersion nbin f fd ev)) (windows len n (events_of t0 times flux)))).
Proof. exact pdm_search_main. Qed.
Print Assumptions C119_search.
Theorem C119_one_point : forall nbin flux times good f fd w p,
  length flux = length times -> select good flux = [w] -> fold_pdm (pulse_phase (select good times) [f; fd] 0 true) [w] nbin = Ok p ->
  pdm_stat nbin flux times good f fd = Ok None.
Proof. exact pdm_one_point. Qed.
Print Assumptions C119_one_point.

(* four fluxes in each of two halves of the period 4; one window *)
Example C119_nonvacuous : let times := [0; 1; 2; 3; 8] in let flux := [2; 3; 5; 7; 2] in
  forall n ev, covers n (window_length None (8 - 0)) (8 - 0) -> In ev (windows (window_length None (8 - 0)) n (events_of 0 times flux)) ->
     (2 < length ev)%nat /\ ~ squares (map snd ev) == 0 /\ (exists e, In e ev /\ (1001 # 100000000) < Qabs (snd e - 1)) /\
     (forall f fd j, In f [1 # 4] -> In fd [0] -> (j < 2)%nat -> weights_in 2 j (folded_events f fd ev) <> []).
Proof.
  intros times flux n ev Hc He. assert (Hn : n = 1%nat).
  { apply (covers_unique _ _ _ _ Hc). intros k. change (window_length None (8 - 0)) with 8. change (8 - 0) with 8. destruct k as [|k]; [split; [reflexivity|lia]|]. split; [lia|].
    intros H. exfalso. rewrite Nat2Z.inj_succ, <- Z.add_1_r, inject_Z_plus in H. assert (P : 0 <= inject_Z (Z.of_nat k)) by (unfold Qle; cbn; lia). change (inject_Z 1) with 1 in H. lra. }
  rewrite Hn in He. assert (W : windows (window_length None (8 - 0)) 1 (events_of 0 times flux) = [[(0, 2); (1, 3); (2, 5); (3, 7)]]) by (vm_compute; reflexivity).
  rewrite W in He. destruct He as [<-|[]]. split; [cbn; lia|]. split; [vm_compute; discriminate|]. split.
  - exists (0, 2). split; [now left|reflexivity].
  - intros f fd j [<-|[]] [<-|[]] Hj. destruct j as [|[|j]]; [vm_compute; discriminate|vm_compute; discriminate|lia].
Qed.

(* ---------- C120: the best peaks ---------- *)
Theorem C120_peaks : forall argsort x stat thr,
  sorts argsort -> length x = length stat -> stat <> [] ->
  exists regions bx bs, search_best_peaks argsort x stat thr = Ok (bx, bs) /\
    separated_ranges regions /\ (forall k, in_ranges regions k <-> (k < length stat)%nat /\ thr <= nth k stat 0) /\
    length bx = length regions /\ length bs = length regions /\
    (exists order, Permutation order regions /\ Forall2 (is_peak x stat) order (combine bx bs)) /\
    (forall i j, (i < j < length bs)%nat -> nth j bs 0 <= nth i bs 0).
Proof. exact peaks_main. Qed.
Print Assumptions C120_peaks.
Theorem C120_first : forall argsort x stat thr,
  sorts argsort -> length x = length stat -> (exists k, (k < length stat)%nat /\ thr <= nth k stat 0) ->
  exists bx bs, search_best_peaks argsort x stat thr = Ok (bx, bs) /\ bs <> [] /\ (forall k, (k < length stat)%nat -> nth k stat 0 <= nth 0 bs 0) /\
    exists i, (i < length stat)%nat /\ nth 0 bs 0 = nth i stat 0 /\ nth 0 bx 0 = nth i x 0.
Proof. exact peaks_first. Qed.
Print Assumptions C120_first.
Theorem C120_none : forall argsort x stat thr,
  stat <> [] -> (forall k, (k < length stat)%nat -> nth k stat 0 < thr) -> search_best_peaks argsort x stat thr = Ok ([], []).
Proof. exact peaks_none. Qed.
Print Assumptions C120_none.
Theorem C120_empty_error : forall argsort x thr,
  search_best_peaks argsort x [] thr = Err IndexError.
Proof. exact peaks_empty. Qed.
Print Assumptions C120_empty_error.

Example C120_nonvacuous : (exists srt, sorts srt) /\
  search_best_peaks (fun _ => [0; 1]%nat) [10; 11; 12; 13; 14; 15] [0; 5; 5; 1; 7; 6] 4 = Ok ([14; 11], [7; 5]).
Proof.
  split; [|vm_compute; reflexivity]. exists argsort_ex. apply argsort_ex_sorts.
Qed.

(* ---------- C121: the phaseogram ---------- *)
Theorem C121_counts times f fdot fddot ph0 nph nt mjdref pepoch weights t0 tl : get times 0 = Ok t0 -> get_last times = Ok tl -> (0 < nph)%nat -> (0 < nt)%nat ->
  (match weights with PNone => True | PScalar _ => False | PArray l => length l = length times end) ->
  exists m lo hi, phaseogram times f fdot fddot nph nt ph0 mjdref pepoch weights = Ok (m, linspace 0 2 (nph * 2), linspace lo hi nt) /\
  (forall t, In t times -> lo <= axis_of mjdref t <= hi) /\ (exists t, In t times /\ axis_of mjdref t = lo) /\ (exists t, In t times /\ axis_of mjdref t = hi) /\
  length m = (nph * 2)%nat /\ (forall row, In row m -> length row = nt) /\
  forall k i, (k < nph * 2)%nat -> (i < nt)%nat -> exists v, nth i (nth k m []) 0 == v /\
    weight_where (fun e => bin_of nph (fst e) = Z.of_nat (k mod nph) /\ time_bin lo hi nt i (snd e))
      (phased_events times (phase_weights times weights) [f; fdot; fddot] (epoch_used t0 tl mjdref pepoch) ph0 (axis_of mjdref)) v.
Proof. intros. now apply phaseogram_main. Qed.
Print Assumptions C121_counts.
Theorem C121_total times f fdot fddot ph0 nph nt mjdref pepoch weights t0 tl : get times 0 = Ok t0 -> get_last times = Ok tl -> (0 < nph)%nat -> (0 < nt)%nat ->
  (match weights with PNone => True | PScalar _ => False | PArray l => length l = length times end) ->
  exists m xe ye, phaseogram times f fdot fddot nph nt ph0 mjdref pepoch weights = Ok (m, xe, ye) /\ sum_of (map sum_of m) == 2 * sum_of (phase_weights times weights).
Proof. intros. now apply (phaseogram_total times f fdot fddot ph0 nph nt mjdref pepoch weights t0 tl). Qed.
Print Assumptions C121_total.
Theorem C121_periodic times f fdot fddot ph0 nph nt mjdref pepoch weights t0 tl : get times 0 = Ok t0 -> get_last times = Ok tl -> (0 < nph)%nat -> (0 < nt)%nat ->
  (match weights with PNone => True | PScalar _ => False | PArray l => length l = length times end) ->
  exists m xe ye, phaseogram times f fdot fddot nph nt ph0 mjdref pepoch weights = Ok (m, xe, ye) /\
  forall k i, (k < nph)%nat -> (i < nt)%nat -> nth i (nth (k + nph) m []) 0 == nth i (nth k m []) 0.
Proof. intros. now apply (phaseogram_periodic times f fdot fddot ph0 nph nt mjdref pepoch weights t0 tl). Qed.
Print Assumptions C121_periodic.
Theorem C121_length_error : forall times f fdot fddot nph nt ph0 mjdref pepoch l,
  times <> [] -> length l <> length times ->
  phaseogram times f fdot fddot nph nt ph0 mjdref pepoch (PArray l) = Err ValueError.
Proof. exact phaseogram_length_error. Qed.
Print Assumptions C121_length_error.
Theorem C121_scalar_error : forall times f fdot fddot nph nt ph0 mjdref pepoch c,
  times <> [] ->
  phaseogram times f fdot fddot nph nt ph0 mjdref pepoch (PScalar c) = Err ValueError.
Proof. exact phaseogram_scalar_error. Qed.
Print Assumptions C121_scalar_error.
Theorem C121_no_event_error : forall f fdot fddot nph nt ph0 mjdref pepoch w,
  phaseogram [] f fdot fddot nph nt ph0 mjdref pepoch w = Err IndexError.
Proof. exact phaseogram_empty_error. Qed.
Print Assumptions C121_no_event_error.
Theorem C121_epoch_refuted : 
  exists times f fdot nph nt r m m' xe ye,
  phaseogram times f fdot 0 nph nt 0 (Some r) None PNone = Ok (m, xe, ye) /\
  phaseogram times f fdot 0 nph nt 0 (Some r) (Some ((nth 0 times 0 + last times 0) / 2 / 86400 + r)) PNone = Ok (m', xe, ye) /\
  exists k i, ~ nth i (nth k m []) 0 == nth i (nth k m' []) 0.
Proof. exact phaseogram_epoch_refuted. Qed.
Print Assumptions C121_epoch_refuted.

Example C121_nonvacuous : get [0; 1; 3] 0 = Ok 0 /\ get_last [0; 1; 3] = Ok 3 /\
  match phaseogram [0; 1; 3] (1 # 2) 0 0 2 2 0 None (Some 0) (PArray [1; 5; 7]) with
  | Ok (m, _, _) => map (map Qred) m = [[1; 0]; [5; 7]; [1; 0]; [5; 7]]
  | Err _ => False
  end.
Proof. vm_compute. repeat split. Qed.


