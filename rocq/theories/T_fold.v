(* T_fold.v: property theorems about folding (C37, C38, C65, C66). *)
From Verif Require Import Np Lib S_gti M_gti S_lc M_lc M_fold S_fold P_fold P_expo P_fold2.
From Coq Require Import Lqa.
Open Scope Q_scope.

(* ---------- C37: periods, frequencies and phases ---------- *)
Theorem C37_reciprocal : forall ps,
  (length ps <= 4)%nat -> (match ps with [] => True | p :: _ => ~ p == 0 end) ->
  exists fs, p_to_f idq ps = Ok fs /\ reciprocal fs ps.
Proof. exact reciprocal_ok. Qed.
Print Assumptions C37_reciprocal.
Theorem C37_involution : forall ps,
  (length ps <= 4)%nat -> (match ps with [] => True | p :: _ => ~ p == 0 end) ->
  exists fs qs, p_to_f idq ps = Ok fs /\ p_to_f idq fs = Ok qs /\ Forall2 Qeq qs ps.
Proof. exact involution. Qed.
Print Assumptions C37_involution.
Theorem C37_higher_derivatives_refuted : 
  exists ps fs, ~ nth 0 ps 0 == 0 /\ p_to_f idq ps = Ok fs /\ ~ reciprocal fs ps.
Proof. exact higher_refuted. Qed.
Print Assumptions C37_higher_derivatives_refuted.
Theorem C37_integers_refuted : 
  exists ps fs, (length ps <= 4)%nat /\ ~ nth 0 ps 0 == 0 /\ p_to_f to_int ps = Ok fs /\ ~ reciprocal fs ps.
Proof. exact integer_refuted. Qed.
Print Assumptions C37_integers_refuted.
Theorem C37_phase : forall times fs ph0,
  Forall2 (fun t p => p == ph0 + turns fs t) times (pulse_phase times fs ph0 false).
Proof. exact phase_total. Qed.
Print Assumptions C37_phase.
Theorem C37_phase_0_1 : forall times fs ph0,
  Forall2 (fun t p => fractional (ph0 + turns fs t) p) times (pulse_phase times fs ph0 true).
Proof. exact phase_frac. Qed.
Print Assumptions C37_phase_0_1.
Theorem C37_fast_phase : forall times f fdot,
  Forall2 Qeq (pulse_phase_fast times f fdot) (pulse_phase times [f; fdot] 0 true).
Proof. exact fast_phase. Qed.
Print Assumptions C37_fast_phase.

Example C37_nonvacuous : exists fs, p_to_f idq [1 # 2; 3; -(4); 5] = Ok fs /\ pulse_phase [-(1 # 3); 7] fs 0 true <> [].
Proof. eexists. split; [reflexivity|]. discriminate. Qed.

(* ---------- C38: folded profiles and exposure ---------- *)
Theorem C38_profile : forall times fs nbin w gti ref,
  (0 < nbin)%nat -> (2 <= length times)%nat ->
  length (weight_list times w) = length times ->
  exists cs prof err2, fold_events times fs nbin w gti ref false = Ok (cs, prof, err2) /\
    length prof = nbin /\
    Forall2 (fun j c => c == (inject_Z (Z.of_nat j) + (1 # 2)) / inject_Z (Z.of_nat nbin)) (seq 0 nbin) cs /\
    Forall2 (fun j p => exists v, p = Some v /\ v == sum_of (weights_in nbin j (folded times fs (weight_list times w) ref))) (seq 0 nbin) prof /\
    Forall2 (fun p e => exists v u, p = Some v /\ e = Some u /\ u == v) prof err2.
Proof. exact fold_main. Qed.
Print Assumptions C38_profile.
Theorem C38_profile_total : forall times fs nbin w ref,
  (0 < nbin)%nat -> length w = length times ->
  sum_of (map (fun j => sum_of (weights_in nbin j (folded times fs w ref))) (seq 0 nbin)) == sum_of w.
Proof. exact prof_total. Qed.
Print Assumptions C38_profile_total.
Theorem C38_single_event_error : forall t fs nbin w gti ref ex,
  fold_events [t] fs nbin w gti ref ex = Err IndexError.
Proof. exact fold_single. Qed.
Print Assumptions C38_single_event_error.
Theorem C38_fast_profile : forall phases nbin,
  (0 < nbin)%nat -> (forall x, In x phases -> 0 <= x < 1) ->
  profile_fast phases nbin = Ok (map (fun j => Z.of_nat (number_in nbin j phases)) (seq 0 nbin)).
Proof. exact fast_main. Qed.
Print Assumptions C38_fast_profile.
Theorem C38_exposure_partial : forall s e p nbin gti,
  (0 < nbin)%nat -> 0 < p -> 0 <= s -> s < e ->
  let gs := match gti with None => [(s, e)] | Some g => g end in
  (forall g, In g gs -> fst g <= snd g) ->
  Forall2 (fun j x => x == sum_of (map (fun g => exposure_in nbin j p (clip s e g)) (filter (touches s e) gs))) (seq 0 nbin) (phase_exposure_raw s e p nbin gti).
Proof. exact expo_main. Qed.
Print Assumptions C38_exposure_partial.
Theorem C38_exposure_total : forall nbin p g,
  (0 < nbin)%nat -> 0 < p ->
  sum_of (map (fun j => exposure_in nbin j p g) (seq 0 nbin)) == (snd g - fst g) / p.
Proof. exact exposure_total. Qed.
Print Assumptions C38_exposure_total.
Theorem C38_normalized_exposure_partial : forall s e p nbin gti l,
  (0 < nbin)%nat -> 0 < p -> 0 <= s -> s < e ->
  (forall g, In g (match gti with None => [(s, e)] | Some g => g end) -> fst g <= snd g) ->
  phase_exposure s e p nbin gti = Ok (Some l) ->
  length l = nbin /\ (forall x, In x l -> 0 <= x <= 1) /\ exists x, In x l /\ x == 1.
Proof. exact expo_norm. Qed.
Print Assumptions C38_normalized_exposure_partial.
Theorem C38_corrected_profile_partial : forall times fs nbin w gti ref,
  (0 < nbin)%nat -> (2 <= length times)%nat ->
  length (weight_list times w) = length times ->
  forall t0 t1 tl, get times 0 = Ok t0 -> get times 1 = Ok t1 -> get_last times = Ok tl ->
  let s := turns fs (t0 - ref) in
  let e := turns fs (tl - ref + Qabs (t1 - t0)) in
  let gs := map (phase_ivl fs ref) (match gti with None => [(t0, tl)] | Some g => g end) in
  let E := fun j => sum_of (map (fun g => exposure_in nbin j 1 (clip s e g)) (filter (touches s e) gs)) in
  0 <= s -> s < e -> (forall g, In g gs -> fst g <= snd g) -> (forall j, (j < nbin)%nat -> 0 < E j) ->
  exists cs prof err2 m, fold_events times fs nbin w gti ref true = Ok (cs, prof, err2) /\
    0 < m /\ (forall j, (j < nbin)%nat -> E j <= m) /\ (exists j, (j < nbin)%nat /\ E j == m) /\
    Forall2 (fun j p => exists v, p = Some v /\ v * E j == m * sum_of (weights_in nbin j (folded times fs (weight_list times w) ref))) (seq 0 nbin) prof /\
    Forall2 (fun j p => exists v, p = Some v /\ v * (E j * E j) == m * m * sum_of (weights_in nbin j (folded times fs (weight_list times w) ref))) (seq 0 nbin) err2.
Proof. exact fold_expo_main. Qed.
Print Assumptions C38_corrected_profile_partial.
Theorem C38_negative_phases_refuted : 
  exists s e p nbin, (0 < nbin)%nat /\ 0 < p /\ s < e /\
  0 < exposure_in nbin 1 p (s, e) /\ phase_exposure s e p nbin None = Ok None.
Proof. exact expo_refuted. Qed.
Print Assumptions C38_negative_phases_refuted.
Theorem C38_corrected_profile_refuted : 
  exists times fs nbin ref c prof err, (2 <= length times)%nat /\ StronglySorted Qlt times /\
  fold_events times fs nbin (WScalar 1) None ref true = Ok (c, prof, err) /\
  (exists j, 0 < sum_of (weights_in nbin j (folded times fs (map (fun _ => 1) times) ref)) /\ nth_error prof j = Some None).
Proof. exact fold_expo_refuted. Qed.
Print Assumptions C38_corrected_profile_refuted.

Example C38_nonvacuous : exists c p e, fold_events [1; 3 # 2; 9 # 4; 4] [1] 2 (WScalar 1) None 0 false = Ok (c, p, e) /\
  (exists l, phase_exposure 1 (9 # 2) 1 2 (Some [(1, 4)]) = Ok (Some l)) /\
  (forall j, (j < 2)%nat -> 0 < sum_of (map (fun g => exposure_in 2 j 1 (clip 1 (9 # 2) g)) (filter (touches 1 (9 # 2)) [(1, 4)]))).
Proof.
  eexists. eexists. eexists. split; [vm_compute; reflexivity|]. split; [eexists; vm_compute; reflexivity|].
  intros [|[|j]] Hj; [vm_compute; reflexivity|vm_compute; reflexivity|lia].
Qed.

(* ---------- C65: phase dispersion minimization ---------- *)
Theorem C65_pdm_profile_partial : forall phases w nbin,
  (0 < nbin)%nat -> length w = length phases -> (forall x, In x phases -> 0 <= x < 1) ->
  (exists v, In v w /\ (1001 # 100000000) < Qabs (v - 1)) ->
  exists prof, fold_pdm phases w nbin = Ok prof /\
    Forall2 (fun j p => match p with
                        | Some s => weights_in nbin j (combine phases w) <> [] /\ scatter (weights_in nbin j (combine phases w)) s
                        | None => weights_in nbin j (combine phases w) = []
                        end) (seq 0 nbin) prof.
Proof. exact pdm_main. Qed.
Print Assumptions C65_pdm_profile_partial.
Theorem C65_unit_weights_error : forall phases w nbin,
  (forall v, In v w -> Qabs (v - 1) <= 1001 # 100000000) -> fold_pdm phases w nbin = Err ValueError.
Proof. exact pdm_weights. Qed.
Print Assumptions C65_unit_weights_error.
Theorem C65_statistic_partial : forall l var n,
  (length l < n)%nat -> ~ var == 0 ->
  exists v, pdm_profile_stat (map Some l) var n = Some v /\ v * (inject_Z (Z.of_nat (n - length l)) * var) == sum_of l.
Proof. exact pdm_stat. Qed.
Print Assumptions C65_statistic_partial.
Theorem C65_empty_bin_refuted : 
  exists phases w nbin prof, (0 < nbin)%nat /\ length w = length phases /\ (forall x, In x phases -> 0 <= x < 1) /\
  (nbin < length phases)%nat /\ fold_pdm phases w nbin = Ok prof /\ forall var n, pdm_profile_stat prof var n = None.
Proof. exact pdm_refuted. Qed.
Print Assumptions C65_empty_bin_refuted.

Example C65_nonvacuous : (exists v, In v [1; 3; 5] /\ (1001 # 100000000) < Qabs (v - 1)) /\ exists p, fold_pdm [0; 1 # 8; 3 # 4] [1; 3; 5] 2 = Ok [Some p; Some (0 / 1 * 1)] /\ p == 2.
Proof. split; [exists 3; split; [cbn; auto|reflexivity]|]. eexists. split; [reflexivity|]. vm_compute. reflexivity. Qed.

(* ---------- C66: events used by the folding searches ---------- *)
Theorem C66_segments : forall times size segs t0 tl,
  folding_segments times (Some size) = Ok segs ->
  get times 0 = Ok t0 -> get_last times = Ok tl -> 0 < size <= tl - t0 ->
  (* every segment used holds events of one window [k size, (k+1) size) after the first event, in order, spanning at least 20% *)
  (forall s, In s segs -> exists k : nat, s = filter (fun t => (qle (inject_Z (Z.of_nat k) * size) t && qlt t ((inject_Z (Z.of_nat k) + 1) * size))%bool) (map (fun t => t - t0) times) /\
     s <> [] /\ (2 # 10) * size <= last s 0 - hd 0 s).
Proof. exact segments_main. Qed.
Print Assumptions C66_segments.
Theorem C66_segments_exact : forall times size t0 tl,
  get times 0 = Ok t0 -> get_last times = Ok tl -> t0 < tl ->
  (match size with Some s => 0 < s | None => True end) ->
  let len := match size with Some s => qmin s (tl - t0) | None => tl - t0 end in
  exists n, (forall k, (k < n)%nat <-> inject_Z (Z.of_nat k) * len < tl - t0) /\
    folding_segments times size = Ok (filter (spans_fifth len) (map (fun k => window_events len k (map (fun t => t - t0) times)) (seq 0 n))).
Proof. exact segments_exact. Qed.
Print Assumptions C66_segments_exact.
Theorem C66_last_event_error : forall times segs t0 tl,
  folding_segments times None = Ok segs ->
  get times 0 = Ok t0 -> get_last times = Ok tl ->
  forall s t, t0 <= tl -> In s segs -> In t s -> t < tl - t0.
Proof. exact last_dropped. Qed.
Print Assumptions C66_last_event_error.
Theorem C66_all_events_refuted : 
  exists times segs, StronglySorted Qle times /\ (3 <= length times)%nat /\
  folding_segments times None = Ok segs /\ (length (concat segs) < length times)%nat.
Proof. exact search_refuted. Qed.
Print Assumptions C66_all_events_refuted.
Theorem C66_no_segment_refuted : 
  exists times, StronglySorted Qle times /\ (3 <= length times)%nat /\ folding_segments times None = Ok [].
Proof. exact search_empty_refuted. Qed.
Print Assumptions C66_no_segment_refuted.

Example C66_nonvacuous : exists segs, folding_segments [0; 1; 2; 3; 4; 5; 7] (Some (7 # 2)) = Ok segs /\ length segs = 2%nat.
Proof. eexists. split; vm_compute; reflexivity. Qed.

