(* T_fad.v: property theorems about the dead time correction by Fourier amplitude differences (C111, C112). *)
From Coq Require Import Reals Qreals.
From Verif Require Import Np Lib M_gti M_seg M_utils Cplx M_fourier M_flux S_gti S_seg S_flux S_utils S_fourier S_fad M_fad P_gti_cross P_gti_final P_norm P_fad P_fad2 P_fad3 P_fad4 P_fad5 P_fad6.
From Coq Require Import Reals List Bool Arith Lra Lia.
Import ListNotations.
Open Scope R_scope.

(* ---------- C111: columns of the table ---------- *)
Theorem C111_columns : forall gaussian len tol strict dt norm segs1 segs2 n,
  (forall l s, length (gaussian l s) = length l) -> (0 < n)%nat -> kind norm None <> None -> fits n segs1 segs2 -> both segs1 segs2 <> [] ->
  let us := both segs1 segs2 in
  let smooth := fun l => gaussian l (length_used len n dt) in
  let ks := seq 1 (n_pos n) in
  let fad_k := map (corrected_difference smooth n us) ks in
  let delta := (spread fad_k - 2 / sqrt (INR (length us))) / (2 / sqrt (INR (length us))) in
  let compliant := if Rlt_dec (Rabs delta) tol then true else false in
  fad gaussian true len tol strict dt norm segs1 segs2 =
  if (strict && negb compliant)%bool then Err RuntimeError else
  Ok (mkTable (map (fun k => INR k / (INR n * dt)) ks)
     (map (fun k => avg (fun p => 2 * S_fourier.pow1 p k / scatter smooth n p k * fac norm None dt n (photons (fst p) / INR n) (photons (fst p))) us) ks)
     (map (fun k => avg (fun p => 2 * S_fourier.pow2 p k / scatter smooth n p k * fac norm None dt n (photons (snd p) / INR n) (photons (snd p))) us) ks)
     (map (fun k => cavg (fun p => cscal (cpower p k) (2 / scatter smooth n p k * fac norm None dt n (pph p / INR n) (pph p))) us) ks)
     (map (fun k => avg (fun p => 2 * power_at (together p) k / scatter smooth n p k * fac norm None dt n ((photons (fst p) + photons (snd p)) / INR n) (photons (fst p) + photons (snd p))) us) ks)
     (map (fun k => avg (fun p => 2 * S_fourier.pow1 p k / scatter smooth n p k) us) ks)
     (map (fun k => avg (fun p => 2 * S_fourier.pow2 p k / scatter smooth n p k) us) ks)
     (map (fun k => cavg (fun p => cscal (cpower p k) (2 / scatter smooth n p k)) us) ks)
     (map (fun k => avg (fun p => 2 * power_at (together p) k / scatter smooth n p k) us) ks)
     fad_k delta compliant (length us) dt (avg (fun p => photons (fst p)) us) (avg (fun p => photons (snd p)) us) (avg (fun p => photons (fst p) + photons (snd p)) us)
     norm (Some (length_used len n dt)) (mean_step (map (fun k => INR k / (INR n * dt)) ks))).
Proof. exact fad_columns. Qed.
Print Assumptions C111_columns.
Theorem C111_total : forall gaussian len tol dt strict norm segs1 segs2 n t,
  (forall l s, length (gaussian l s) = length l) -> (0 < n)%nat -> kind norm None <> None -> fits n segs1 segs2 -> both segs1 segs2 <> [] ->
  fad gaussian true len tol strict dt norm segs1 segs2 = Ok t ->
  forall k, (k < n_pos n)%nat -> nth k (t_ptotu t) 0 = nth k (t_pds1u t) 0 + nth k (t_pds2u t) 0 + 2 * re (nth k (t_csu t) c0).
Proof. exact column_total. Qed.
Print Assumptions C111_total.
Theorem C111_coherence : forall gaussian len tol dt strict norm segs1 segs2 n t,
  (forall l s, length (gaussian l s) = length l) -> (0 < n)%nat -> kind norm None <> None -> fits n segs1 segs2 -> both segs1 segs2 <> [] ->
  fad gaussian true len tol strict dt norm segs1 segs2 = Ok t ->
  forall k, (k < n_pos n)%nat -> (forall p, In p (both segs1 segs2) -> 0 < scatter (fun l => gaussian l (length_used len n dt)) n p (S k)) ->
  cnorm2 (nth k (t_csu t) c0) <= nth k (t_pds1u t) 0 * nth k (t_pds2u t) 0.
Proof. exact column_coherence. Qed.
Print Assumptions C111_coherence.
Theorem C111_swap : forall gaussian len tol strict dt norm segs1 segs2 n t,
  (forall l s, length (gaussian l s) = length l) -> (0 < n)%nat -> kind norm None <> None -> fits n segs1 segs2 -> both segs1 segs2 <> [] ->
  fad gaussian true len tol strict dt norm segs1 segs2 = Ok t ->
  fad gaussian true len tol strict dt norm segs2 segs1 =
    Ok (mkTable (t_freq t) (t_pds2 t) (t_pds1 t) (map cconj (t_cs t)) (t_ptot t) (t_pds2u t) (t_pds1u t) (map cconj (t_csu t)) (t_ptotu t) (map copp (t_fad t))
          (t_delta t) (t_compliant t) (t_m t) (t_dt t) (t_nph2 t) (t_nph1 t) (t_nph t) (t_norm t) (t_len t) (t_df t)).
Proof. exact fad_swap. Qed.
Print Assumptions C111_swap.
Theorem C111_brighter : forall gaussian len tol strict dt segs1 segs2 n a t,
  (forall l s, length (gaussian l s) = length l) -> (forall c l s, gaussian (map (Rmult c) l) s = map (Rmult c) (gaussian l s)) ->
  (0 < n)%nat -> 0 < a -> fits n segs1 segs2 -> both segs1 segs2 <> [] ->
  (forall p, In p (both segs1 segs2) -> 0 < photons (fst p) /\ 0 < photons (snd p)) ->
  (forall p k, In p (both segs1 segs2) -> (1 <= k <= n_pos n)%nat -> 0 < scatter (fun l => gaussian l (length_used len n dt)) n p k) ->
  fad gaussian true len tol strict dt Leahy segs1 segs2 = Ok t ->
  exists t', fad gaussian true len tol strict dt Leahy (map (brighter_o a) segs1) (map (brighter_o a) segs2) = Ok t' /\
    t_freq t' = t_freq t /\ t_pds1 t' = t_pds1 t /\ t_pds2 t' = t_pds2 t /\ t_cs t' = t_cs t /\ t_ptot t' = t_ptot t /\ t_fad t' = t_fad t /\
    t_delta t' = t_delta t /\ t_compliant t' = t_compliant t /\ t_nph t' = a * t_nph t.
Proof. exact fad_brighter. Qed.
Print Assumptions C111_brighter.
Theorem C111_resolution : forall gaussian len tol strict dt norm segs1 segs2 n t,
  (forall l s, length (gaussian l s) = length l) -> (0 < n)%nat -> kind norm None <> None -> fits n segs1 segs2 -> both segs1 segs2 <> [] -> (2 <= n_pos n)%nat ->
  fad gaussian true len tol strict dt norm segs1 segs2 = Ok t -> t_df t = 1 / (INR n * dt).
Proof. exact fad_resolution. Qed.
Print Assumptions C111_resolution.
Theorem C111_nothing_error : forall gaussian alg len tol strict dt norm segs1 segs2,
  both segs1 segs2 = [] -> fad gaussian alg len tol strict dt norm segs1 segs2 = Err ZeroDivisionError.
Proof. exact fad_nothing. Qed.
Print Assumptions C111_nothing_error.
Theorem C111_algorithm_error : forall gaussian len tol strict dt norm segs1 segs2,
  both segs1 segs2 <> [] -> (forall p, In p (both segs1 segs2) -> s_err (fst p) = None /\ s_err (snd p) = None) ->
  fad gaussian false len tol strict dt norm segs1 segs2 = Err ValueError.
Proof. exact fad_algorithm. Qed.
Print Assumptions C111_algorithm_error.
Theorem C111_uncertainties_error : forall gaussian alg len tol strict dt norm segs1 segs2,
  both segs1 segs2 <> [] -> (forall p, In p (both segs1 segs2) -> s_err (fst p) <> None \/ s_err (snd p) <> None) ->
  fad gaussian alg len tol strict dt norm segs1 segs2 = Err AttributeError.
Proof. exact fad_uncertain. Qed.
Print Assumptions C111_uncertainties_error.
Theorem C111_norm_error : forall gaussian len tol strict dt segs1 segs2 n,
  both segs1 segs2 <> [] -> (0 < n)%nat -> fits n segs1 segs2 ->
  fad gaussian true len tol strict dt OtherNorm segs1 segs2 = Err ValueError.
Proof. exact fad_norm. Qed.
Print Assumptions C111_norm_error.

Example C111_nonvacuous : (forall l s, length (flat l s) = length l) /\ (forall c l s, flat (map (Rmult c) l) s = map (Rmult c) (flat l s)) /\
  fits 4 ex1 ex2 /\ both ex1 ex2 <> [] /\ (forall p, In p (both ex1 ex2) -> 0 < photons (fst p) /\ 0 < photons (snd p)) /\
  (forall p k, In p (both ex1 ex2) -> (1 <= k <= n_pos 4)%nat -> 0 < scatter (fun l => flat l (length_used (Some 3) 4 1)) 4 p k) /\
  exists t, fad flat true (Some 3) (1 / 20) false 1 NoNorm ex1 ex2 = Ok t /\ t_pds1u t = [8] /\ t_pds2u t = [16] /\ t_csu t = [(8, 8)] /\ t_ptotu t = [40].
Proof.
  split; [exact flat_length|]. split; [exact flat_scaled|]. split; [exact ex_fits|]. split; [exact ex_some|]. split.
  { intros p [<-|[]]. unfold photons. cbn. lra. }
  split; [|exact ex_value]. intros p k [<-|[]] K. change (n_pos 4) with 1%nat in K. replace k with 1%nat by lia. rewrite ex_scatter by (intros l L; now apply flat_one). lra.
Qed.

(* ---------- C112: good times, bins and objects ---------- *)
Theorem C112_gti : forall srt g1 g2,
  sorts_by t_end srt -> good g1 -> good g2 -> no_touching g1 g2 ->
  exists r, fad_gtis srt g1 g2 = Ok (r, r) /\ well_formed r /\ forall t, covered r t <-> covered g1 t /\ covered g2 t.
Proof. exact gti_both. Qed.
Print Assumptions C112_gti.
Open Scope Q_scope.
Theorem C112_events : forall numba gaussian len tol strict norm times1 times2 g size dt n,
  0 < dt -> (0 < n)%nat -> size == nq n * dt -> nondecreasing times1 -> nondecreasing times2 -> (exists a b, In (a, b) g /\ size < b - a + (1 # 100000)) ->
  exists st1 st2, segment_grid g size (1 # 100000) st1 /\ segment_grid g size (1 # 100000) st2 /\ st1 <> [] /\
    fad_events numba gaussian len tol strict norm times1 times2 g size dt =
    fad gaussian true len tol strict (Q2R dt) norm (map (counts_segment times1 size n) st1) (map (counts_segment times2 size n) st2).
Proof. exact fad_events_ok. Qed.
Print Assumptions C112_events.
Open Scope R_scope.
Theorem C112_fields : forall t kd g,
  periodograms_from_fad t kd = Ok g ->
  g_freq g = t_freq t /\ g_m g = t_m t /\ g_df g = t_df t /\ g_dt g = t_dt t /\ g_norm g = t_norm t /\ g_n g = (2 * length (t_freq t))%nat /\
  (g_power g, g_unnorm g, g_nphots g) = match kd with
    | KPds1 => (map rtoc (t_pds1 t), map rtoc (t_pds1u t), (t_nph1 t, t_nph1 t))
    | KPds2 => (map rtoc (t_pds2 t), map rtoc (t_pds2u t), (t_nph2 t, t_nph2 t))
    | KPtot => (map rtoc (t_ptot t), map rtoc (t_ptotu t), (t_nph t, t_nph t))
    | _ => (t_cs t, t_csu t, (t_nph1 t, t_nph2 t)) end /\
  length (g_err g) = length (g_power g) /\ Forall (fun z => z = c0) (g_err g) /\ length (g_unnorm_err g) = length (g_unnorm g) /\ Forall (fun z => z = c0) (g_unnorm_err g).
Proof. exact periodogram_fields. Qed.
Print Assumptions C112_fields.
Theorem C112_unknown_error : forall t,
  periodograms_from_fad t KUnknown = Err ValueError.
Proof. exact periodogram_unknown. Qed.
Print Assumptions C112_unknown_error.
Theorem C112_bins_error : forall gaussian len tol strict dt norm segs1 segs2 n t kd g,
  (forall l s, length (gaussian l s) = length l) -> (0 < n)%nat -> kind norm None <> None -> fits n segs1 segs2 -> both segs1 segs2 <> [] ->
  fad gaussian true len tol strict dt norm segs1 segs2 = Ok t -> periodograms_from_fad t kd = Ok g ->
  g_n g = (if Nat.even n then n - 2 else n - 1)%nat /\ g_n g <> n.
Proof. exact bins_error. Qed.
Print Assumptions C112_bins_error.
Theorem C112_bins_refuted : 
  exists gaussian dt norm segs1 segs2 n t g,
  (forall l s, length (gaussian l s) = length l) /\ fits n segs1 segs2 /\ both segs1 segs2 <> [] /\
  fad gaussian true None (1 / 20) false dt norm segs1 segs2 = Ok t /\ periodograms_from_fad t KPds1 = Ok g /\ g_n g <> n.
Proof. exact n_refuted. Qed.
Print Assumptions C112_bins_refuted.
Open Scope Q_scope.
Theorem C112_gti_changed_refuted : 
  exists g1 g2 g1' g2' t,
  good g1 /\ good g2 /\ fad_gtis (isort_by t_end) g1 g2 = Ok (g1', g2') /\ covered g1 t /\ ~ covered g1' t.
Proof. exact gti_changed_refuted. Qed.
Print Assumptions C112_gti_changed_refuted.
Theorem C112_event_bins_refuted : 
  exists times g size dt f t k v,
  good g /\ 0 < dt /\ dt < size /\ nondecreasing times /\ flux_generator_events true times g size dt = Ok [Some (f, None)] /\
  In t times /\ nq k * dt <= t /\ t < nq (S k) * dt /\ nth_error f k = Some v /\ v == 0 /\ (exists h, g = [(0, h)]).
Proof. exact event_bins_refuted. Qed.
Print Assumptions C112_event_bins_refuted.

Example C112_nonvacuous : sorts_by t_end (isort_by t_end) /\ good [(0, 10)] /\ good [(5, 20)] /\ no_touching [(0, 10)] [(5, 20)] /\
  fad_gtis (isort_by t_end) [(0, 10)] [(5, 20)] = Ok ([(5, 10)], [(5, 10)]).
Proof. split; [apply isort_sorts|]. split; [apply good_dec; reflexivity|]. split; [apply good_dec; reflexivity|]. split; [apply no_touching_dec; reflexivity|vm_compute; reflexivity]. Qed.

