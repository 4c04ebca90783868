(* T_spec.v: property theorems about the rms and the rebinning of power spectrum objects (C82-C83). *)
From Coq Require Import Lqa Lia.
From Verif Require Import Np Lib S_gti S_seg S_utils S_spec M_gti M_seg M_utils M_spec P_seg_regions P_seg_cut P_seg_split P_rebin P_rebin2 P_logbin P_base S_base P_filters P_rms P_rms2 P_rms3.
Open Scope Q_scope.

(* ---------- C82: compute_rms ---------- *)
Theorem C82_rms : forall s lo hi level noise l,
  bins_of s l -> proper_bins l -> 0 < ps_df s -> 0 < ps_nphots s -> 0 < ps_segment s ->
  match level with None => noise = ps_nphots s | Some v => unnorm_level v (ps_dt s) (ps_n s) (ps_nphots s) (ps_norm s) = Ok noise end ->
  let B := band lo hi l in
  let I := integral (ps_df s) (ps_nphots s) (ps_segment s) noise B in
  exists r2 e2 V, compute_rms s lo hi level = Ok (Some (r2, e2)) /\ finished I V r2 e2 /\
    ((exists b, In b B /\ ~ b_m b == 1) \/ (length B <= 4)%nat -> V == integral_var (ps_df s) (ps_nphots s) (ps_segment s) B) /\
    (forall k, (4 < length B)%nat -> (forall b, In b B -> b_m b == 1) -> (forall b, In b B -> b_k b == k) ->
       V == grouped_var (ps_df s * k) (map (fun b => frac_norm (ps_nphots s) (ps_segment s) * b_unnorm b) B)).
Proof. exact rms_main. Qed.
Print Assumptions C82_rms.
Theorem C82_level : forall v dt n N,
  0 < dt -> (0 < n)%nat -> 0 < N ->
  let T := inject_Z (Z.of_nat n) * dt in
  (exists u, unnorm_level v dt n N NLeahy = Ok u /\ 2 * u / N == v) /\
  (exists u, unnorm_level v dt n N NFrac = Ok u /\ 2 * T * u / (N * N) == v) /\
  (exists u, unnorm_level v dt n N NAbs = Ok u /\ 2 * u / T == v) /\
  unnorm_level v dt n N NNone = Ok v /\ unnorm_level v dt n N NOther = Err ValueError.
Proof. exact level_ok. Qed.
Print Assumptions C82_level.
(* A Leahy spectrum of pure noise, normalised with the variance, with the right noise level given: rms above zero. *)
Theorem C82_variance_refuted : 
  exists s var r e, ps_norm s = NLeahy /\ 0 < var /\
  (forall i u p, nth_error (ps_unnorm s) i = Some (Some u) -> nth_error (ps_power s) i = Some (Some p) -> p == u * 2 / (var * inject_Z (Z.of_nat (ps_n s))) /\ p == 2) /\
  (length (ps_unnorm s) > 0)%nat /\ ps_freq s = map Some [1; 2; 3] /\
  compute_rms s 0 10 (Some 2) = Ok (Some (r, e)) /\ 0 < r.
Proof. exact rms_variance_noise. Qed.
Print Assumptions C82_variance_refuted.

Example C82_nonvacuous : exists l, bins_of ex_spec l /\ proper_bins l /\ 0 < ps_df ex_spec /\ 0 < ps_nphots ex_spec /\ 0 < ps_segment ex_spec /\
  length (band 2 7 l) = 6%nat /\ exists r e, compute_rms ex_spec 2 7 (Some 1) = Ok (Some (r, Some e)) /\ r == 13 # 50 /\ 0 < e /\
  exists r2 e2, compute_rms ex_spec 2 4 None = Ok (Some (r2, Some e2)) /\ r2 == 3 # 25 /\ 0 < e2.
Proof.
  exists (plain_bins [1; 2; 3; 4; 5; 6; 7; 8] [500; 300; 400; 200; 300; 200; 200; 100] 1).
  split; [exact (plain_is_bins _ _ _ _ _ _ ex_plain)|]. split; [apply plain_proper; reflexivity|].
  split; [reflexivity|]. split; [reflexivity|]. split; [reflexivity|]. split; [vm_compute; reflexivity|].
  eexists _, _. split; [vm_compute; reflexivity|]. split; [vm_compute; reflexivity|]. split; [reflexivity|].
  eexists _, _. split; [vm_compute; reflexivity|]. split; [vm_compute; reflexivity|reflexivity].
Qed.

(* ---------- C83: rebinning keeps the rms ---------- *)
Theorem C83_rebin : forall s x0 fr pw un m q k dfo fo,
  plain_spectrum s x0 fr pw un m -> (0 < q)%nat -> (0 < k)%nat -> (k * q <= length fr < (k + 1) * q)%nat ->
  match fo with Some f => f == inject_Z (Z.of_nat q) | None => match dfo with Some d => d == inject_Z (Z.of_nat q) * ps_df s | None => False end end ->
  exists s' l', ps_rebin s dfo fo MMean = Ok s' /\ bins_of s' l' /\ length l' = k /\ proper_bins l' /\
    ps_df s' == inject_Z (Z.of_nat q) * ps_df s /\ ps_nphots s' = ps_nphots1 s /\ ps_segment s' = ps_segment s /\
    ps_dt s' = ps_dt s /\ ps_n s' = ps_n s /\ ps_norm s' = ps_norm s /\
    (forall i, (i < k)%nat -> exists b f p, nth_error l' i = Some b /\ b_freq b = Some f /\
       f == x0 + inject_Z (Z.of_nat (i * q)) * ps_df s + (inject_Z (Z.of_nat q) - 1) * ps_df s * (1 # 2) /\
       b_unnorm b == total (slice un (i * q) (S i * q)) / inject_Z (Z.of_nat q) /\
       nth_error (ps_power s') i = Some (Some p) /\ p == total (slice pw (i * q) (S i * q)) / inject_Z (Z.of_nat q) /\
       b_k b = 1 /\ b_m b = inject_Z (Z.of_nat q * m)).
Proof. exact rebin_bins. Qed.
Print Assumptions C83_rebin.
Theorem C83_rebin_rms : forall s x0 fr pw un m q k dfo fo lo hi lo' hi' level noise,
  plain_spectrum s x0 fr pw un m -> (0 < q)%nat -> (0 < k)%nat -> length fr = (k * q)%nat ->
  match fo with Some f => f == inject_Z (Z.of_nat q) | None => match dfo with Some d => d == inject_Z (Z.of_nat q) * ps_df s | None => False end end ->
  ps_nphots1 s = ps_nphots s -> 0 < ps_nphots s -> 0 < ps_segment s ->
  match level with None => noise = ps_nphots s | Some v => unnorm_level v (ps_dt s) (ps_n s) (ps_nphots s) (ps_norm s) = Ok noise end ->
  (forall i j f, (i < k)%nat -> (j < q)%nat -> nth_error fr (i * q + j) = Some f ->
     in_band lo hi (Some f) = in_band lo' hi' (Some (x0 + inject_Z (Z.of_nat (i * q)) * ps_df s + (inject_Z (Z.of_nat q) - 1) * ps_df s * (1 # 2)))) ->
  exists s' r2 e2 r2' e2', ps_rebin s dfo fo MMean = Ok s' /\ compute_rms s lo hi level = Ok (Some (r2, e2)) /\
    compute_rms s' lo' hi' level = Ok (Some (r2', e2')) /\ r2' == r2.
Proof. exact rebin_keeps_rms. Qed.
Print Assumptions C83_rebin_rms.
Theorem C83_log_rms : forall s x0 xl fr pw un m f level noise,
  plain_spectrum s x0 fr pw un m -> 0 <= f -> 0 <= x0 -> nth_error fr (length fr - 1) = Some xl ->
  0 < ps_nphots s -> 0 < ps_segment s ->
  match level with None => noise = ps_nphots s | Some v => unnorm_level v (ps_dt s) (ps_n s) (ps_nphots s) (ps_norm s) = Ok noise end ->
  exists fuel s' edges, ps_rebin_log fuel s f = Ok s' /\ increasing edges /\ growing f edges /\
    nth_error edges 0 = Some (x0 * (1 # 2)) /\ (exists e, nth_error edges 1 = Some e /\ e - x0 * (1 # 2) == ps_df s) /\
    (forall u, nth_error edges (length edges - 1) = Some u -> xl < u) /\
    length (ps_freq s') = (length edges - 1)%nat /\ length (ps_power s') = (length edges - 1)%nat /\
    (forall i o, nth_error (ps_power s') i = Some o -> let n := inject_Z (Z.of_nat (count (in_cell edges i) fr)) in
       match o with None => n == 0 | Some p => p * n == content (in_cell edges i) (combine fr pw) /\ 0 < n end) /\
    (exists ns, ps_k s' = Each ns /\ ps_m s' = Each (map (fun n => n * inject_Z m) ns) /\
       forall i n, nth_error ns i = Some n -> n = inject_Z (Z.of_nat (count (in_cell edges i) fr))) /\
    forall lo hi lo' hi',
      (forall i g v, nth_error (ps_freq s') i = Some (Some g) -> In v fr -> in_cell edges i v = true -> in_band lo hi (Some v) = in_band lo' hi' (Some g)) ->
      exists r2 e2 r2' e2', compute_rms s lo hi level = Ok (Some (r2, e2)) /\ compute_rms s' lo' hi' level = Ok (Some (r2', e2')) /\ r2' == r2.
Proof. exact rebin_log_keeps. Qed.
Print Assumptions C83_log_rms.
Theorem C83_log_whole : forall s x0 xl fr pw un m f level noise lo hi,
  plain_spectrum s x0 fr pw un m -> 0 <= f -> 0 <= x0 -> nth_error fr (length fr - 1) = Some xl ->
  0 < ps_nphots s -> 0 < ps_segment s ->
  match level with None => noise = ps_nphots s | Some v => unnorm_level v (ps_dt s) (ps_n s) (ps_nphots s) (ps_norm s) = Ok noise end ->
  lo <= x0 -> xl <= hi ->
  exists fuel s' r2 e2 r2' e2', ps_rebin_log fuel s f = Ok s' /\ compute_rms s lo hi level = Ok (Some (r2, e2)) /\
    compute_rms s' lo hi level = Ok (Some (r2', e2')) /\ r2' == r2.
Proof. exact rebin_log_whole. Qed.
Print Assumptions C83_log_whole.
Theorem C83_nothing_error : forall s method,
  ps_rebin s None None method = Err ValueError.
Proof. exact rebin_nothing. Qed.
Print Assumptions C83_nothing_error.
(* Rebinning a spectrum that was already rebinned logarithmically. *)
Theorem C83_twice_refuted : 
  exists s s1 s2 r, plain_spectrum s 1 [1; 2; 3; 4; 5; 6; 7; 8] [5; 3; 4; 2; 3; 2; 2; 1] [500; 300; 400; 200; 300; 200; 200; 100] 1 /\
  ps_rebin_log 20 s 1 = Ok s1 /\ ps_rebin_log 20 s1 1 = Ok s2 /\ ps_freq s2 = ps_freq s1 /\ ps_unnorm s2 = ps_unnorm s1 /\
  compute_rms s1 0 100 None = Ok (Some r) /\ compute_rms s2 0 100 None = Err ValueError.
Proof. exact rebin_log_twice. Qed.
Print Assumptions C83_twice_refuted.
Theorem C83_twice_values_refuted : 
  exists s s1, plain_spectrum s 1 [1; 2; 3; 4; 5; 6; 7; 8] [5; 3; 4; 2; 3; 2; 2; 1] [500; 300; 400; 200; 300; 200; 200; 100] 1 /\
  ps_rebin_log 20 s (1 # 4) = Ok s1 /\ ps_rebin_log 20 s1 2 = Err ValueError.
Proof. exact rebin_log_twice_error. Qed.
Print Assumptions C83_twice_values_refuted.
Theorem C83_after_log_refuted : 
  exists s f s1 s2 m1 m2, plain_spectrum s 1 [1; 2; 3; 4; 5; 6; 7; 8] [5; 3; 4; 2; 3; 2; 2; 1] [500; 300; 400; 200; 300; 200; 200; 100] 1 /\
  ps_rebin_log 20 s f = Ok s1 /\ ps_rebin s1 (Some 5) None MMean = Ok s2 /\ compute_rms s2 0 100 None = Err IndexError /\
  ps_m s1 = Each m1 /\ ps_m s2 = Each m2 /\ length m2 <> length (ps_freq s2) /\ Forall2 (fun a b => b == 3 * a) m1 m2.
Proof. exact rebin_after_log. Qed.
Print Assumptions C83_after_log_refuted.

Example C83_nonvacuous : plain_spectrum ex_spec 1 [1; 2; 3; 4; 5; 6; 7; 8] [5; 3; 4; 2; 3; 2; 2; 1] [500; 300; 400; 200; 300; 200; 200; 100] 1 /\
  (exists s', ps_rebin ex_spec None (Some 2) MMean = Ok s' /\ ps_df s' == 2 /\ exists r r2 e e2, compute_rms ex_spec 0 100 None = Ok (Some (r, e)) /\ compute_rms s' 0 100 None = Ok (Some (r2, e2)) /\ r == r2 /\ r == 7 # 25) /\
  exists s' r e, ps_rebin_log 20 ex_spec (1 # 2) = Ok s' /\ compute_rms s' 0 100 None = Ok (Some (r, e)) /\ r == 7 # 25.
Proof.
  split; [exact ex_plain|]. split.
  - eexists. split; [vm_compute; reflexivity|]. split; [vm_compute; reflexivity|]. do 4 eexists.
    split; [vm_compute; reflexivity|]. split; [vm_compute; reflexivity|]. split; vm_compute; reflexivity.
  - do 3 eexists. split; [vm_compute; reflexivity|]. split; [vm_compute; reflexivity|]. vm_compute; reflexivity.
Qed.

