(* T_dyn.v: property theorems about dynamical spectra (C43, C44, C93). *)
From Verif Require Import Np Lib M_utils M_dyn M_dyn2 S_lc S_dyn P_dyn P_dyn2.
From Coq Require Import Lqa.
Open Scope Q_scope.

(* ---------- C43: rebinning in time ---------- *)
Theorem C43_rebinned_spectrum_partial : forall d n average L,
  table L (d_cols d) -> length (d_time d) = length (d_cols d) -> (2 <= n)%nat ->
  exists new self, rebin_by_n_intervals d (Z.of_nat n) average = Ok (new, self) /\
  let N := length (d_cols d) in let q := inject_Z (Z.of_nat n) in
  (* the new spectrum *)
  length (d_cols new) = (N / n)%nat /\ table L (d_cols new) /\ length (d_time new) = (N / n)%nat /\ d_freq new = d_freq d /\
  d_dt new == q * d_dt d /\ d_m new == q * d_m d /\
  (forall j, (j < N / n)%nat -> nth j (d_time new) 0 == time_sum (d_time d) (j * n) n / q) /\
  (forall j f, (j < N / n)%nat -> (f < L)%nat -> entry (d_cols new) j f == run_sum (d_cols d) (j * n) n f / (if average then q else 1)) /\
  (* the old one *)
  length (d_cols self) = N /\ table L (d_cols self) /\ d_freq self = d_freq d /\ d_time self = d_time d /\ d_dt self = d_dt d /\ d_m self = d_m d /\
  (forall c f, (c < N)%nat -> (f < L)%nat -> (c mod n <> 0)%nat -> entry (d_cols self) c f == entry (d_cols d) c f) /\
  (forall c f, (c < N)%nat -> (f < L)%nat -> (c mod n = 0)%nat ->
     entry (d_cols self) c f == run_sum (d_cols d) c (Nat.min n (N - c)) f / (if (average && Nat.leb (c + n) N)%bool then q else 1)).
Proof. exact rebin_n_main. Qed.
Print Assumptions C43_rebinned_spectrum_partial.
Theorem C43_one_interval : forall d average,
  rebin_by_n_intervals d 1 average = Ok (d, d).
Proof. exact rebin_n_one. Qed.
Print Assumptions C43_one_interval.
Theorem C43_bad_number_error : forall d n average,
  (n < 1)%Z -> rebin_by_n_intervals d n average = Err ValueError.
Proof. exact rebin_n_small. Qed.
Print Assumptions C43_bad_number_error.
Theorem C43_original_unchanged_refuted : 
  exists d new self new2 self2,
  table 1 (d_cols d) /\ length (d_time d) = length (d_cols d) /\
  rebin_by_n_intervals d 2 true = Ok (new, self) /\ ~ entry (d_cols self) 0 0 == entry (d_cols d) 0 0 /\
  rebin_by_n_intervals self 2 true = Ok (new2, self2) /\ ~ entry (d_cols new2) 0 0 == entry (d_cols new) 0 0.
Proof. exact rebin_n_refuted. Qed.
Print Assumptions C43_original_unchanged_refuted.

Example C43_nonvacuous : table 2 [[1; 2]; [3; 4]; [5; 6]] /\ length [0; 1; 2] = length [[1; 2]; [3; 4]; [5; 6]] /\
  exists new self, rebin_by_n_intervals (mkDyn [1; 2] [0; 1; 2] [[1; 2]; [3; 4]; [5; 6]] 1 1) 2 true = Ok (new, self) /\
  length (d_cols new) = 1%nat /\ entry (d_cols new) 0 1 == 3.
Proof. split; [repeat constructor|]. split; [reflexivity|]. do 2 eexists. split; [vm_compute; reflexivity|]. split; vm_compute; reflexivity. Qed.

(* ---------- C44: largest power in a band ---------- *)
Theorem C44_band_maximum_partial : forall d lo hi,
  table (length (d_freq d)) (d_cols d) -> (exists i, in_band (d_freq d) lo hi i) ->
  exists r, trace_maximum d (Some lo) (Some hi) = Ok r /\ length r = length (d_cols d) /\
  forall c, (c < length (d_cols d))%nat -> exists v,
    band_maximum (d_freq d) lo hi (nth c (d_cols d) []) v /\ (nth c r 0 < length (d_freq d))%nat /\
    entry (d_cols d) c (nth c r 0%nat) == v /\
    (forall j, (j < nth c r 0)%nat -> ~ entry (d_cols d) c j == v) /\
    ((forall j, (j < length (d_freq d))%nat -> ~ in_band (d_freq d) lo hi j -> ~ entry (d_cols d) c j == v) ->
      in_band (d_freq d) lo hi (nth c r 0%nat)).
Proof. exact trace_main. Qed.
Print Assumptions C44_band_maximum_partial.
Theorem C44_empty_band_error : forall d lo hi,
  table (length (d_freq d)) (d_cols d) -> d_cols d <> [] -> (forall i, ~ in_band (d_freq d) lo hi i) ->
  trace_maximum d (Some lo) (Some hi) = Err ValueError.
Proof. exact trace_empty. Qed.
Print Assumptions C44_empty_band_error.
Theorem C44_default_band : forall d,
  d_freq d <> [] -> exists lo hi,
  trace_maximum d None None = trace_maximum d (Some lo) (Some hi) /\ forall i, (i < length (d_freq d))%nat -> in_band (d_freq d) lo hi i.
Proof. exact trace_default. Qed.
Print Assumptions C44_default_band.
Theorem C44_index_in_band_refuted : 
  exists d lo hi i, table (length (d_freq d)) (d_cols d) /\ (exists k, in_band (d_freq d) lo hi k) /\
  trace_maximum d (Some lo) (Some hi) = Ok [i] /\ ~ in_band (d_freq d) lo hi i.
Proof. exact trace_refuted. Qed.
Print Assumptions C44_index_in_band_refuted.

Example C44_nonvacuous : table (length [1; 2; 3]) [[9; 1; 5]; [0; 7; 2]] /\ (exists i, in_band [1; 2; 3] 2 3 i) /\
  trace_maximum (mkDyn [1; 2; 3] [0; 1] [[9; 1; 5]; [0; 7; 2]] 1 1) (Some 2) (Some 3) = Ok [2%nat; 1%nat].
Proof.
  split; [repeat constructor|]. split; [exists 1%nat; split; [cbn; lia|]; cbn; lra|]. vm_compute. reflexivity.
Qed.

(* ---------- C93: rebinning by resolution ---------- *)
Theorem C93_frequency_bins_partial : forall d f0 df m k (average : bool) df_new,
  equally_spaced f0 df (d_freq d) -> 0 < df -> (2 <= length (d_freq d))%nat -> table (length (d_freq d)) (d_cols d) -> d_cols d <> [] ->
  df_new == inject_Z (Z.of_nat m) * df -> (0 < m)%nat -> (0 < k)%nat -> (k * m <= length (d_freq d) < (k + 1) * m)%nat ->
  exists new, rebin_frequency d df_new (if average then MMean else MSum) = Ok (new, df_new) /\
    d_time new = d_time d /\ d_dt new = d_dt d /\ d_m new == inject_Z (Z.of_nat m) * d_m d /\
    length (d_freq new) = k /\ length (d_cols new) = length (d_cols d) /\ table k (d_cols new) /\
    (forall i, (i < k)%nat -> nth i (d_freq new) 0 == time_sum (d_freq d) (i * m) m / inject_Z (Z.of_nat m)) /\
    forall c i, (c < length (d_cols d))%nat -> (i < k)%nat -> entry (d_cols new) c i ==
      (if average then freq_run (d_cols d) c (i * m) m / inject_Z (Z.of_nat m) else freq_run (d_cols d) c (i * m) m).
Proof. exact rebin_freq_main. Qed.
Print Assumptions C93_frequency_bins_partial.
Theorem C93_time_bins_partial : forall d t0 m k (average : bool) dt_new,
  equally_spaced t0 (d_dt d) (d_time d) -> 0 < d_dt d -> length (d_cols d) = length (d_time d) -> (0 < length (d_freq d))%nat ->
  dt_new == inject_Z (Z.of_nat m) * d_dt d -> (0 < m)%nat -> (0 < k)%nat -> (k * m <= length (d_time d) < (k + 1) * m)%nat ->
  exists new, rebin_time d dt_new (if average then MMean else MSum) = Ok new /\
    d_freq new = d_freq d /\ d_dt new = dt_new /\ d_m new == inject_Z (Z.of_nat m) * d_m d /\
    length (d_time new) = k /\ length (d_cols new) = k /\ table (length (d_freq d)) (d_cols new) /\
    (forall i, (i < k)%nat -> nth i (d_time new) 0 == time_sum (d_time d) (i * m) m / inject_Z (Z.of_nat m)) /\
    forall i f, (i < k)%nat -> (f < length (d_freq d))%nat -> entry (d_cols new) i f ==
      (if average then run_sum (d_cols d) (i * m) m f / inject_Z (Z.of_nat m) else run_sum (d_cols d) (i * m) m f).
Proof. exact rebin_time_main. Qed.
Print Assumptions C93_time_bins_partial.
Theorem C93_time_too_small_error : forall d dt_new method,
  dt_new < d_dt d -> rebin_time d dt_new method = Err ValueError.
Proof. exact rebin_time_small. Qed.
Print Assumptions C93_time_too_small_error.
Theorem C93_frequency_too_small_error : forall d a b l df_new method,
  d_cols d <> [] -> d_freq d = a :: b :: l -> df_new < b - a ->
  rebin_frequency d df_new method = Err ValueError.
Proof. exact rebin_freq_small. Qed.
Print Assumptions C93_frequency_too_small_error.
Theorem C93_empty_table_error : forall d df_new method,
  d_cols d = [] -> rebin_frequency d df_new method = Err UnboundLocalError.
Proof. exact rebin_freq_empty. Qed.
Print Assumptions C93_empty_table_error.
Theorem C93_unknown_method_error : forall d f0 df df_new m k,
  equally_spaced f0 df (d_freq d) -> 0 < df -> (2 <= length (d_freq d))%nat -> table (length (d_freq d)) (d_cols d) -> d_cols d <> [] ->
  df_new == inject_Z (Z.of_nat m) * df -> (0 < m)%nat -> (0 < k)%nat -> (k * m <= length (d_freq d) < (k + 1) * m)%nat ->
  rebin_frequency d df_new MOther = Err ValueError.
Proof. exact rebin_freq_method. Qed.
Print Assumptions C93_unknown_method_error.
Theorem C93_gap_refuted : 
  exists d dt_new new, d_dt d == 1 /\ (forall c f, (c < 4)%nat -> (f < 1)%nat -> entry (d_cols d) c f == 1) /\
  length (d_cols d) = 4%nat /\ length (d_freq d) = 1%nat /\ length (d_time d) = 4%nat /\
  rebin_time d dt_new MMean = Ok new /\
  exists c, (c < length (d_cols new))%nat /\ ~ entry (d_cols new) c 0 == 1.
Proof. exact rebin_time_gap_refuted. Qed.
Print Assumptions C93_gap_refuted.
Theorem C93_averaged_number_refuted : 
  exists d new, equally_spaced 1 1 (d_freq d) /\ d_m d == 1 /\
  rebin_frequency d (3 # 2) MMean = Ok (new, 3 # 2) /\ d_m new == 1 /\ ~ d_m new == (3 # 2) * d_m d.
Proof. exact rebin_freq_m_refuted. Qed.
Print Assumptions C93_averaged_number_refuted.

Example C93_nonvacuous : equally_spaced 1 1 [1; 2; 3; 4; 5] /\ table 5 [[1; 2; 3; 4; 5]; [2; 4; 6; 8; 0]] /\
  exists new, rebin_frequency (mkDyn [1; 2; 3; 4; 5] [0; 1] [[1; 2; 3; 4; 5]; [2; 4; 6; 8; 0]] 1 3) 2 MMean = Ok (new, 2) /\
  length (d_freq new) = 2%nat /\ nth 1 (d_freq new) 0 == 7 # 2 /\ entry (d_cols new) 1 1 == 7 /\ d_m new == 6.
Proof.
  split. { intros i Hi. do 5 (destruct i as [|i]; [vm_compute; reflexivity|]). simpl in Hi. lia. }
  split; [repeat constructor|]. eexists. split; [vm_compute; reflexivity|]. split; [reflexivity|]. split; [reflexivity|]. split; reflexivity.
Qed.

