(* T_accel.v: property theorems about the search for accelerated pulsations (C162 - C164). *)
From Verif Require Import Np Lib M_utils M_seg M_base M_stats M_espec Cplx M_fourier M_accel S_fourier S_accel P_dft P_norm P_accel P_accel2 P_accel3 P_accel4.
From Coq Require Import QArith Qreals Lqa Reals List Arith ZArith Permutation Lra Lia.
Import ListNotations.
Open Scope R_scope.

(* ---------- C162: table of candidates ---------- *)
Theorem C162_candidates : forall fs fc sf isf srt pool numba cast times signal dz fmin fmax gti zmax ref pv hw zs t0 t1 tl d,
  (forall l, Permutation (pool l) l) -> (gti = None \/ exists iv, gti = Some [iv]) ->
  get times 0 = Ok t0 -> get times 1 = Ok t1 -> get_last times = Ok tl ->
  0 < Q2R (qsum signal) -> signal <> [] ->
  (0 < dz)%Q -> zs <> [] -> z_grid zmax dz zs -> (forall z, In z zs -> ~ slow z -> half_width z (hw z)) ->
  let x := map Q2R signal in
  let nt := length (searched (length x) (Q2R (t1 - t0)) fmin fmax) in
  pds_detection_level isf pv nt 1 1 = Some d ->
  exists rows, accelsearch fs fc sf isf srt pool numba cast (fun a => a) times signal dz fmin fmax gti zmax ref false pv = Ok rows /\
    Permutation rows (table fs fc sf hw x (Q2R (qsum signal)) (Q2R (t1 - t0)) fmin fmax d zs
      (ref + Q2R (t0 - (t1 - t0) / 2)) (Q2R (tl - t0 + (t1 - t0))) nt 1).
Proof.
  intros fs fc sf isf srt pool numba cast times signal dz fmin fmax gti zmax ref pv hw zs t0 t1 tl d Hp Hg G0 G1 GL HN Hs Hd Hz HG HW x nt HD.
  apply (search_main fs fc sf isf srt pool numba cast times signal signal dz fmin fmax gti zmax ref pv hw zs t0 t1 tl); auto.
  now apply no_gaps.
Qed.
Print Assumptions C162_candidates.
Theorem C162_candidates_gaps : forall fs fc sf isf srt pool numba cast times signal counts dz fmin fmax gti zmax ref pv hw zs t0 t1 tl expo start d,
  (forall l, Permutation (pool l) l) ->
  get times 0 = Ok t0 -> get times 1 = Ok t1 -> get_last times = Ok tl ->
  0 < Q2R (qsum signal) -> counts <> [] ->
  fill_gaps numba cast times signal gti (t1 - t0)%Q = Ok (Some counts, expo, start) ->
  (0 < dz)%Q -> zs <> [] -> z_grid zmax dz zs -> (forall z, In z zs -> ~ slow z -> half_width z (hw z)) ->
  let x := map Q2R counts in
  let nt := length (searched (length x) (Q2R (t1 - t0)) fmin fmax) in
  pds_detection_level isf pv nt 1 1 = Some d ->
  exists rows, accelsearch fs fc sf isf srt pool numba cast (fun a => a) times signal dz fmin fmax gti zmax ref false pv = Ok rows /\
    Permutation rows (table fs fc sf hw x (Q2R (qsum signal)) (Q2R (t1 - t0)) fmin fmax d zs (ref + Q2R start) (Q2R (tl - t0 + (t1 - t0))) nt expo).
Proof. exact search_main. Qed.
Print Assumptions C162_candidates_gaps.
(* a search for pulsations without acceleration is a search in the ordinary power spectrum *)
Theorem C162_no_acceleration : forall fs fc hw x N dt fmin fmax d z r, slow z ->
  In r (hits fs fc hw x N dt fmin fmax d z) <->
  (r < length x)%nat /\ fmin <= bin_freq (length x) dt r < fmax /\ d < 2 / N * power_at x r.
Proof.
  intros fs fc hw x N dt fmin fmax d z r [A B]. unfold hits, searched. rewrite !filter_In, in_seq.
  unfold search_power. rewrite (proj2 (qlt_t _ _) A), (proj2 (qlt_t _ _) B). cbn [andb].
  destruct (Rle_dec fmin (bin_freq (length x) dt r)), (Rlt_dec (bin_freq (length x) dt r) fmax), (Rlt_dec d (2 / N * power_at x r));
    split; intros H; repeat split; try tauto; try Lra.lra; try lia; destruct H as ((H & H1) & H2); try discriminate; try lia; Lra.lra.
Qed.
Print Assumptions C162_no_acceleration.
Example C162_example : forall fs fc sf srt, exists rows,
  accelsearch fs fc sf (fun _ _ => 1) srt (fun l => l) true (fun v => v) (fun a => a) w_times w_signal 1 (1 / 10) 1 None 1 0 false (1 / 2) = Ok rows /\
  In (mkRow (0 + Q2R (0 - (1 - 0) / 2)) (Q2R (2 - 0 + (1 - 0))) 1 2 (pds_probability sf 2 1 1 1)
       (1 / Q2R (2 - 0 + (1 - 0))) (Q2R (- (1) + inject_Z (Z.of_nat 1) * 1) / (Q2R (2 - 0 + (1 - 0)) * Q2R (2 - 0 + (1 - 0)))) 1) rows.
Proof.
  intros fs fc sf srt.
  assert (E1 : map Q2R w_signal = [1; 0; 0]).
  { unfold w_signal. cbn [map]. rewrite RMicromega.Q2R_1, RMicromega.Q2R_0. reflexivity. }
  assert (E2 : Q2R (1 - 0) = 1) by (unfold Q2R; cbn; field).
  assert (E3 : Q2R (qsum w_signal) = 1) by (unfold Q2R; cbn; field).
  destruct (C162_candidates fs fc sf (fun _ _ => 1) srt (fun l => l) true (fun v => v) w_times w_signal 1 (1 / 10) 1 None 1 0 (1 / 2)
    (fun _ => 20%nat) [(- (1) + inject_Z (Z.of_nat 0) * 1)%Q; (- (1) + inject_Z (Z.of_nat 1) * 1)%Q] 0 1 2 1) as (rows & E & P);
    try reflexivity; try discriminate; auto.
  - rewrite E3. Lra.lra.
  - apply w_grid.
  - intros; now apply w_width.
  - rewrite E1, E2. cbn [length]. rewrite w_bins. apply w_level.
  - exists rows. split; [exact E|]. apply (Permutation_in _ (Permutation_sym P)). rewrite E1, E2, E3. cbn [length]. rewrite w_bins. cbn [length].
    unfold table. apply in_flat_map. eexists. split; [right; left; reflexivity|].
    apply in_map_iff. exists 1%nat.
    assert (S : search_power fs fc (fun _ => 20%nat) [1; 0; 0] 1 (- (1) + inject_Z (Z.of_nat 1) * 1) 1 = 2).
    { unfold search_power. rewrite w_power. cbn. Lra.lra. }
    split.
    + cbv zeta. rewrite S. reflexivity.
    + unfold hits. apply filter_In. cbn [length]. rewrite w_bins, S. split; [now left|].
      destruct (Rlt_dec 1 2); [reflexivity|exfalso; Lra.lra].
Qed.
(* ---------- C163: interbinning ---------- *)
Theorem C163_increasing : forall srt n f0 d a,
  (0 < n)%nat -> 0 <= f0 + INR (n - 1) * d ->
  exists fs l, interbin_fft srt (map (fun i => f0 + INR i * d) (seq 0 n)) (map a (seq 0 n)) = Ok (fs, l) /\
    halfway n (fun i => f0 + INR i * d) a fs l.
Proof. exact interbin_plain. Qed.
Print Assumptions C163_increasing.
Theorem C163_transform_order : forall p q f0 d a srt, (0 < q)%nat -> 0 < d ->
  let n := (p + q)%nat in let g := fun i => f0 + INR i * d in
  g (q - 1)%nat < 0 -> sorts srt (map g (seq q p) ++ map g (seq 0 q)) ->
  exists fs l k, interbin_fft srt (map g (seq q p) ++ map g (seq 0 q)) (map a (seq q p) ++ map a (seq 0 q))
      = Ok (skipn k fs ++ firstn k fs, skipn k l ++ firstn k l) /\
    halfway n g a fs l /\ (k <= 2 * n - 1)%nat /\ (forall i, (i < k)%nat -> nth i fs 0 < 0) /\
    (forall i, (k <= i < 2 * n - 1)%nat -> 0 <= nth i fs 0).
Proof. intros p q f0 d a srt Hq Hd n g Hn. now apply interbin_order. Qed.
Print Assumptions C163_transform_order.
(* the documentation: twice the length of the original array *)
Theorem C163_length_refuted : exists srt f a fs l, length f = length a /\ interbin_fft srt f a = Ok (fs, l) /\ length fs <> (2 * length f)%nat.
Proof.
  destruct (interbin_plain (fun _ => []) 2 0 1 (fun _ => Cplx.c1)) as (fs & l & E & H); [lia|cbn; Lra.lra|].
  eexists _, _, _, fs, l. split; [|split; [exact E|]]; [now rewrite !map_length|]. destruct H as (H & _). rewrite H, map_length, seq_length. lia.
Qed.
Print Assumptions C163_length_refuted.
(* the documentation: A_(k+1/2) = pi/4 (A_k - A_(k+1)) *)
Theorem C163_sign_refuted : exists srt f a fs l, interbin_fft srt f a = Ok (fs, l) /\
  nth 1 l c0 <> cscal (csub (nth 0 a c0) (nth 1 a c0)) (PI / 4).
Proof.
  destruct (interbin_plain (fun _ => []) 2 0 1 (fun i => rtoc (INR i))) as (fs & l & E & H); [lia|cbn; Lra.lra|].
  eexists _, _, _, fs, l. split; [exact E|]. destruct H as (_ & _ & _ & H). destruct (H 0%nat ltac:(lia)) as [_ H1].
  change (2 * 0 + 1)%nat with 1%nat in H1. rewrite H1. cbn. intros X. injection X as X _. pose proof PI_RGT_0. Lra.lra.
Qed.
Print Assumptions C163_sign_refuted.
Example C163_example : exists fs l, interbin_fft (fun _ => [3; 4; 0; 1; 2]%nat) [0; 1; 2; -2; -1] [Cplx.c1; c0; Cplx.c1; Cplx.c1; c0] = Ok (fs, l).
Proof.
  destruct (C163_transform_order 3 2 (-2) 1 (fun i => nth i [Cplx.c1; c0; Cplx.c1; c0; Cplx.c1] c0) (fun _ => [3; 4; 0; 1; 2]%nat)) as (fs & l & k & E & _).
  - lia.
  - Lra.lra.
  - cbn. Lra.lra.
  - split.
    + cbn. apply (Permutation_app_comm [3; 4]%nat [0; 1; 2]%nat).
    + intros i j H. cbn [length app map seq] in H. cbn [app map seq].
      repeat match goal with |- context [-2 + INR ?k * 1] => replace (-2 + INR k * 1) with (IZR (-2 + Z.of_nat k)) by (rewrite plus_IZR, <- INR_IZR_INZ; ring) end.
      cbn [Z.of_nat Pos.of_succ_nat Pos.succ Z.add Z.pos_sub Z.opp].
      destruct i as [|[|[|[|[|i]]]]]; destruct j as [|[|[|[|[|j]]]]]; try lia; cbn; Lra.lra.
  - exists (skipn k fs ++ firstn k fs), (skipn k l ++ firstn k l). rewrite <- E. f_equal; cbn; repeat (f_equal; try Lra.lra).
Qed.
(* ---------- C164: gaps and limits of the search ---------- *)
Theorem C164_filled : forall numba cast times signal g1 g2 g dt mask gt v,
  create_gti_mask numba times (g1 :: g2 :: g) (0, 0)%Q 0%Q None gti_eps = Ok (mask, gt) ->
  length mask = length signal -> fill_value signal (select signal mask) = Some v ->
  exists counts, fill_gaps numba cast times signal (Some (g1 :: g2 :: g)) dt =
      Ok (Some counts, INR (length (filter (fun b => b) mask)) / INR (length mask), fst g1) /\
    length counts = length signal /\
    (forall i, (i < length signal)%nat -> nth i counts 0%Q = if nth i mask false then nth i signal 0%Q else cast v).
Proof. exact filled_main. Qed.
Print Assumptions C164_filled.
Theorem C164_low_rate : forall signal good,
  good <> [] -> (qsum signal / inject_Z (Z.of_nat (length signal)) <= 10)%Q ->
  fill_value signal good = Some (qsum good / inject_Z (Z.of_nat (length good)))%Q.
Proof. exact fill_low. Qed.
Print Assumptions C164_low_rate.
Theorem C164_high_rate : forall signal good,
  good <> [] -> (10 < qsum signal / inject_Z (Z.of_nat (length signal)))%Q ->
  fill_value signal good = median good.
Proof. exact fill_high. Qed.
Print Assumptions C164_high_rate.
(* a single good time interval is ignored: same table as without, although part of the data is outside *)
Theorem C164_one_interval_ignored : forall fs fc sf isf srt pool numba cast rescale times signal dz fmin fmax iv zmax ref ib pv,
  accelsearch fs fc sf isf srt pool numba cast rescale times signal dz fmin fmax (Some [iv]) zmax ref ib pv =
  accelsearch fs fc sf isf srt pool numba cast rescale times signal dz fmin fmax None zmax ref ib pv.
Proof. exact one_interval. Qed.
Print Assumptions C164_one_interval_ignored.
Theorem C164_one_interval_refuted : exists times signal iv dt start, 
  fill_gaps true (fun v => v) times signal (Some [iv]) dt = Ok (Some signal, 1, start) /\
  exists i, (i < length times)%nat /\ (snd iv < nth i times 0 - dt)%Q /\ (0 < nth i signal 0)%Q.
Proof.
  exists [0; 1; 2; 3]%Q, [1; 1; 1; 5]%Q, (- (1 # 2), 3 # 2)%Q, 1%Q. eexists. split; [reflexivity|].
  exists 3%nat. split; [cbn; lia|]. split; reflexivity.
Qed.
Print Assumptions C164_one_interval_refuted.
(* the largest positive frequency derivative is never searched *)
Theorem C164_zmax_error : forall zmax dz,
  (0 < dz)%Q -> ~ exists z, In z (range_z zmax dz) /\ (z == zmax)%Q.
Proof. exact zmax_missing. Qed.
Print Assumptions C164_zmax_error.
Theorem C164_zmax_refuted : exists zmax dz, (0 < zmax)%Q /\ In (- zmax)%Q (range_z zmax dz) /\ ~ exists z, In z (range_z zmax dz) /\ (z == zmax)%Q.
Proof. exists 1%Q, 1%Q. split; [reflexivity|]. split; [now left|]. now apply zmax_missing. Qed.
Print Assumptions C164_zmax_refuted.
(* a search without acceleration cannot be asked for *)
Theorem C164_no_acceleration_error : forall fs fc sf isf srt pool numba cast rescale times signal dz fmin fmax gti ref ib pv t0 t1 tl fg,
  get times 0 = Ok t0 -> get times 1 = Ok t1 -> get_last times = Ok tl -> (0 < dz)%Q ->
  fill_gaps numba cast times signal gti (t1 - t0)%Q = Ok fg ->
  accelsearch fs fc sf isf srt pool numba cast rescale times signal dz fmin fmax gti 0 ref ib pv = Err ValueError.
Proof. exact no_acceleration. Qed.
Print Assumptions C164_no_acceleration_error.
Example C164_example : exists counts start, 
  fill_gaps true (fun v => v) [0; 1; 2; 3]%Q [1; 9; 3; 5]%Q (Some [(- (1 # 2), 1 # 2); (3 # 2, 7 # 2)]%Q) 1%Q = Ok (Some counts, INR 3 / INR 4, start) /\
  map Qred counts = [1; 3; 3; 5]%Q.
Proof. eexists _, _. split; [vm_compute; reflexivity|]. vm_compute. reflexivity. Qed.

