(* P_accel2.v: the table of candidates of the search for accelerated pulsations. *)
From Verif Require Import Np Lib M_utils M_seg M_base M_stats M_espec Cplx M_fourier M_accel S_fourier S_accel P_dft P_norm P_seg_cut P_lc_make P_accel.
From Coq Require Import QArith Qreals Lqa Reals List Arith ZArith Permutation Lra Lia.
Import ListNotations.
Open Scope R_scope.

Section Main.
Variables fs fc : R -> R.
Variables sf isf : R -> nat -> R.

(* the transform of the counts in Leahy normalization *)
Definition leahy_ft (x : list R) (N : R) : list cx := map (fun c => cscal c (sqrt (2 / N))) (fft (map rtoc x)).
Lemma leahy_len x N : length (leahy_ft x N) = length x.
Proof. unfold leahy_ft. now rewrite map_length, fft_len, map_length. Qed.
Lemma leahy_map x N : leahy_ft x N = map (fun k => cscal (dft x k) (sqrt (2 / N))) (seq 0 (length x)).
Proof. unfold leahy_ft. rewrite fft_map, map_map. reflexivity. Qed.
Lemma cext_amplitude x N k : cext (leahy_ft x N) k = amplitude x N k.
Proof.
  unfold cext, amplitude. rewrite leahy_len.
  destruct ((0 <=? k) && (k <? Z.of_nat (length x)))%Z%bool eqn:E; [|reflexivity].
  apply andb_true_iff in E. destruct E as [E F]. apply Z.leb_le in E. apply Z.ltb_lt in F.
  rewrite leahy_map.
  rewrite (nth_indep _ c0 (cscal (dft x 0) (sqrt (2 / N)))) by (rewrite map_length, seq_length; lia).
  rewrite (map_nth (fun k => cscal (dft x k) (sqrt (2 / N)))), seq_nth by lia. reflexivity.
Qed.

(* the amplitudes after convolution, bin by bin *)
Definition accelerated (x : list R) (N : R) (z : Q) : list cx :=
  match create_response fs fc z with None => leahy_ft x N | Some h => convolve (leahy_ft x N) h end.
Lemma accelerated_map x N z hw : 0 < N -> (~ slow z -> half_width z (hw z)) ->
  exists a, accelerated x N z = map a (seq 0 (length x)) /\
    forall r, (r < length x)%nat -> cnorm2 (a r) = search_power fs fc hw x N z r.
Proof.
  intros HN H. unfold accelerated.
  destruct (qlt (- (1 # 100)) z && qlt z (1 # 100))%bool eqn:E.
  - apply andb_true_iff in E as E'. destruct E' as [E1 E2]. apply qlt_t in E1. apply qlt_t in E2.
    rewrite slow_response by (split; assumption). rewrite leahy_map. eexists. split; [reflexivity|].
    intros r Hr. unfold search_power. rewrite E, power_at_norm. unfold cscal, cnorm2. cbn [re im fst snd].
    set (d := dft x r). set (s := sqrt (2 / N)).
    assert (S2 : s * s = 2 / N). { apply sqrt_def. apply Rlt_le, Rdiv_lt_0_compat; Lra.lra. }
    change (re d) with (fst d). change (im d) with (snd d).
    transitivity ((s * s) * (fst d * fst d + snd d * snd d)); [ring|now rewrite S2].
  - assert (S : ~ slow z).
    { intros [A B]. rewrite (proj2 (qlt_t _ _) A), (proj2 (qlt_t _ _) B) in E. discriminate. }
    specialize (H S). rewrite (response_val _ _ z (hw z) H S). unfold convolve.
    rewrite leahy_len, map_length, seq_length. eexists. split; [reflexivity|].
    intros r Hr. unfold search_power. rewrite E. f_equal. apply cs_ext. intros i Hi. cbn beta.
    rewrite cext_amplitude. f_equal.
    + rewrite (nth_indep _ c0 (weight fs fc (Q2R z) (INR 0 - INR (hw z)))) by (rewrite map_length, seq_length; lia).
      rewrite (map_nth (fun i => weight fs fc (Q2R z) (INR i - INR (hw z)))), seq_nth by lia. reflexivity.
    + f_equal. replace ((2 * hw z + 1 - 1) / 2)%nat with (hw z); [reflexivity|].
      rewrite Nat.add_sub, Nat.mul_comm, Nat.div_mul; lia.
Qed.

(* one response *)
Lemma one_response srt hw x N dt fmin fmax d z j : 0 < N -> (0 < length x)%nat -> (~ slow z -> half_width z (hw z)) ->
  convolve_with_response srt false (leahy_ft x N) (Some d) (map (in_band fmin fmax) (fftfreq (length x) dt)) (create_response fs fc z, j)
  = Ok (map (fun r => (INR r, j, search_power fs fc hw x N z r)) (hits fs fc hw x N dt fmin fmax d z)).
Proof.
  intros HN Hx H. unfold convolve_with_response. cbn [fst snd].
  fold (accelerated x N z). destruct (accelerated_map x N z hw HN H) as (a & E & P). rewrite E.
  rewrite leahy_len, fftfreq_map by assumption. rewrite (map_map (bin_freq (length x) dt)).
  rewrite !(select_map _ (fun r => in_band fmin fmax (bin_freq (length x) dt r))). cbn [bind fst snd].
  rewrite map_map, combine_map2, filter_of_map, map_map. cbn [fst snd].
  f_equal. unfold hits. change (filter (fun r => in_band fmin fmax (bin_freq (length x) dt r)) (seq 0 (length x))) with (searched (length x) dt fmin fmax).
  assert (B : forall r, In r (searched (length x) dt fmin fmax) -> (r < length x)%nat).
  { intros r Hr. apply filter_In in Hr. destruct Hr as [Hr _]. apply in_seq in Hr. lia. }
  induction (searched (length x) dt fmin fmax) as [|r l IH]; [reflexivity|]. cbn [filter].
  unfold above in *. rewrite (P r) by (apply B; now left).
  destruct (Rlt_dec d (search_power fs fc hw x N z r)); cbn [map].
  - rewrite IH by (intros; apply B; now right). now rewrite (P r) by (apply B; now left).
  - apply IH. intros; apply B; now right.
Qed.

Lemma grid_range zmax dz zs : (0 < dz)%Q -> z_grid zmax dz zs -> range_z zmax dz = zs.
Proof.
  intros Hd [G L]. unfold range_z, arange.
  assert (E : arange_len (- zmax) zmax dz = length zs).
  { destruct (Nat.lt_trichotomy (length zs) (arange_len (- zmax) zmax dz)) as [C|[C|C]]; [|now symmetry|]; exfalso.
    - apply (proj1 (arange_len_spec (- zmax) zmax dz (length zs) Hd)) in C. Lqa.lra.
    - destruct (G (arange_len (- zmax) zmax dz) C) as [E1 E2]. rewrite E1 in E2.
      apply (proj2 (arange_len_spec (- zmax) zmax dz _ Hd)) in E2. lia. }
  rewrite E. rewrite <- (map_nth_self zs 0%Q) at 2. apply map_ext_in. intros i Hi. apply in_seq in Hi.
  symmetry. apply G. lia.
Qed.
Lemma combine_index {A B} (f : A -> B) l d :
  combine (map f l) (seq 0 (length (map f l))) = map (fun j => (f (nth j l d), j)) (seq 0 (length l)).
Proof.
  rewrite map_length. rewrite <- (map_nth_self l d) at 1. rewrite map_map.
  rewrite <- (map_id (seq 0 (length l))) at 2. now rewrite combine_map2.
Qed.

(* everything after the gaps have been filled *)
Lemma search_main srt pool (numba : bool) (cast : Q -> Q) times signal counts dz fmin fmax gti zmax ref pv hw zs t0 t1 tl expo start d :
  (forall l, Permutation (pool l) l) ->
  get times 0 = Ok t0 -> get times 1 = Ok t1 -> get_last times = Ok tl ->
  0 < Q2R (qsum signal) -> counts <> [] ->
  fill_gaps numba cast times signal gti (t1 - t0)%Q = Ok (Some counts, expo, start) ->
  (0 < dz)%Q -> zs <> [] -> z_grid zmax dz zs -> (forall z, In z zs -> ~ slow z -> half_width z (hw z)) ->
  let x := map Q2R counts in
  let nt := length (searched (length x) (Q2R (t1 - t0)) fmin fmax) in
  pds_detection_level isf pv nt 1 1 = Some d ->
  exists rows, accelsearch fs fc sf isf srt pool numba cast (fun a => a) times signal dz fmin fmax gti zmax ref false pv = Ok rows /\
    Permutation rows (table fs fc sf hw x (Q2R (qsum signal)) (Q2R (t1 - t0)) fmin fmax d zs (ref + Q2R start) (Q2R (tl - t0 + (t1 - t0))) nt expo).
Proof.
  intros Hp G0 G1 GL HN Hc HF Hd Hz HG HW x nt HD. unfold accelsearch. rewrite G1, G0, GL. cbn [bind].
  rewrite HF. cbn [bind]. rewrite (grid_range zmax dz zs Hd HG).
  destruct zs as [|z0 zs'] eqn:Ezs; [congruence|]. rewrite <- Ezs in *. clear Ezs z0 zs'.
  destruct (Rlt_dec 0 (Q2R (qsum signal))) as [_|C]; [|contradiction].
  set (N := Q2R (qsum signal)) in *. set (dt := Q2R (t1 - t0)) in *. set (T := Q2R (tl - t0 + (t1 - t0))).
  replace (map (fun c => rtoc (Q2R c)) counts) with (map rtoc x) by (unfold x; now rewrite map_map).
  fold (leahy_ft x N). rewrite leahy_len.
  assert (Hx : (0 < length x)%nat). { unfold x. rewrite map_length. destruct counts; [congruence|cbn; lia]. }
  assert (Ent : length (select (fftfreq (length x) dt) (map (in_band fmin fmax) (fftfreq (length x) dt))) = nt).
  { rewrite fftfreq_map by assumption. rewrite (map_map (bin_freq (length x) dt)).
    rewrite (select_map _ (fun r => in_band fmin fmax (bin_freq (length x) dt r))), map_length. reflexivity. }
  rewrite Ent, HD. unfold calculate_all.
  rewrite (combine_index (create_response fs fc) zs 0%Q).
  set (f := fun r : option (list cx) * nat => map (fun r' => (INR r', snd r, search_power fs fc hw x N (nth (snd r) zs 0%Q) r')) (hits fs fc hw x N dt fmin fmax d (nth (snd r) zs 0%Q))).
  rewrite (map_result_ext _ (fun r => Ok (f r))).
  - rewrite map_result_pure. cbn [bind]. eexists. split; [reflexivity|].
    match goal with |- Permutation (map ?F _) _ => set (g := F) end.
    transitivity (map g (concat (map f (map (fun j => (create_response fs fc (nth j zs 0%Q), j)) (seq 0 (length zs)))))).
    { apply Permutation_map, concat_perm, Hp. }
    assert (Eq : map g (concat (map f (map (fun j => (create_response fs fc (nth j zs 0%Q), j)) (seq 0 (length zs)))))
                 = table fs fc sf hw x N dt fmin fmax d zs (ref + Q2R start) T nt expo); [|rewrite Eq; apply Permutation_refl].
    unfold table.
    assert (M : forall G : Q -> list row, map G zs = map (fun j => G (nth j zs 0%Q)) (seq 0 (length zs))).
    { intros G. rewrite <- (map_nth_self zs 0%Q) at 1. now rewrite map_map. }
    rewrite flat_map_concat_map, M, !map_map, concat_map, map_map.
    f_equal. apply map_ext. intros j. unfold f. cbn [snd]. rewrite map_map. reflexivity.
  - intros [r j] Hr. apply in_map_iff in Hr. destruct Hr as (j' & E & Hj). injection E as <- <-. apply in_seq in Hj.
    unfold f. cbn [snd]. apply one_response; auto. apply HW. apply nth_In. lia.
Qed.
End Main.
