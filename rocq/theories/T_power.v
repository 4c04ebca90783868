(* T_power.v: property theorems about integrated powers and shift-and-add (C34, C58). *)
From Verif Require Import Np Lib M_power S_power P_power P_shift.
From Coq Require Import Lqa Sorting.Sorted.
Open Scope Q_scope.

Definition ex_bin (f p : Q) : pbin := {| b_f := f; b_df := 1; b_p := p; b_noise := 0; b_err := 1 |}.

(* ---------- C34 ---------- *)
Theorem C34_integral_partial : forall rows lo hi, bins_ok rows -> range_ok rows lo hi -> forall m,
  exists v e, integrate_power rows lo hi m = Ok (v, e) /\
  v == integral rows lo hi /\
  e == integral_var (fun r => match m with Some m => b_p r * b_p r / m | None => b_err r * b_err r end) rows lo hi.
Proof. exact integrate_gen. Qed.
Print Assumptions C34_integral_partial.
Theorem C34_additive_partial : forall rows a b c m,
  bins_ok rows ->
  range_ok rows a b -> range_ok rows b c -> range_ok rows a c ->
  exists v1 e1 v2 e2 v e, integrate_power rows a b m = Ok (v1, e1) /\ integrate_power rows b c m = Ok (v2, e2) /\
    integrate_power rows a c m = Ok (v, e) /\ v == v1 + v2.
Proof. exact integrate_additive. Qed.
Print Assumptions C34_additive_partial.
Theorem C34_full_range : forall r0 l m,
  bins_ok (r0 :: l) ->
  exists v e, integrate_power (r0 :: l) (left_edge r0) (right_edge (last l r0)) m = Ok (v, e) /\
    v == qsum (map (fun r => (b_p r - b_noise r) * b_df r) (r0 :: l)).
Proof. exact integrate_full. Qed.
Print Assumptions C34_full_range.
Theorem C34_single_bin_refuted : 
  exists rows lo hi v e, bins_ok rows /\ lo < hi /\ (forall t, lo <= t -> t <= hi -> exists r, In r rows /\ left_edge r <= t /\ t <= right_edge r) /\
    integrate_power rows lo hi (Some 1) = Ok (v, e) /\ ~ v == integral rows lo hi.
Proof. exact integrate_single_refuted. Qed.
Print Assumptions C34_single_bin_refuted.
Theorem C34_outside_refuted : 
  exists rows lo hi v e, bins_ok rows /\ lo < hi /\ integrate_power rows lo hi (Some 1) = Ok (v, e) /\ ~ v == integral rows lo hi.
Proof. exact integrate_outside_refuted. Qed.
Print Assumptions C34_outside_refuted.
Theorem C34_empty_range_error : forall rows lo hi m,
  (forall r, In r rows -> right_edge r <= lo \/ hi <= left_edge r) -> integrate_power rows lo hi m = Err IndexError.
Proof. exact integrate_empty_error. Qed.
Print Assumptions C34_empty_range_error.

Example C34_nonvacuous : let rows := [ex_bin 1 2; ex_bin 2 3; ex_bin 3 5; ex_bin 4 7] in
  bins_ok rows /\ range_ok rows (6 # 5) (27 # 10) /\ range_ok rows (27 # 10) (19 # 5) /\ range_ok rows (6 # 5) (19 # 5) /\
  exists v e, integrate_power rows (6 # 5) (27 # 10) (Some 1) = Ok (v, e) /\ v == 46 # 10.
Proof.
  cbv zeta. split; [split; [repeat constructor|repeat constructor; cbn; discriminate]|].
  assert (E : forall a b, (exists i, nth_error [ex_bin 1 2; ex_bin 2 3; ex_bin 3 5; ex_bin 4 7] i = Some a) ->
     (exists i, nth_error [ex_bin 1 2; ex_bin 2 3; ex_bin 3 5; ex_bin 4 7] i = Some b) ->
     forall lo hi, qlt lo hi && (qle (left_edge a) lo && qlt lo (right_edge a)) && (qlt (left_edge b) hi && qle hi (right_edge b)) &&
       forallb (fun r => negb (qlt (left_edge r) lo && qle hi (right_edge r))) [ex_bin 1 2; ex_bin 2 3; ex_bin 3 5; ex_bin 4 7] = true ->
     range_ok [ex_bin 1 2; ex_bin 2 3; ex_bin 3 5; ex_bin 4 7] lo hi).
  { intros a b [i Ha] [j Hb] lo hi H. apply nth_error_In in Ha. apply nth_error_In in Hb.
    rewrite !andb_true_iff, !qlt_t, !qle_t, forallb_forall in H. destruct H as (((H1 & H2 & H3) & H4 & H5) & H6).
    split; [exact H1|]. split; [exists a; auto|]. split; [exists b; auto|].
    intros r Hr G1 G2. specialize (H6 r Hr). rewrite negb_true_iff, andb_false_iff, qlt_f, qle_f in H6. destruct H6; lra. }
  split; [apply (E (ex_bin 1 2) (ex_bin 3 5)); [exists 0%nat; reflexivity|exists 2%nat; reflexivity|reflexivity]|].
  split; [apply (E (ex_bin 3 5) (ex_bin 4 7)); [exists 2%nat; reflexivity|exists 3%nat; reflexivity|reflexivity]|].
  split; [apply (E (ex_bin 1 2) (ex_bin 4 7)); [exists 0%nat; reflexivity|exists 3%nat; reflexivity|reflexivity]|].
  eexists _, _. split; [vm_compute; reflexivity|reflexivity].
Qed.

(* ---------- C58: slices around a frequency, shift-and-add ---------- *)
Theorem C58_extract_slice : forall freqs powers f0 nbins,
  length freqs = length powers ->
  exists c, extract_slice freqs powers f0 nbins = Ok c /\ length c = nbins /\
    forall j, (j < nbins)%nat ->
      let i := source (Z.of_nat (searchsorted_left freqs f0)) nbins j in
      nth j c None = if inside (length powers) i then Some (nth (Z.to_nat i) powers 0) else None.
Proof. exact extract_main. Qed.
Print Assumptions C58_extract_slice.
Theorem C58_shift_and_average_partial : forall size arr0 arrs ws centers nbins,
  length arr0 = size ->
  (forall t, In t (combine centers (combine (arr0 :: arrs) ws)) -> length (fst (snd t)) = size /\ one_end size nbins (fst t)) ->
  exists p n, shift_and_average_core (arr0 :: arrs) ws centers nbins = Ok (p, n) /\ length p = nbins /\ length n = nbins /\
    forall j, (j < nbins)%nat ->
      let l := combine centers (combine (arr0 :: arrs) ws) in
      nth j n 0 == sa_weight size nbins j l /\
      (sa_weight size nbins j l == 0 -> nth j p None = None) /\
      (~ sa_weight size nbins j l == 0 ->
         exists v, nth j p None = Some v /\ v == sa_total size nbins j l / sa_weight size nbins j l).
Proof. exact core_main. Qed.
Print Assumptions C58_shift_and_average_partial.
Theorem C58_frequencies : forall freqs arr0 arrs f0s nbins ws df f p n,
  (0 < nbins)%nat ->
  shift_and_add freqs (arr0 :: arrs) f0s nbins ws (Some df) = Ok (f, p, n) ->
  length f = nbins /\
  forall j, (j < nbins)%nat ->
    nth j f 0 == qsum f0s / inject_Z (Z.of_nat (length f0s))
                 + (inject_Z (Z.of_nat j) - (inject_Z (Z.of_nat nbins) - 1) / 2) * df.
Proof. exact sa_freqs. Qed.
Print Assumptions C58_frequencies.
Theorem C58_frequencies_odd_partial : forall freqs arr0 arrs f0s nbins ws df f p n,
  Nat.odd nbins = true ->
  shift_and_add freqs (arr0 :: arrs) f0s nbins ws (Some df) = Ok (f, p, n) ->
  length f = nbins /\
  forall j c, (j < nbins)%nat ->
    nth j f 0 == qsum f0s / inject_Z (Z.of_nat (length f0s)) + inject_Z (source c nbins j - c) * df.
Proof. exact sa_freqs_odd. Qed.
Print Assumptions C58_frequencies_odd_partial.
Theorem C58_even_bins_refuted : 
  exists freqs powers f0 c f p n v, nth_error freqs c = Some f0 /\
    shift_and_add freqs [powers] [f0] 4 [1] (Some 1) = Ok (f, p, n) /\
    nth_error p 2 = Some (Some v) /\ v == nth c powers 0 /\ ~ nth 2 f 0 == f0.
Proof. exact sa_even_refuted. Qed.
Print Assumptions C58_even_bins_refuted.
Theorem C58_both_ends_refuted : 
  exists freqs powers f0, length freqs = length powers /\ In f0 freqs /\
    shift_and_add freqs [powers] [f0] 10 [1] (Some 1) = Err IndexError.
Proof. exact sa_both_ends_refuted. Qed.
Print Assumptions C58_both_ends_refuted.

Example C58_nonvacuous : (forall t, In t (combine [1; 2; 3]%Z (combine [[2; 5; 2; 2; 2]; [1; 1; 5; 1; 1]; [3; 3; 3; 5; 3]] [1; 1; 1])) ->
    length (fst (snd t)) = 5%nat /\ one_end 5 5 (fst t)) /\
  exists f p n, shift_and_add [0; 1; 2; 3; 4] [[2; 5; 2; 2; 2]; [1; 1; 5; 1; 1]; [3; 3; 3; 5; 3]] [1; 2; 3] 5 [1; 1; 1] (Some 1) = Ok (f, p, n) /\
    nth 2 f 0 == 2 /\ (exists v, nth 2 p None = Some v /\ v == 5) /\ nth 0 n 0 == 2.
Proof.
  split.
  - intros t H. cbn in H. destruct H as [ <- |[ <- |[ <- |[]]]]; (split; [reflexivity|]); unfold one_end; cbn [fst]; change (Z.of_nat 5 / 2)%Z with 2%Z; lia.
  - eexists _, _, _. split; [vm_compute; reflexivity|]. split; [reflexivity|]. split; [eexists; split; reflexivity|reflexivity].
Qed.

