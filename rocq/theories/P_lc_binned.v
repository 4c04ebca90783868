(* P_lc_binned.v: binned time series made from event lists (C21). *)
From Verif Require Import Np Lib S_gti S_seg S_utils S_lc M_gti M_seg M_utils M_lc P_seg_regions P_seg_cut P_hist P_lc_make P_base2.
From Coq Require Import Lqa.
Open Scope Q_scope.
Lemma in_bin_within lo dt n k t : (0 < n)%nat -> in_bin (lo, lo + inject_Z (Z.of_nat n) * dt) n k t = within (bin_edge lo dt k) (bin_edge lo dt (S k)) t.
Proof.
  intros Hn. pose proof (bins_pos n Hn) as P. unfold in_bin, within, bin_edge. cbn [fst snd].
  assert (E : (lo + inject_Z (Z.of_nat n) * dt - lo) / inject_Z (Z.of_nat n) == dt) by (field; lra).
  set (w := (lo + inject_Z (Z.of_nat n) * dt - lo) / inject_Z (Z.of_nat n)) in *. clearbody w.
  rewrite (Nat2Z.inj_succ k). unfold Z.succ. set (x := inject_Z (Z.of_nat k)) in *. set (y := inject_Z (Z.of_nat k + 1)) in *. clearbody x y.
  assert (E1 : x * w == x * dt) by (rewrite E; reflexivity). assert (E2 : y * w == y * dt) by (rewrite E; reflexivity).
  f_equal; [destruct (qle (lo + x * dt) t) eqn:A; destruct (qle (lo + x * w) t) eqn:B|destruct (qlt t (lo + y * dt)) eqn:A; destruct (qlt t (lo + y * w)) eqn:B]; try reflexivity; qb; lra.
Qed.
Lemma binned_main events attrs gti dt first last (n : nat) : 0 < dt -> nth_error gti 0 = Some first -> nth_error gti (length gti - 1) = Some last ->
  inject_Z (Z.of_nat n) * dt <= snd last - fst first -> snd last - fst first < (inject_Z (Z.of_nat n) + 1) * dt -> (0 < n)%nat ->
  exists times counts cols, to_binned_timeseries events attrs gti dt = Ok (times, counts, cols) /\
    length times = n /\ length counts = n /\ length cols = length attrs /\
    (forall i t, nth_error times i = Some t -> t == bin_edge (fst first) dt i + dt / 2) /\
    (forall i, (i < n)%nat -> exists c, nth_error counts i = Some c /\
       c == inject_Z (Z.of_nat (count (within (bin_edge (fst first) dt i) (bin_edge (fst first) dt (S i))) events))) /\
    (forall j w v, nth_error attrs j = Some w -> nth_error cols j = Some v -> length v = n /\
       forall i, (i < n)%nat -> exists c, nth_error v i = Some c /\
         c == content (within (bin_edge (fst first) dt i) (bin_edge (fst first) dt (S i))) (combine events w)).
Proof.
  intros Hd Hf Hl H1 H2 Hn. unfold to_binned_timeseries.
  assert (A1 : get gti 0 = Ok first) by (apply get_nth; assumption). assert (A2 : get_last gti = Ok last) by (apply get_last_nth'; split; [assumption|intros ->; discriminate]).
  rewrite A1, A2. cbn [bind]. set (lo := fst first) in *. pose proof (bins_pos n Hn) as P.
  assert (N : Z.to_nat (py_int ((snd last - lo) / dt)) = n).
  { assert (Q1 : inject_Z (Z.of_nat n) <= (snd last - lo) / dt) by (apply Qle_shift_div_l; assumption).
    assert (Q2 : (snd last - lo) / dt < inject_Z (Z.of_nat n) + 1) by (apply Qlt_shift_div_r; assumption).
    set (q := (snd last - lo) / dt) in *. clearbody q. unfold py_int. replace (qle 0 q) with true by (symmetry; apply qle_t; lra).
    assert (F1 : (Z.of_nat n <= Qfloor q)%Z) by (rewrite <- (Qfloor_Z (Z.of_nat n)); apply Qfloor_resp_le; assumption).
    assert (F2 : (Qfloor q < Z.of_nat n + 1)%Z) by (rewrite Zlt_Qlt, inject_Z_plus; pose proof (Qfloor_le q); change (inject_Z 1) with 1; lra). lia. }
  rewrite N. set (r := (lo, lo + inject_Z (Z.of_nat n) * dt)). assert (Hr : fst r < snd r) by (unfold r; cbn [fst snd]; nra).
  do 3 eexists. split; [reflexivity|]. split; [|split; [|split; [|split; [|split]]]].
  - unfold arange. rewrite map_length, seq_length. cbn [snd r].
    assert (K : forall i, (i < arange_len (lo + dt * (1 # 2)) (lo + inject_Z (Z.of_nat n) * dt) dt)%nat <-> (i < n)%nat).
    { intros i. rewrite arange_len_spec by assumption. split; intros H.
      - destruct (Nat.le_gt_cases n i) as [C|C]; [|assumption]. exfalso. assert (inject_Z (Z.of_nat n) <= inject_Z (Z.of_nat i)) by (rewrite <- Zle_Qle; lia). nra.
      - assert (inject_Z (Z.of_nat i) + 1 <= inject_Z (Z.of_nat n)) by (change 1 with (inject_Z 1); rewrite <- inject_Z_plus, <- Zle_Qle; lia). nra. }
    set (m := arange_len (lo + dt * (1 # 2)) (lo + inject_Z (Z.of_nat n) * dt) dt) in *.
    pose proof (K n). pose proof (K m). lia.
  - apply (hist1d_main events n r Hr Hn).
  - apply map_length.
  - intros i t Hi. apply nth_arange in Hi; [|assumption]. destruct Hi as [-> _]. unfold bin_edge. field.
  - intros i Hi. destruct (hist1d_main events n r Hr Hn) as (_ & HH & _). destruct (HH i Hi) as (h & E & Eh). exists h. split; [assumption|]. rewrite Eh.
    rewrite (count_ext (in_bin r n i) (within (bin_edge lo dt i) (bin_edge lo dt (S i)))); [reflexivity|]. intros a _. apply in_bin_within. assumption.
  - intros j w v Hw Hv. rewrite nth_error_map, Hw in Hv. assert (Ev : v = hist1d_weight (fun v => v) events w n r) by (cbn [option_map] in Hv; congruence). subst v.
    destruct (hist1d_weight_main events w n r Hr Hn) as (L & HH & _). split; [exact L|]. intros i Hi. destruct (HH i Hi) as (h & E & Eh). exists h. split; [exact E|]. rewrite Eh.
    rewrite (content_ext (in_bin r n i) (within (bin_edge lo dt i) (bin_edge lo dt (S i)))); [reflexivity|]. intros a. apply in_bin_within. assumption.
Qed.
