(* P_zhang3.v: the dead time models as a whole *)
From Verif Require Import Np Lib M_utils Cplx M_espec S_zhang M_zhang P_zhang P_zhang2.
From Coq Require Import Lra Lia.
Open Scope R_scope.

Lemma zhang_len N tau r0 td tb L : length (inner_loop_pds_zhang N tau r0 td tb L) = (N / 2)%nat.
Proof. unfold inner_loop_pds_zhang. now rewrite map_length, seq_length. Qed.
Lemma half_pos N : (2 <= N)%nat -> (1 <= N / 2)%nat.
Proof. intros H. change 1%nat with (2 / 2)%nat. now apply Nat.div_le_mono. Qed.
Lemma zhang_incident N rate td tb L : 0 < rate -> 0 <= td -> 0 < tb -> (2 <= N)%nat -> exists r0, r_det td rate = Ok r0 /\
  pds_model_zhang N rate td tb L true = Ok (map (fun i => INR i * (1 / (2 * INR (N / 2) * tb))) (seq 0 (N / 2)), inner_loop_pds_zhang N (1 / rate) r0 td tb L).
Proof.
  intros Hr Hd Hb HN. destruct (rates_inverse td rate Hd Hr) as (r0 & E & _). exists r0. split; [exact E|]. unfold pds_model_zhang.
  rewrite py_div_ok by lra. cbn [bind]. rewrite E. cbn [bind]. rewrite zhang_len, py_div_ok by lra. cbn [bind].
  assert (Z : INR (N / 2) <> 0) by (apply not_0_INR; pose proof (half_pos N HN); lia). rewrite py_div_ok by exact Z. cbn [bind]. f_equal. f_equal.
  apply map_ext. intros i. field. split; [lra|exact Z].
Qed.
Lemma zhang_detected N r r0 td tb L : 0 < r -> 0 <= td -> r_det td r = Ok r0 ->
  pds_model_zhang N r0 td tb L false = pds_model_zhang N r td tb L true.
Proof.
  intros Hr Hd E. destruct (rates_inverse td r Hd Hr) as (r0' & E' & I & _). rewrite E in E'. injection E' as <-. unfold pds_model_zhang.
  rewrite E, I. cbn [bind]. rewrite !py_div_ok by lra. reflexivity.
Qed.
(* an even number of bins: frequencies and powers *)
Lemma zhang_main h rate td tb L : 0 < rate -> 0 <= td -> 0 < tb -> (1 <= h)%nat -> (2 * h <= L)%nat ->
  exists r0 f P, r_det td rate = Ok r0 /\ pds_model_zhang (2 * h) rate td tb L true = Ok (f, P) /\ length f = h /\ length P = h /\
  (forall j, (j < h)%nat -> nth_error f j = Some (INR j / (INR (2 * h) * tb))) /\
  (forall j, (0 < j < h)%nat -> nth_error P j = Some (leahy_mean (2 * h) (r0 * tb) (fun k => a_single_k k r0 td tb (1 / rate)) j)).
Proof.
  intros Hr Hd Hb Hh HL. destruct (zhang_incident (2 * h) rate td tb L Hr Hd Hb ltac:(lia)) as (r0 & E & Z).
  destruct (rates_inverse td rate Hd Hr) as (r0' & E' & _ & P0 & _). rewrite E in E'. injection E' as <-.
  assert (H2 : (2 * h / 2 = h)%nat) by (rewrite Nat.mul_comm; apply Nat.div_mul; lia). rewrite H2 in Z.
  eexists. eexists. eexists. split; [exact E|]. split; [exact Z|]. rewrite map_length, seq_length, zhang_len, H2. split; [reflexivity|]. split; [reflexivity|]. split.
  - intros j Hj. rewrite nth_error_map, (nth_error_nth' _ 0%nat) by (rewrite seq_length; lia). rewrite seq_nth by lia. cbn [option_map Nat.add]. f_equal.
    rewrite mult_INR. cbn [INR]. field. split; [lra|]. apply not_0_INR. lia.
  - intros j Hj. apply power_leahy; [exact HL|nra|rewrite H2; exact Hj].
Qed.
(* an odd number: the second frequency is 1/4 although the powers are those of 1/5 *)
Lemma zhang_odd_refuted : exists N rate td tb L f P, pds_model_zhang N rate td tb L true = Ok (f, P) /\ 0 < rate /\ 0 < td /\ 0 < tb /\ (N <= L)%nat /\
  exists j v, nth_error f j = Some v /\ v <> INR j / (INR N * tb) /\
  exists r0, r_det td rate = Ok r0 /\ nth_error P j = Some (leahy_mean N (r0 * tb) (fun k => a_single_k k r0 td tb (1 / rate)) j).
Proof.
  destruct (zhang_incident 5 1 1 1 5) as (r0 & E & Z); [lra|lra|lra|lia|]. destruct (rates_inverse 1 1 ltac:(lra) ltac:(lra)) as (r0' & E' & _ & P0 & _). rewrite E in E'. injection E' as <-.
  exists 5%nat, 1, 1, 1, 5%nat. eexists. eexists. split; [exact Z|]. split; [lra|]. split; [lra|]. split; [lra|]. split; [lia|].
  exists 1%nat. eexists. split; [reflexivity|]. split; [cbn; lra|]. exists r0. split; [exact E|]. apply power_leahy; [lia|nra|cbn; lia].
Qed.
Lemma zhang_too_short N rate td tb L : (N < 2)%nat -> 0 < rate -> 0 <= td -> 0 < tb -> pds_model_zhang N rate td tb L true = Err ZeroDivisionError.
Proof.
  intros HN Hr Hd Hb. destruct (rates_inverse td rate Hd Hr) as (r0 & E & _). unfold pds_model_zhang.
  rewrite py_div_ok by lra. cbn [bind]. rewrite E. cbn [bind]. rewrite zhang_len, py_div_ok by lra. cbn [bind]. replace (N / 2)%nat with 0%nat.
  - cbn [INR]. rewrite py_div_0. reflexivity.
  - symmetry. apply Nat.div_small. exact HN.
Qed.

(* ---- the model at given frequencies ---- *)
Lemma dead_time_main interp freqs td rate tb L bkg n : 0 < td -> 0 <= bkg -> 0 < rate + bkg -> (rate + bkg) * td < 1 -> 0 < tb -> (1 <= n)%nat ->
  exists ri f P, r_in td (rate + bkg) = Ok ri /\ pds_model_zhang (n * 2) ri td tb L true = Ok (f, P) /\
  non_paralyzable_dead_time_model interp freqs td rate (Some tb) L bkg (Some n) =
    Ok (interp f (map (fun p => 2 + (p - 2) * (rate / (rate + bkg))) P) freqs).
Proof.
  intros Hd Hk Hr Ht Hb Hn. destruct (rates_inverse2 td (rate + bkg) ltac:(lra) Hr Ht) as (ri & I & D & G).
  destruct (zhang_incident (n * 2) ri td tb L ltac:(lra) ltac:(lra) Hb ltac:(lia)) as (r0 & E & Z). rewrite D in E. injection E as <-.
  eexists. eexists. eexists. split; [exact I|]. split; [exact Z|]. unfold non_paralyzable_dead_time_model. rewrite py_div_ok by lra. cbn [bind].
  destruct (Rlt_dec (1 / td) (rate + bkg)) as [X|_].
  { exfalso. apply (Rmult_lt_compat_r td) in X; [|exact Hd]. replace (1 / td * td) with 1 in X by (field; lra). lra. }
  cbn [model_size bind]. rewrite (zhang_detected _ ri) by (lra || exact D). rewrite Z. cbn [bind fst snd]. f_equal. f_equal.
  destruct (Rlt_dec 0 bkg) as [_|N].
  - apply map_ext. intros p. field. lra.
  - assert (bkg = 0) by lra. subst bkg. rewrite <- (map_id (inner_loop_pds_zhang _ _ _ _ _ _)) at 1. apply map_ext. intros p. field. lra.
Qed.
Lemma fold_max_ge l : forall a, a <= fold_left Rmax l a /\ (forall b, In b l -> b <= fold_left Rmax l a) /\ (fold_left Rmax l a = a \/ In (fold_left Rmax l a) l).
Proof.
  induction l as [|c l IH]; intros a; cbn [fold_left]; [split; [lra|split; [intros ? []|now left]]|].
  destruct (IH (Rmax a c)) as (H1 & H2 & H3). pose proof (Rmax_l a c). pose proof (Rmax_r a c). split; [lra|]. split.
  - intros b [->|Hb]; [lra|now apply H2].
  - destruct H3 as [H3|H3]; [|right; now right]. rewrite H3. unfold Rmax. destruct (Rle_dec a c); [right; now left|now left].
Qed.
Lemma dead_time_default interp freqs td rate L bkg n_approx F : In F freqs -> (forall g, In g freqs -> g <= F) -> 0 < F ->
  non_paralyzable_dead_time_model interp freqs td rate None L bkg n_approx = non_paralyzable_dead_time_model interp freqs td rate (Some (1 / (2 * F))) L bkg n_approx /\
  (10 <= F -> model_size freqs None = Ok (floor_nat F * 2)%nat).
Proof.
  intros HF HM HP. assert (E : max_list freqs = Ok F).
  { destruct freqs as [|a l]; [contradiction|]. cbn [max_list]. f_equal. destruct (fold_max_ge l a) as (H1 & H2 & H3). apply Rle_antisym.
    - destruct H3 as [->|H3]; [apply HM; now left|apply HM; now right].
    - destruct HF as [->|HF]; [exact H1|now apply H2]. }
  split.
  - unfold non_paralyzable_dead_time_model. destruct (py_div 1 td) as [inv|e]; [|reflexivity]. cbn [bind]. destruct (Rlt_dec inv _); [reflexivity|].
    rewrite E. cbn [bind]. rewrite py_div_ok by lra. reflexivity.
  - intros H. unfold model_size. rewrite E. cbn [bind]. now rewrite Rmax_left by exact H.
Qed.
Lemma dead_time_unphysical interp freqs td rate tb L bkg n : 0 < td -> 1 < (rate + bkg) * td ->
  non_paralyzable_dead_time_model interp freqs td rate tb L bkg n = Err ValueError.
Proof.
  intros Hd H. unfold non_paralyzable_dead_time_model. rewrite py_div_ok by lra. cbn [bind]. destruct (Rlt_dec (1 / td) (rate + bkg)) as [_|N]; [reflexivity|].
  exfalso. apply N. apply (Rmult_lt_reg_r td); [exact Hd|]. replace (1 / td * td) with 1 by (field; lra). exact H.
Qed.
Lemma dead_time_saturated interp freqs td tb L bkg n : 0 < td ->
  non_paralyzable_dead_time_model interp freqs td (1 / td - bkg) (Some tb) L bkg (Some n) = Err ZeroDivisionError.
Proof.
  intros Hd. unfold non_paralyzable_dead_time_model. rewrite py_div_ok by lra. cbn [bind]. replace (1 / td - bkg + bkg) with (1 / td) by ring.
  destruct (Rlt_dec (1 / td) (1 / td)); [lra|]. cbn [bind model_size]. unfold pds_model_zhang. rewrite rate_saturated by lra. reflexivity.
Qed.
(* documented: as many bins as there are frequencies *)
Lemma floor_nat_INR k : floor_nat (INR k) = k.
Proof.
  unfold floor_nat. rewrite INR_IZR_INZ.
  assert (E : Int_part (IZR (Z.of_nat k)) = Z.of_nat k).
  { destruct (base_Int_part (IZR (Z.of_nat k))) as [B1 B2]. apply le_IZR in B1. rewrite <- minus_IZR in B2. apply Rgt_lt, lt_IZR in B2. lia. }
  rewrite E. apply Nat2Z.id.
Qed.
Lemma bins_refuted : exists freqs size, model_size freqs None = Ok size /\ length freqs = 2%nat /\ size = (2 * 100)%nat.
Proof.
  exists [50; 100]. eexists. split; [|split; [reflexivity|]].
  - cbn [model_size max_list fold_left bind]. reflexivity.
  - rewrite (Rmax_right 50 100), (Rmax_left 100 10) by lra. replace 100 with (INR 100) by (rewrite INR_IZR_INZ; reflexivity). rewrite floor_nat_INR. reflexivity.
Qed.
