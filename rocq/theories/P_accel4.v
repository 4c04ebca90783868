(* P_accel4.v: gaps, limits of the search, and a worked case. *)
From Verif Require Import Np Lib M_utils M_seg M_base M_stats M_espec Cplx M_fourier M_accel S_fourier S_accel P_dft P_norm P_seg_cut P_lc_make P_accel P_accel2 P_accel3.
From Coq Require Import QArith Qreals Lqa Reals List Arith ZArith Permutation Lra Lia.
Import ListNotations.
Open Scope R_scope.

Lemma no_gaps numba cast times signal t0 dt gti : get times 0 = Ok t0 -> (gti = None \/ exists iv, gti = Some [iv]) ->
  fill_gaps numba cast times signal gti dt = Ok (Some signal, 1, (t0 - dt / 2)%Q).
Proof. intros H [->|[iv ->]]; unfold fill_gaps; now rewrite H. Qed.

(* the value put in the gaps *)
Lemma fill_low signal good : good <> [] -> (qsum signal / inject_Z (Z.of_nat (length signal)) <= 10)%Q ->
  fill_value signal good = Some (qsum good / inject_Z (Z.of_nat (length good)))%Q.
Proof. intros H L. unfold fill_value. destruct good; [congruence|]. now rewrite (proj2 (qlt_f _ _) L). Qed.
Lemma fill_high signal good : good <> [] -> (10 < qsum signal / inject_Z (Z.of_nat (length signal)))%Q ->
  fill_value signal good = median good.
Proof. intros H L. unfold fill_value. destruct good; [congruence|]. now rewrite (proj2 (qlt_t _ _) L). Qed.
Lemma filled_main numba cast times signal g1 g2 g dt mask gt v : 
  create_gti_mask numba times (g1 :: g2 :: g) (0, 0)%Q 0%Q None gti_eps = Ok (mask, gt) ->
  length mask = length signal -> fill_value signal (select signal mask) = Some v ->
  exists counts, fill_gaps numba cast times signal (Some (g1 :: g2 :: g)) dt =
      Ok (Some counts, INR (length (filter (fun b => b) mask)) / INR (length mask), fst g1) /\
    length counts = length signal /\
    (forall i, (i < length signal)%nat -> nth i counts 0%Q = if nth i mask false then nth i signal 0%Q else cast v).
Proof.
  intros M L V. unfold fill_gaps. rewrite M. cbn [bind fst snd]. rewrite V. cbn [option_map].
  eexists. split; [reflexivity|]. split; [rewrite map_length, combine_length; lia|].
  intros i Hi. set (F := fun p : bool * Q => if fst p then snd p else cast v).
  rewrite (nth_indep _ 0%Q (F (false, 0%Q))) by (rewrite map_length, combine_length; lia).
  change (map _ (combine mask signal)) with (map F (combine mask signal)).
  rewrite map_nth, combine_nth by assumption. reflexivity.
Qed.

(* ---- what the search leaves out ---- *)
Lemma one_interval fs fc sf isf srt pool numba cast rescale times signal dz fmin fmax iv zmax ref ib pv :
  accelsearch fs fc sf isf srt pool numba cast rescale times signal dz fmin fmax (Some [iv]) zmax ref ib pv =
  accelsearch fs fc sf isf srt pool numba cast rescale times signal dz fmin fmax None zmax ref ib pv.
Proof. reflexivity. Qed.
Lemma no_acceleration fs fc sf isf srt pool numba cast rescale times signal dz fmin fmax gti ref ib pv t0 t1 tl fg :
  get times 0 = Ok t0 -> get times 1 = Ok t1 -> get_last times = Ok tl -> (0 < dz)%Q ->
  fill_gaps numba cast times signal gti (t1 - t0)%Q = Ok fg ->
  accelsearch fs fc sf isf srt pool numba cast rescale times signal dz fmin fmax gti 0 ref ib pv = Err ValueError.
Proof.
  intros H0 H1 HL Hd HF. unfold accelsearch. rewrite H1, H0, HL. cbn [bind]. rewrite HF. cbn [bind]. destruct fg as [[f e] s].
  rewrite (grid_range 0 dz []); [reflexivity|assumption|]. split; [cbn; lia|]. cbn [length]. change (inject_Z (Z.of_nat 0)) with 0%Q. Lqa.lra.
Qed.
Lemma zmax_missing zmax dz : (0 < dz)%Q -> ~ exists z, In z (range_z zmax dz) /\ (z == zmax)%Q.
Proof.
  intros Hd (z & I & E). unfold range_z in I. apply In_nth_error in I. destruct I as (i & I).
  apply (nth_arange _ _ _ _ _ Hd) in I. destruct I as [I L]. apply (arange_len_spec _ _ _ _ Hd) in L. rewrite <- I in L. Lqa.lra.
Qed.

(* ---- a worked case: three bins, one count ---- *)
Definition w_times : list Q := [0; 1; 2]%Q.
Definition w_signal : list Q := [1; 0; 0]%Q.
Lemma w_grid : z_grid 1 1 [(- (1) + inject_Z (Z.of_nat 0) * 1)%Q; (- (1) + inject_Z (Z.of_nat 1) * 1)%Q].
Proof.
  split.
  - intros i Hi. cbn in Hi. destruct i as [|[|i]]; [split; reflexivity|split; reflexivity|lia].
  - vm_compute. congruence.
Qed.
Lemma w_width z : In z [(- (1) + inject_Z (Z.of_nat 0) * 1)%Q; (- (1) + inject_Z (Z.of_nat 1) * 1)%Q] -> ~ slow z -> half_width z 20.
Proof.
  intros [<-|[<-|[]]] S.
  - exists (-2)%Z. split; [|reflexivity]. split; intros H; [exfalso; revert H; vm_compute; intros H; now apply H|]. split; vm_compute; congruence.
  - exfalso. apply S. split; reflexivity.
Qed.
Lemma w_level : pds_detection_level (fun _ _ => 1) (1 / 2) 1 1 1 = Some 1.
Proof.
  unfold pds_detection_level, p_single_trial, logp_single_trial.
  assert (E : exp (ln (1 / 2)) = 1 / 2) by (apply exp_ln; Lra.lra).
  destruct (Rlt_dec (ln (1 / 2)) (-7)) as [L|L].
  - cbn. f_equal. field.
  - rewrite E. destruct (Rlt_dec (1 - 1 / 2) (1 / 10 ^ 15 * 1000)) as [C|C]; [exfalso; Lra.lra|]. cbn. f_equal. field.
Qed.
Lemma w_bins : searched 3 1 (1 / 10) 1 = [1%nat].
Proof.
  unfold searched. cbn [seq filter]. unfold bin_freq. cbn [Nat.ltb Nat.leb Nat.mul Nat.add INR].
  repeat match goal with |- context [Rle_dec ?a ?b] => destruct (Rle_dec a b); try (exfalso; Lra.lra) end;
  repeat match goal with |- context [Rlt_dec ?a ?b] => destruct (Rlt_dec a b); try (exfalso; Lra.lra) end; reflexivity.
Qed.
Lemma w_power k : power_at [1; 0; 0] k = 1.
Proof.
  unfold power_at, dft. cbn [re im fst snd length]. unfold rs. cbn [seq map rlsum fold_right val nth].
  unfold val. cbn [nth]. rewrite Nat.mul_0_l. change (INR 0) with 0.
  replace (2 * PI * 0 / INR 3) with 0 by (unfold Rdiv; ring). rewrite cos_0, sin_0. ring.
Qed.
