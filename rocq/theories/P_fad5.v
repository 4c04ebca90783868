(* P_fad5.v: witnesses for the Fourier amplitude difference correction *)
From Coq Require Import Reals Qreals.
From Verif Require Import Np Lib M_gti M_seg M_utils Cplx M_fourier M_flux S_gti S_seg S_flux S_utils S_fourier S_fad M_fad P_gti_final P_norm P_fad P_fad2 P_fad3 P_fad4 P_flux P_flux2 P_flux3.
From Coq Require Import Reals List Bool Arith Lra Lia.
From Coq Require Lqa.
Import ListNotations.
Open Scope R_scope.

(* a filter with an infinitely long window *)
Definition flat (l : list R) (s : R) : list R := map (fun _ => avg (fun x => x) l) l.
Lemma flat_length l s : length (flat l s) = length l.
Proof. apply map_length. Qed.
Lemma flat_scaled c l s : flat (map (Rmult c) l) s = map (Rmult c) (flat l s).
Proof.
  unfold flat. rewrite !map_map. apply map_ext. intros x. unfold avg. rewrite map_length. rewrite !map_id.
  assert (E : rlsum (map (Rmult c) l) = c * rlsum l). { induction l as [|y l IH]; cbn; [ring|]. unfold rlsum in IH. rewrite IH. ring. }
  rewrite E. unfold Rdiv. ring.
Qed.
Definition seg_of (l : list R) : seg := Build_seg l None.
Definition ex1 : list (option seg) := [Some (seg_of [1; 2; 0; 1])].
Definition ex2 : list (option seg) := [Some (seg_of [3; 0; 1; 0])].
Lemma quarter j : 2 * PI * INR (j * 1) / INR 4 = INR j * (PI / 2).
Proof. rewrite Nat.mul_1_r. replace (INR 4) with 4 by (cbn; ring). field. Qed.
Lemma dft4 a b c d : dft [a; b; c; d] 1 = (a - c, d - b).
Proof.
  unfold dft. cbn [length]. cbn [rs rlsum seq map fold_right]. unfold rs. cbn [seq map]. unfold rlsum. cbn [fold_right]. unfold val. cbn [nth]. rewrite !quarter.
  replace (INR 0) with 0 by reflexivity. replace (INR 1) with 1 by reflexivity. replace (INR 2) with 2 by (cbn; ring). replace (INR 3) with 3 by (cbn; ring).
  replace (0 * (PI / 2)) with 0 by ring. replace (1 * (PI / 2)) with (PI / 2) by ring. replace (2 * (PI / 2)) with PI by field. replace (3 * (PI / 2)) with (3 * (PI / 2)) by reflexivity.
  rewrite cos_0, sin_0, cos_PI2, sin_PI2, cos_PI, sin_PI, cos_3PI2, sin_3PI2. f_equal; ring.
Qed.
Lemma ex_scatter sm : (forall l, length l = 1%nat -> sm l = l) -> scatter sm 4 (seg_of [1; 2; 0; 1], seg_of [3; 0; 1; 0]) 1 = 1 / 2.
Proof.
  intros H. unfold scatter. rewrite H by reflexivity. change (n_pos 4) with 1%nat. cbn [seq map nth Nat.sub]. unfold leahy_difference. cbn [fst snd seg_of s_flux]. rewrite !dft4. unfold photons. cbn [seg_of s_flux].
  replace (rlsum [1; 2; 0; 1]) with 4 by (cbn; ring). replace (rlsum [3; 0; 1; 0]) with 4 by (cbn; ring). unfold re. cbn [fst]. 
  replace (((1 - 0) * sqrt (2 / 4) - (3 - 1) * sqrt (2 / 4)) ^ 2) with (sqrt (2 / 4) * sqrt (2 / 4)) by ring. rewrite sqrt_sqrt by lra. lra.
Qed.
Lemma flat_one s l : length l = 1%nat -> flat l s = l.
Proof. destruct l as [|x [|y l]]; try discriminate. intros _. unfold flat, avg. cbn. f_equal. field. Qed.
Lemma ex_fits : fits 4 ex1 ex2.
Proof. intros p [<-|[]]. repeat split. Qed.
Lemma ex_some : both ex1 ex2 <> [].
Proof. discriminate. Qed.
Lemma ex_ok norm : kind norm None <> None -> exists t, fad flat true (Some 3) (1 / 20) false 1 norm ex1 ex2 = Ok t.
Proof.
  intros Hk. pose proof (fad_columns flat (Some 3) (1 / 20) false 1 norm ex1 ex2 4 flat_length ltac:(lia) Hk ex_fits ex_some) as C. cbv zeta in C. cbn [andb] in C. eexists. exact C.
Qed.
Lemma ex_value : exists t, fad flat true (Some 3) (1 / 20) false 1 NoNorm ex1 ex2 = Ok t /\ t_pds1u t = [8] /\ t_pds2u t = [16] /\ t_csu t = [(8, 8)] /\ t_ptotu t = [40].
Proof.
  destruct (ex_ok NoNorm) as [t T]; [discriminate|]. exists t. split; [exact T|].
  destruct (raw_columns flat (Some 3) (1 / 20) 1 false NoNorm ex1 ex2 4 t flat_length ltac:(lia) ltac:(discriminate) ex_fits ex_some T) as (A & B & C & D).
  rewrite A, B, C, D. change (n_pos 4) with 1%nat. change (both ex1 ex2) with [(seg_of [1; 2; 0; 1], seg_of [3; 0; 1; 0])].
  cbn [seq map]. unfold cavg, avg. cbn [map length]. rewrite ex_scatter by (intros l L; now apply flat_one).
  unfold S_fourier.pow1, S_fourier.pow2, cpower, power_at, cross_at, together. cbn [fst snd seg_of s_flux combine map]. rewrite !dft4. unfold cscal, re, im, rlsum. cbn [fst snd fold_right]. change (INR 1) with 1.
  repeat split; f_equal; try f_equal; field.
Qed.
Lemma n_refuted : exists gaussian dt norm segs1 segs2 n t g,
  (forall l s, length (gaussian l s) = length l) /\ fits n segs1 segs2 /\ both segs1 segs2 <> [] /\
  fad gaussian true None (1 / 20) false dt norm segs1 segs2 = Ok t /\ periodograms_from_fad t KPds1 = Ok g /\ g_n g <> n.
Proof.
  pose proof (fad_columns flat None (1 / 20) false 1 Leahy ex1 ex2 4 flat_length ltac:(lia) ltac:(discriminate) ex_fits ex_some) as C. cbv zeta in C. cbn [andb] in C.
  exists flat, 1, Leahy, ex1, ex2, 4%nat. eexists. eexists.
  split; [exact flat_length|]. split; [exact ex_fits|]. split; [exact ex_some|]. split; [exact C|]. split; [reflexivity|].
  cbn [g_n periodogram_of t_freq]. rewrite map_length, seq_length. discriminate.
Qed.
Lemma gti_both srt g1 g2 : sorts_by t_end srt -> good g1 -> good g2 -> no_touching g1 g2 ->
  exists r, fad_gtis srt g1 g2 = Ok (r, r) /\ well_formed r /\ forall t, covered r t <-> covered g1 t /\ covered g2 t.
Proof.
  intros Hs G1 G2 N. destruct (cross_two_exact srt g1 g2 Hs G1 G2 N) as (r & E & W & _ & _ & C). exists r. unfold fad_gtis. rewrite E. auto.
Qed.
Open Scope Q_scope.
Lemma gti_changed_refuted : exists g1 g2 g1' g2' t,
  good g1 /\ good g2 /\ fad_gtis (isort_by t_end) g1 g2 = Ok (g1', g2') /\ covered g1 t /\ ~ covered g1' t.
Proof.
  exists [(0, 10)], [(5, 10)]. eexists. eexists. exists 1. split; [apply good_dec; reflexivity|]. split; [apply good_dec; reflexivity|].
  split; [vm_compute; reflexivity|]. split; [exists 0, 10; split; [now left|Lqa.lra]|]. intros (a & b & [H|[]] & A & B). injection H as <- <-. Lqa.lra.
Qed.
Lemma event_bins_refuted : exists times g size dt f t k v,
  good g /\ 0 < dt /\ dt < size /\ nondecreasing times /\ flux_generator_events true times g size dt = Ok [Some (f, None)] /\
  In t times /\ nq k * dt <= t /\ t < nq (S k) * dt /\ nth_error f k = Some v /\ v == 0 /\ (exists h, g = [(0, h)]).
Proof.
  exists [0; 21 # 20; 3], [(0, 27 # 5)], (27 # 5), 1. eexists. exists (21 # 20), 1%nat. eexists.
  split; [apply good_dec; reflexivity|]. split; [reflexivity|]. split; [reflexivity|]. split; [apply nondec_dec; reflexivity|].
  split; [vm_compute; reflexivity|].
  split; [right; left; reflexivity|]. split; [discriminate|]. split; [reflexivity|]. split; [reflexivity|]. split; [reflexivity|]. eexists. reflexivity.
Qed.
