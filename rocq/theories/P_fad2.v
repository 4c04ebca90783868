(* P_fad2.v: the columns of the Fourier amplitude difference correction and what follows from them *)
From Coq Require Import Reals Qreals.
From Verif Require Import Np M_gti M_utils Cplx M_fourier M_flux S_fourier S_fad M_fad P_dft P_norm P_avg P_avgcs P_fad.
From Coq Require Import Reals List Bool Arith Lra Lia.
Import ListNotations.
Open Scope R_scope.

Definition fits (n : nat) (segs1 segs2 : list (option seg)) : Prop :=
  forall p, In p (both segs1 segs2) -> length (s_flux (fst p)) = n /\ length (s_flux (snd p)) = n /\ s_err (fst p) = None /\ s_err (snd p) = None.
Definition length_used (len : option R) (n : nat) (dt : R) : R := match len with Some v => v | None => 3 * (INR n * dt) end.
Lemma sum_to_avg {A} (f : A -> R) l : rlsum (map f l) / INR (length l) = avg f l.
Proof. reflexivity. Qed.
Lemma map_inv_rsk n (f : seg * seg -> nat -> R) us : rmul_inv (rsk n f us) (INR (length us)) = map (fun k => avg (fun p => f p k) us) (seq 1 (n_pos n)).
Proof. unfold rmul_inv, rsk. rewrite map_map. reflexivity. Qed.
Lemma map_inv_csk n (f : seg * seg -> nat -> cx) us : cmul_inv (csk n f us) (INR (length us)) = map (fun k => cavg (fun p => f p k) us) (seq 1 (n_pos n)).
Proof. unfold cmul_inv, csk. rewrite map_map. apply map_ext. intros k. apply cavg_clsum. Qed.
Lemma avg_ext {A} (f g : A -> R) l : (forall a, In a l -> f a = g a) -> avg f l = avg g l.
Proof. intros H. unfold avg. f_equal. f_equal. now apply map_ext_in. Qed.
Lemma cavg_ext {A} (f g : A -> cx) l : (forall a, In a l -> f a = g a) -> cavg f l = cavg g l.
Proof. intros H. unfold cavg. f_equal; apply avg_ext; intros a I; now rewrite H. Qed.
Lemma cstd_spread l : cstd l = spread l.
Proof.
  unfold cstd, spread, cmean. cbv zeta. f_equal. unfold avg. f_equal. f_equal. apply map_ext. intros z.
  pose proof (cavg_clsum (fun z : cx => z) l) as E. rewrite map_id in E. rewrite E. unfold cnorm2, csub, cadd, copp, re, im. cbn [fst snd pow]. ring.
Qed.
Lemma table_eq fr a a' b b' c c' d d' e e' f f' g g' h h' fk de co m dt n1 n2 n3 no le df :
  a = a' -> b = b' -> c = c' -> d = d' -> e = e' -> f = f' -> g = g' -> h = h' ->
  @Ok fad_table (mkTable fr a b c d e f g h fk de co m dt n1 n2 n3 no le df) = Ok (mkTable fr a' b' c' d' e' f' g' h' fk de co m dt n1 n2 n3 no le df).
Proof. intros; subst; reflexivity. Qed.
Lemma fad_columns gaussian len tol strict dt norm segs1 segs2 n :
  (forall l s, length (gaussian l s) = length l) -> (0 < n)%nat -> kind norm None <> None -> fits n segs1 segs2 -> both segs1 segs2 <> [] ->
  let us := both segs1 segs2 in
  let smooth := fun l => gaussian l (length_used len n dt) in
  let ks := seq 1 (n_pos n) in
  let fad_k := map (corrected_difference smooth n us) ks in
  let delta := (spread fad_k - 2 / sqrt (INR (length us))) / (2 / sqrt (INR (length us))) in
  let compliant := if Rlt_dec (Rabs delta) tol then true else false in
  fad gaussian true len tol strict dt norm segs1 segs2 =
  if (strict && negb compliant)%bool then Err RuntimeError else
  Ok (mkTable (map (fun k => INR k / (INR n * dt)) ks)
     (map (fun k => avg (fun p => 2 * S_fourier.pow1 p k / scatter smooth n p k * fac norm None dt n (photons (fst p) / INR n) (photons (fst p))) us) ks)
     (map (fun k => avg (fun p => 2 * S_fourier.pow2 p k / scatter smooth n p k * fac norm None dt n (photons (snd p) / INR n) (photons (snd p))) us) ks)
     (map (fun k => cavg (fun p => cscal (cpower p k) (2 / scatter smooth n p k * fac norm None dt n (pph p / INR n) (pph p))) us) ks)
     (map (fun k => avg (fun p => 2 * power_at (together p) k / scatter smooth n p k * fac norm None dt n ((photons (fst p) + photons (snd p)) / INR n) (photons (fst p) + photons (snd p))) us) ks)
     (map (fun k => avg (fun p => 2 * S_fourier.pow1 p k / scatter smooth n p k) us) ks)
     (map (fun k => avg (fun p => 2 * S_fourier.pow2 p k / scatter smooth n p k) us) ks)
     (map (fun k => cavg (fun p => cscal (cpower p k) (2 / scatter smooth n p k)) us) ks)
     (map (fun k => avg (fun p => 2 * power_at (together p) k / scatter smooth n p k) us) ks)
     fad_k delta compliant (length us) dt (avg (fun p => photons (fst p)) us) (avg (fun p => photons (snd p)) us) (avg (fun p => photons (fst p) + photons (snd p)) us)
     norm (Some (length_used len n dt)) (mean_step (map (fun k => INR k / (INR n * dt)) ks))).
Proof.
  intros Hg Hn Hk F NE us smooth ks fad_k delta compliant. unfold fad.
  assert (GL : good_len dt (length_used len n dt) n len). { destruct len; cbn [good_len length_used]; [reflexivity|ring]. }
  pose proof (loop_all gaussian dt norm (length_used len n dt) n Hg Hn Hk len GL segs1 segs2 [] F) as L. cbn [state_at app] in L. fold us in L.
  change (mkFad len None None 0 0 0 0) with (start len). rewrite L. cbn [bind].
  replace (state_at gaussian dt norm (length_used len n dt) n len us) with (after gaussian dt norm (length_used len n dt) n us).
  2:{ unfold us. destruct (both segs1 segs2); [contradiction|reflexivity]. }
  cbn [after d_sums d_grid d_m d_nph1 d_nph2 d_nph d_len sums_of f_pds1 f_pds2 f_ptot f_cs f_pds1u f_pds2u f_ptotu f_csu f_diff f_diffu grid_of snd].
  rewrite !map_inv_rsk, !map_inv_csk. fold ks.
  assert (FK : map (fun k => cavg (fun p => cdiff gaussian (length_used len n dt) n p k) us) ks = fad_k).
  { unfold fad_k. apply map_ext. intros k. unfold corrected_difference. apply cavg_ext. intros p _. unfold cdiff. fold smooth. apply cx_eq; unfold cscal, re, im, Rdiv; cbn [fst snd]; ring. }
  rewrite FK. rewrite cstd_spread. fold delta. fold compliant.
  destruct (strict && negb compliant)%bool; [reflexivity|].
  assert (R1 : forall (f g : seg * seg -> nat -> R), (forall p k, f p k = g p k) -> map (fun k => avg (fun p => f p k) us) ks = map (fun k => avg (fun p => g p k) us) ks).
  { intros f g H. apply map_ext. intros k. apply avg_ext. intros p _. apply H. }
  assert (C1 : forall (f g : seg * seg -> nat -> cx), (forall p k, f p k = g p k) -> map (fun k => cavg (fun p => f p k) us) ks = map (fun k => cavg (fun p => g p k) us) ks).
  { intros f g H. apply map_ext. intros k. apply cavg_ext. intros p _. apply H. }
  apply table_eq.
  - apply R1. intros p k. unfold norm1, corr1, gain, fac_of. fold smooth. unfold Rdiv. ring.
  - apply R1. intros p k. unfold norm2, corr2, gain, fac_of. fold smooth. unfold Rdiv. ring.
  - apply C1. intros p k. unfold normc, corrc, gain, fac_of. fold smooth. apply cx_eq; unfold cscal, re, im, Rdiv; cbn [fst snd]; ring.
  - apply R1. intros p k. unfold normt', corrt, gain, fac_of. fold smooth. unfold Rdiv. ring.
  - apply R1. intros p k. unfold corr1, gain. fold smooth. unfold Rdiv. ring.
  - apply R1. intros p k. unfold corr2, gain. fold smooth. unfold Rdiv. ring.
  - apply C1. intros p k. unfold corrc, gain. fold smooth. apply cx_eq; unfold cscal, re, im, Rdiv; cbn [fst snd]; ring.
  - apply R1. intros p k. unfold corrt, gain. fold smooth. unfold Rdiv. ring.
Qed.
