(* P_fad3.v: relations between the columns, errors, and cases where the Fourier amplitude difference correction goes wrong *)
From Coq Require Import Reals Qreals.
From Verif Require Import Np M_gti M_utils Cplx M_fourier M_flux S_gti S_flux S_utils S_fourier S_fad M_fad P_dft P_norm P_avg P_avgcs P_lag P_fad P_fad2 P_flux3.
From Coq Require Import Reals List Bool Arith Lra Lia.
Import ListNotations.
Open Scope R_scope.

(* ---- the two channels together ---- *)
Lemma val_together p j : length (s_flux (fst p)) = length (s_flux (snd p)) -> val (together p) j = val (s_flux (fst p)) j + val (s_flux (snd p)) j.
Proof.
  unfold together, val. destruct p as [a b]. cbn [fst snd]. revert j. generalize (s_flux a) (s_flux b). clear a b. induction l as [|x l IH]; intros [|y m] j H; try discriminate H.
  - destruct j; cbn; lra.
  - cbn [combine map]. destruct j as [|j]; [reflexivity|]. cbn [nth]. apply IH. now injection H.
Qed.
Lemma dft_together p k : length (s_flux (fst p)) = length (s_flux (snd p)) -> dft (together p) k = cadd (dft (s_flux (fst p)) k) (dft (s_flux (snd p)) k).
Proof.
  intros H. assert (L : length (together p) = length (s_flux (fst p))) by (unfold together; rewrite map_length, combine_length; lia).
  unfold dft, cadd. rewrite L, <- H. unfold re, im. cbn [fst snd]. f_equal.
  - rewrite <- rs_plus. apply rs_ext. intros j _. rewrite val_together by exact H. ring.
  - rewrite <- Ropp_plus_distr, <- rs_plus. f_equal. apply rs_ext. intros j _. rewrite val_together by exact H. ring.
Qed.
Lemma power_together p k : length (s_flux (fst p)) = length (s_flux (snd p)) ->
  power_at (together p) k = S_fourier.pow1 p k + S_fourier.pow2 p k + 2 * re (cpower p k).
Proof.
  intros H. unfold power_at at 1. rewrite dft_together by exact H. unfold S_fourier.pow1, S_fourier.pow2, power_at, cpower, cross_at, cadd, re, im. cbn [fst snd]. ring.
Qed.
Lemma avg_plus {A} (f g : A -> R) l : avg (fun a => f a + g a) l = avg f l + avg g l.
Proof. unfold avg. assert (E : rlsum (map (fun a => f a + g a) l) = rlsum (map f l) + rlsum (map g l)). { induction l as [|a l IH]; cbn [map rlsum fold_right]; [lra|]. unfold rlsum in IH. rewrite IH. ring. } rewrite E. unfold Rdiv. ring. Qed.
Lemma avg_scal {A} (f : A -> R) c l : avg (fun a => c * f a) l = c * avg f l.
Proof. unfold avg. assert (E : rlsum (map (fun a => c * f a) l) = c * rlsum (map f l)). { induction l as [|a l IH]; cbn [map rlsum fold_right]; [lra|]. unfold rlsum in IH. rewrite IH. ring. } rewrite E. unfold Rdiv. ring. Qed.

Section Table.
Variables (gaussian : list R -> R -> list R) (len : option R) (tol dt : R) (strict : bool) (norm : normt) (segs1 segs2 : list (option seg)) (n : nat) (t : fad_table).
Hypothesis Hg : forall l s, length (gaussian l s) = length l.
Hypothesis Hn : (0 < n)%nat.
Hypothesis Hk : kind norm None <> None.
Hypothesis F : fits n segs1 segs2.
Hypothesis NE : both segs1 segs2 <> [].
Hypothesis T : fad gaussian true len tol strict dt norm segs1 segs2 = Ok t.
Let us := both segs1 segs2.
Let ks := seq 1 (n_pos n).
Let smooth := fun l => gaussian l (length_used len n dt).
Lemma raw_columns : t_pds1u t = map (fun k => avg (fun p => 2 * S_fourier.pow1 p k / scatter smooth n p k) us) ks /\
  t_pds2u t = map (fun k => avg (fun p => 2 * S_fourier.pow2 p k / scatter smooth n p k) us) ks /\
  t_csu t = map (fun k => cavg (fun p => cscal (cpower p k) (2 / scatter smooth n p k)) us) ks /\
  t_ptotu t = map (fun k => avg (fun p => 2 * power_at (together p) k / scatter smooth n p k) us) ks.
Proof.
  pose proof (fad_columns gaussian len tol strict dt norm segs1 segs2 n Hg Hn Hk F NE) as C. cbv zeta in C. rewrite T in C.
  destruct (strict && _)%bool in C; [discriminate C|].
  apply (f_equal (fun r => match r with Ok v => v | Err _ => t end)) in C. rewrite C. cbn [t_pds1u t_pds2u t_csu t_ptotu]. auto.
Qed.
Lemma column_total k : (k < n_pos n)%nat ->
  nth k (t_ptotu t) 0 = nth k (t_pds1u t) 0 + nth k (t_pds2u t) 0 + 2 * re (nth k (t_csu t) c0).
Proof.
  intros K. destruct raw_columns as (A & B & C & D). rewrite A, B, C, D.
  assert (L : forall (f : nat -> R), nth k (map f ks) 0 = f (S k)).
  { intros f. rewrite (nth_indep _ 0 (f 0%nat)) by (unfold ks; rewrite map_length, seq_length; exact K). rewrite map_nth. unfold ks. now rewrite seq_nth. }
  assert (LC : forall (f : nat -> cx), nth k (map f ks) c0 = f (S k)).
  { intros f. rewrite (nth_indep _ c0 (f 0%nat)) by (unfold ks; rewrite map_length, seq_length; exact K). rewrite map_nth. unfold ks. now rewrite seq_nth. }
  rewrite !L, LC. unfold cavg, re. cbn [fst]. rewrite <- avg_scal, <- !avg_plus. apply avg_ext. intros p I. destruct (F p I) as (L1 & L2 & _).
  rewrite power_together by congruence. unfold cscal, re. cbn [fst]. unfold Rdiv. ring.
Qed.
Lemma column_coherence k : (k < n_pos n)%nat -> (forall p, In p us -> 0 < scatter smooth n p (S k)) ->
  cnorm2 (nth k (t_csu t) c0) <= nth k (t_pds1u t) 0 * nth k (t_pds2u t) 0.
Proof.
  intros K P. destruct raw_columns as (A & B & C & D). rewrite A, B, C.
  assert (L : forall (f : nat -> R), nth k (map f ks) 0 = f (S k)).
  { intros f. rewrite (nth_indep _ 0 (f 0%nat)) by (unfold ks; rewrite map_length, seq_length; exact K). rewrite map_nth. unfold ks. now rewrite seq_nth. }
  assert (LC : forall (f : nat -> cx), nth k (map f ks) c0 = f (S k)).
  { intros f. rewrite (nth_indep _ c0 (f 0%nat)) by (unfold ks; rewrite map_length, seq_length; exact K). rewrite map_nth. unfold ks. now rewrite seq_nth. }
  rewrite !L, LC. set (w := fun p => sqrt (2 / scatter smooth n p (S k))).
  assert (W : forall p, In p us -> w p * w p = 2 / scatter smooth n p (S k)).
  { intros p I. apply sqrt_sqrt. apply Rmult_le_pos; [lra|left; apply Rinv_0_lt_compat, P, I]. }
  rewrite (cavg_ext _ (fun p => cmul (cconj (cscal (dft (s_flux (fst p)) (S k)) (w p))) (cscal (dft (s_flux (snd p)) (S k)) (w p)))).
  2:{ intros p I. rewrite <- (W p I). unfold cpower. rewrite cross_conj. apply cx_eq; unfold cmul, cconj, cscal, re, im; cbn [fst snd]; ring. }
  rewrite (avg_ext _ (fun p => cnorm2 (cscal (dft (s_flux (fst p)) (S k)) (w p)))).
  2:{ intros p I. replace (2 * S_fourier.pow1 p (S k) / scatter smooth n p (S k)) with (S_fourier.pow1 p (S k) * (2 / scatter smooth n p (S k))) by (unfold Rdiv; ring). rewrite <- (W p I).
      unfold S_fourier.pow1, power_at, cnorm2, cscal, re, im. cbn [fst snd]. ring. }
  rewrite (avg_ext (fun p => 2 * S_fourier.pow2 p (S k) / _) (fun p => cnorm2 (cscal (dft (s_flux (snd p)) (S k)) (w p)))).
  2:{ intros p I. replace (2 * S_fourier.pow2 p (S k) / scatter smooth n p (S k)) with (S_fourier.pow2 p (S k) * (2 / scatter smooth n p (S k))) by (unfold Rdiv; ring). rewrite <- (W p I).
      unfold S_fourier.pow2, power_at, cnorm2, cscal, re, im. cbn [fst snd]. ring. }
  rewrite <- cavg_clsum. pose proof (cauchy (fun p : seg * seg => cscal (dft (s_flux (fst p)) (S k)) (w p)) (fun p => cscal (dft (s_flux (snd p)) (S k)) (w p)) us) as Q. cbv zeta beta in Q.
  unfold avg. match type of Q with cnorm2 ?z0 <= ?a0 * ?b0 => set (z := z0) in *; set (a := a0) in *; set (b := b0) in * end. assert (I : 0 < / INR (length us)). { apply Rinv_0_lt_compat, lt_0_INR. unfold us. destruct (both segs1 segs2); [contradiction|cbn; lia]. }
  replace (cnorm2 (cscal z (/ INR (length us)))) with (cnorm2 z * (/ INR (length us) * / INR (length us))) by (unfold cnorm2, cscal, re, im; cbn [fst snd]; ring).
  unfold Rdiv. replace (a * / INR (length us) * (b * / INR (length us))) with (a * b * (/ INR (length us) * / INR (length us))) by ring. apply Rmult_le_compat_r; [nra|exact Q].
Qed.
End Table.

(* ---- exchange of the channels ---- *)
Definition swap (p : seg * seg) : seg * seg := (snd p, fst p).
Lemma both_swap segs1 segs2 : both segs2 segs1 = map swap (both segs1 segs2).
Proof.
  revert segs2. induction segs1 as [|o1 l1 IH]; intros [|o2 l2]; try reflexivity. rewrite !both_cons, IH, map_app. destruct o1, o2; reflexivity.
Qed.
Lemma diff_swap p k : leahy_difference (swap p) k = copp (leahy_difference p k).
Proof. unfold leahy_difference, swap, copp, re, im. cbn [fst snd]. f_equal; ring. Qed.
Lemma scatter_swap smooth n p k : scatter smooth n (swap p) k = scatter smooth n p k.
Proof.
  unfold scatter. f_equal. f_equal. apply map_ext. intros j. rewrite diff_swap. unfold copp, re, im. cbn [fst snd pow]. ring.
Qed.
Lemma together_swap p : length (s_flux (fst p)) = length (s_flux (snd p)) -> together (swap p) = together p.
Proof.
  unfold together, swap. cbn [fst snd]. generalize (s_flux (fst p)) (s_flux (snd p)). induction l as [|x l IH]; intros [|y m] H; try discriminate H; [reflexivity|].
  cbn [combine map fst snd]. rewrite IH by now injection H. f_equal. apply Rplus_comm.
Qed.
Lemma avg_swap (f : seg * seg -> R) us : avg f (map swap us) = avg (fun p => f (swap p)) us.
Proof. unfold avg. now rewrite map_map, map_length. Qed.
Lemma cavg_swap (f : seg * seg -> cx) us : cavg f (map swap us) = cavg (fun p => f (swap p)) us.
Proof. unfold cavg. now rewrite !avg_swap. Qed.
Lemma avg_neg {A} (f : A -> R) l : avg (fun a => - f a) l = - avg f l.
Proof. transitivity (avg (fun a => (-1) * f a) l); [apply avg_ext; intros; ring|]. rewrite avg_scal. ring. Qed.
Lemma cpower_swap p k : cpower (swap p) k = cconj (cpower p k).
Proof. unfold cpower, cross_at, swap, cconj, re, im. cbn [fst snd]. f_equal; ring. Qed.
Lemma spread_neg l : spread (map copp l) = spread l.
Proof.
  unfold spread. cbv zeta. f_equal. unfold avg at 1. rewrite map_map, map_length. unfold avg at 1. f_equal. f_equal. apply map_ext. intros z.
  assert (E : cavg (fun z : cx => z) (map copp l) = copp (cavg (fun z => z) l)).
  { unfold cavg, copp, re, im. cbn [fst snd]. unfold avg. rewrite !map_map, map_length. cbn [fst snd]. f_equal.
    - pose proof (avg_neg (fun z : cx => fst z) l) as N. unfold avg in N. rewrite N. reflexivity.
    - pose proof (avg_neg (fun z : cx => snd z) l) as N. unfold avg in N. rewrite N. reflexivity. }
  rewrite E. unfold copp, re, im. cbn [fst snd pow]. ring.
Qed.
Lemma fad_swap gaussian len tol strict dt norm segs1 segs2 n t :
  (forall l s, length (gaussian l s) = length l) -> (0 < n)%nat -> kind norm None <> None -> fits n segs1 segs2 -> both segs1 segs2 <> [] ->
  fad gaussian true len tol strict dt norm segs1 segs2 = Ok t ->
  fad gaussian true len tol strict dt norm segs2 segs1 =
    Ok (mkTable (t_freq t) (t_pds2 t) (t_pds1 t) (map cconj (t_cs t)) (t_ptot t) (t_pds2u t) (t_pds1u t) (map cconj (t_csu t)) (t_ptotu t) (map copp (t_fad t))
          (t_delta t) (t_compliant t) (t_m t) (t_dt t) (t_nph2 t) (t_nph1 t) (t_nph t) (t_norm t) (t_len t) (t_df t)).
Proof.
  intros Hg Hn Hk F NE T.
  assert (F' : fits n segs2 segs1). { intros p I. rewrite both_swap in I. apply in_map_iff in I. destruct I as (q & <- & I). destruct (F q I) as (A & B & C & D). cbn [swap fst snd]. auto. }
  assert (NE' : both segs2 segs1 <> []) by (rewrite both_swap; intros E; apply map_eq_nil in E; contradiction).
  pose proof (fad_columns gaussian len tol strict dt norm segs1 segs2 n Hg Hn Hk F NE) as C. cbv zeta in C. rewrite T in C.
  pose proof (fad_columns gaussian len tol strict dt norm segs2 segs1 n Hg Hn Hk F' NE') as C'. cbv zeta in C'. rewrite C'. clear C'. rewrite both_swap.
  set (us := both segs1 segs2) in *. set (smooth := fun l => gaussian l (length_used len n dt)) in *. set (ks := seq 1 (n_pos n)) in *.
  assert (FK : map (corrected_difference smooth n (map swap us)) ks = map copp (map (corrected_difference smooth n us) ks)).
  { rewrite map_map. apply map_ext. intros k. unfold corrected_difference. rewrite cavg_swap. unfold cavg, copp, re, im. cbn [fst snd].
    f_equal; rewrite <- avg_neg; apply avg_ext; intros p _; rewrite diff_swap, scatter_swap; unfold cscal, copp, re, im; cbn [fst snd]; ring. }
  rewrite FK, spread_neg, map_length.
  set (delta := (spread _ - _) / _) in *. set (compliant := if Rlt_dec (Rabs delta) tol then true else false) in *.
  destruct (strict && negb compliant)%bool; [discriminate C|].
  apply (f_equal (fun r => match r with Ok v => v | Err _ => t end)) in C. rewrite C. cbn [t_freq t_pds1 t_pds2 t_cs t_ptot t_pds1u t_pds2u t_csu t_ptotu t_fad t_delta t_compliant t_m t_dt t_nph1 t_nph2 t_nph t_norm t_len t_df].
  rewrite !avg_swap. cbn [swap fst snd].
  assert (R1 : forall (f g : seg * seg -> nat -> R), (forall p k, In p us -> f (swap p) k = g p k) -> map (fun k => avg (fun p => f p k) (map swap us)) ks = map (fun k => avg (fun p => g p k) us) ks).
  { intros f g H. apply map_ext. intros k. rewrite avg_swap. apply avg_ext. intros p I. now apply H. }
  assert (C1 : forall (f g : seg * seg -> nat -> cx), (forall p k, In p us -> f (swap p) k = cconj (g p k)) -> map (fun k => cavg (fun p => f p k) (map swap us)) ks = map cconj (map (fun k => cavg (fun p => g p k) us) ks)).
  { intros f g H. rewrite map_map. apply map_ext. intros k. rewrite cavg_swap. unfold cavg, cconj, re, im. cbn [fst snd]. f_equal; [apply avg_ext; intros p I; now rewrite H|].
    rewrite <- avg_neg. apply avg_ext. intros p I. now rewrite H. }
  replace (avg (fun a => photons (snd a) + photons (fst a)) us) with (avg (fun a => photons (fst a) + photons (snd a)) us) by (apply avg_ext; intros; apply Rplus_comm).
  apply table_eq.
  - apply R1. intros p k I. rewrite scatter_swap. reflexivity.
  - apply R1. intros p k I. rewrite scatter_swap. reflexivity.
  - apply C1. intros p k I. rewrite scatter_swap, cpower_swap. unfold pph, gmean. cbn [swap fst snd]. rewrite (Rmult_comm (photons (snd p))). unfold cconj, cscal, re, im. cbn [fst snd]. f_equal. ring.
  - apply R1. intros p k I. destruct (F p I) as (L1 & L2 & _). rewrite scatter_swap, together_swap by congruence. cbn [swap fst snd]. rewrite (Rplus_comm (photons (snd p))). reflexivity.
  - apply R1. intros p k I. rewrite scatter_swap. reflexivity.
  - apply R1. intros p k I. rewrite scatter_swap. reflexivity.
  - apply C1. intros p k I. rewrite scatter_swap, cpower_swap. unfold cconj, cscal, re, im. cbn [fst snd]. f_equal. ring.
  - apply R1. intros p k I. destruct (F p I) as (L1 & L2 & _). rewrite scatter_swap, together_swap by congruence. reflexivity.
Qed.
