(* P_covar6.v: what goes wrong in covariance spectra. *)
From Verif Require Import Np Lib S_gti S_seg S_utils S_lc M_gti M_seg M_utils M_lc M_exvar M_covar Cplx S_covar P_exvar P_helpers P_covar P_covar2 P_covar3 P_covar4 P_covar5.
From Coq Require Import Reals Qreals List Bool Arith Lra Lia.
Import ListNotations.
Open Scope R_scope.

Lemma energies_counted : exists data bands dt lc t e, make_lightcurves data bands dt = Ok ([lc], t, e) /\ lc_counts lc = [1; 5; 1]%Q /\
  photons 1 2 (filter (in_band (nth 0 bands (0, 0)%Q)) data) = 1%nat.
Proof. exists [(0, 1); (1, 1); (2, 1); (3, 1)]%Q, [(0, 2)]%Q, 1%Q. do 3 eexists. split; [vm_compute; reflexivity|]. split; reflexivity. Qed.
Lemma edge_in_both : exists data bands dt t e lc ref, make_lightcurves data bands dt = Ok ([lc], t, e) /\ reference_from_events data bands dt t e = Ok (RefList [ref]) /\
  lc_counts lc = [1; 1; 1]%Q /\ lc_counts ref = [1; 1; 1]%Q /\ photons 0 3 data = 3%nat.
Proof. exists [(0, 10); (1, 20); (2, 10); (3, 30)]%Q, [(10, 20)]%Q, 1%Q. do 4 eexists. split; [vm_compute; reflexivity|]. split; [vm_compute; reflexivity|]. repeat split; reflexivity. Qed.
Lemma band_overlap : exists energies bands, create_band_interest energies = Ok bands /\ (exists i j, i <> j /\ (i < 3)%nat /\ (j < 3)%nat /\ in_band (nth i bands (0, 0)%Q) (0%Q, nth j energies 0%Q) = true).
Proof. exists [1; 2; 10]%Q. eexists. split; [vm_compute; reflexivity|]. exists 1%nat, 0%nat. split; [discriminate|]. split; [lia|]. split; [lia|]. reflexivity. Qed.

Definition curve4 : lightcurve := mkLC [1 # 2; 3 # 2; 5 # 2; 7 # 2]%Q [0; 2; 0; 0]%Q None 1%Q.
Definition curve2 (c : Q) : lightcurve := mkLC [1 # 2; 3 # 2]%Q [0; c]%Q None 1%Q.
Lemma q2r0 : Q2R 0 = 0. Proof. unfold Q2R. cbn. field. Qed.
Lemma q2r2 : Q2R 2 = 2. Proof. unfold Q2R. cbn. field. Qed.
Lemma q2r4 : Q2R 4 = 4. Proof. unfold Q2R. cbn. field. Qed.
Lemma rs2 f : rs 2 f = f 0%nat + f 1%nat. Proof. unfold rs, rlsum. cbn. ring. Qed.
Lemma cov2 f g : cov_of 2 f g = (f 0%nat - (f 0%nat + f 1%nat) / 2) * (g 0%nat - (g 0%nat + g 1%nat) / 2) + (f 1%nat - (f 0%nat + f 1%nat) / 2) * (g 1%nat - (g 0%nat + g 1%nat) / 2).
Proof. unfold cov_of, mean_of. rewrite !rs2. change (INR 2) with 2. field. Qed.
Lemma averaged_first_segment : exists lc size sp, (0 < size)%Q /\ construct_averaged (StdNumber 0) size [lc] (RefList [lc]) = Ok sp /\ bins 4 lc /\
  nth 0 (sp_unnorm sp) None = Some 2 /\
  (cov_of 2 (counts_at lc) (counts_at lc) + cov_of 2 (fun k => counts_at lc (2 + k)) (fun k => counts_at lc (2 + k))) / 2 = 1.
Proof.
  exists curve4, 2%Q. destruct (construct_averaged_ok (StdNumber 0) 2 [curve4] [curve4] 4 (1 # 2)%Q (lc_time curve4) 2) as (sp & E & R); try (cbn; lia); try reflexivity.
  - discriminate.
  - repeat constructor.
  - repeat constructor.
  - intros lc [<-|[]]. reflexivity.
  - exists sp. split; [reflexivity|]. split; [exact E|]. split; [split; reflexivity|]. destruct R as (_ & _ & _ & R). specialize (R 0%nat ltac:(cbn; lia)). destruct R as [U _]. split.
    + rewrite U. f_equal. cbn [nth]. rewrite cov2. unfold counts_at. cbn [curve4 lc_counts nth]. rewrite q2r0, q2r2. field.
    + rewrite !cov2. unfold counts_at. cbn [curve4 lc_counts nth Nat.add]. rewrite q2r0, q2r2. field.
Qed.
(* twice the counts, twice the noise: not twice the error *)
Lemma counts0 c : counts_at (curve2 c) 0 = 0. Proof. unfold counts_at. cbn [curve2 lc_counts nth]. apply q2r0. Qed.
Lemma counts1 c : counts_at (curve2 c) 1 = Q2R c. Proof. reflexivity. Qed.
Lemma excess2 f s : excess_of 2 f s = ((f 1%nat - f 0%nat) / 2) ^ 2 - s ^ 2.
Proof. unfold excess_of, var_of, mean_of. rewrite !rs2. change (INR 2) with 2. field. Qed.
Lemma sqrt_scale_ne : sqrt (7 / 6) <> 2 * sqrt (2 / 3).
Proof.
  intros H. assert (A : sqrt (7 / 6) * sqrt (7 / 6) = 7 / 6) by (apply sqrt_sqrt; lra). assert (B : sqrt (2 / 3) * sqrt (2 / 3) = 2 / 3) by (apply sqrt_sqrt; lra).
  rewrite H in A. nra.
Qed.
Lemma error_scale : exists lc lc2 s a b, bins 2 lc /\ bins 2 lc2 /\ (forall k, (k < 2)%nat -> counts_at lc2 k = 2 * counts_at lc k) /\
  calculate_covariance_error (StdNumber s) 1 lc lc = Some a /\ calculate_covariance_error (StdNumber (2 * s)) 1 lc2 lc2 = Some b /\ b <> 2 * a.
Proof.
  exists (curve2 2), (curve2 4), (1 / 2), (sqrt (2 / 3)), (sqrt (7 / 6)). split; [split; reflexivity|]. split; [split; reflexivity|]. split.
  { intros [|[|k]] Hk; [rewrite !counts0; ring|rewrite !counts1, q2r2, q2r4; ring|lia]. }
  split; [|split; [|exact sqrt_scale_ne]].
  - rewrite (error_ok (StdNumber (1 / 2)) 1 (curve2 2) (curve2 2) 2 (1 / 2) (1 / 2) ltac:(lia)) by (try reflexivity; split; reflexivity).
    rewrite !excess2, !counts0, !counts1, q2r2. change (INR 2) with 2. destruct (Req_EM_T _ 0) as [X|X]; [lra|].
    match goal with |- fsqrt ?v = _ => replace v with (2 / 3) by field end. apply fsqrt_some. lra.
  - rewrite (error_ok (StdNumber (2 * (1 / 2))) 1 (curve2 4) (curve2 4) 2 (2 * (1 / 2)) (2 * (1 / 2)) ltac:(lia)) by (try reflexivity; split; reflexivity).
    rewrite !excess2, !counts0, !counts1, q2r4. change (INR 2) with 2. destruct (Req_EM_T _ 0) as [X|X]; [lra|].
    match goal with |- fsqrt ?v = _ => replace v with (7 / 6) by field end. apply fsqrt_some. lra.
Qed.
(* a band against itself, without noise, is not its standard deviation *)
Lemma self_refuted : exists lc sp v, bins 2 lc /\ construct_covar (StdNumber 0) [lc] (RefOne lc) = Ok sp /\ nth 0 (sp_covar sp) None = Some v /\ 0 < var_of 2 (counts_at lc) /\ v <> sqrt (var_of 2 (counts_at lc)).
Proof.
  assert (B : bins 2 (curve2 2)) by (split; reflexivity). destruct (construct_ok (StdNumber 0) [curve2 2] (RefOne (curve2 2)) 2 ltac:(lia)) as (sp & E & _ & _ & _ & R); [repeat constructor|exact B|]. specialize (R 0%nat ltac:(cbn; lia)).
  assert (V : 0 < var_of 2 (counts_at (curve2 2))). { pose proof (excess2 (counts_at (curve2 2)) 0) as X. unfold excess_of in X. rewrite counts0, counts1, q2r2 in X. lra. }
  pose proof (self_covar 1 2 (curve2 2) _ _ _ ltac:(lia) R V) as C. exists (curve2 2), sp. eexists. split; [exact B|]. split; [exact E|]. split; [exact C|]. split; [exact V|]. pose proof (sqrt_lt_R0 _ V). change (INR 2) with 2. lra.
Qed.
(* averaged spectra with one reference light curve, or with no segment size *)
Lemma averaged_size_error std lcs r : lcs <> [] -> lc_time (nth 0 lcs nothing) <> [] -> (exists lc, reference_averaged r 0 = Ok lc) -> forall size, (size == 0)%Q -> construct_averaged std size lcs r = Err ValueError.
Proof.
  intros NE T (lc & R) size Z. destruct lcs as [|a lcs]; [contradiction|]. unfold construct_averaged. cbn [get nth_error bind length seq map_result nth] in *. destruct (lc_time a) as [|t ts]; [contradiction|]. cbn [nth_error bind]. unfold get. cbn [nth_error bind]. rewrite R. cbn [bind]. replace (qeq size 0) with true by (symmetry; apply qeq_t; exact Z). reflexivity.
Qed.
Lemma averaged_curve_fails argsort std size lcs lc dt bi n t0 : lcs <> [] -> match bi with Some [] => False | _ => True end -> nth_error (lc_time (nth 0 lcs nothing)) 0 = Some t0 -> (2 <= n)%nat -> bins n lc ->
  averaged_covariancespectrum argsort (Curves lcs) size dt bi (RefCurve lc) std = Err AttributeError.
Proof.
  intros NE B T Hn H. unfold averaged_covariancespectrum. destruct (prepare_bands argsort lcs dt bi (RefCurve lc) NE B) as (bands & _ & E). rewrite E. cbn [bind fst snd]. now apply (averaged_curve_error std size lcs lc n t0).
Qed.
Lemma averaged_many argsort std size lcs l dt bi n t0 ts k : (0 < size)%Q -> (2 <= n)%nat -> lcs <> [] -> match bi with Some [] => False | _ => True end -> Forall (bins n) lcs -> Forall (bins n) l -> length l = length lcs ->
  (forall lc, In lc lcs -> lc_time lc = ts) -> nth_error ts 0 = Some t0 -> k = searchsorted_left ts (t0 + size) -> (2 <= k)%nat ->
  exists sp, averaged_covariancespectrum argsort (Curves lcs) size dt bi (RefCurves l) std = Ok sp /\ rows_ok std 1 k lcs (fun i => nth i l nothing) sp.
Proof.
  intros Hs Hn NE B F Fl L T T0 K Hk. unfold averaged_covariancespectrum. destruct (prepare_bands argsort lcs dt bi (RefCurves l) NE B) as (bands & _ & E). rewrite E.
  assert (NEl : l <> []) by (intros ->; destruct lcs; [contradiction|discriminate L]). assert (0 < length l)%nat by (destruct l; [contradiction|cbn; lia]).
  rewrite (size_common l n NEl Fl). cbn [bind]. destruct (Nat.eqb (length l * n) 1) eqn:E1; [apply Nat.eqb_eq in E1; nia|]. rewrite (get_at l nothing 0) by lia. cbn [bind]. rewrite L, Nat.eqb_refl. cbn [bind fst snd].
  now apply (construct_averaged_ok std size lcs l n t0 ts k).
Qed.
(* k: the bins before t0 + size *)
Lemma first_bins ts x : (forall i j, (i < j < length ts)%nat -> (nth i ts 0 <= nth j ts 0)%Q) -> forall i, (i < length ts)%nat -> ((i < searchsorted_left ts x)%nat <-> (nth i ts 0 < x)%Q).
Proof.
  induction ts as [|a ts IH]; intros S i Hi; [cbn in Hi; lia|]. cbn [searchsorted_left]. destruct (qlt a x) eqn:E.
  - apply qlt_t in E. destruct i as [|i]; cbn [nth]; [split; [intros _; exact E|lia]|]. rewrite <- (IH (fun p q H => S (Datatypes.S p) (Datatypes.S q) ltac:(cbn; lia)) i ltac:(cbn in Hi; lia)). lia.
  - apply qlt_f in E. split; [lia|]. intros H. exfalso. destruct i as [|i]; [cbn in H; Lqa.lra|]. pose proof (S 0%nat (Datatypes.S i) ltac:(cbn in *; lia)) as X. cbn [nth] in *. Lqa.lra.
Qed.
Lemma averaged_first argsort std size lcs l dt bi n t0 ts k : (0 < size)%Q -> lcs <> [] -> bi <> Some [] -> Forall (bins n) lcs -> Forall (bins n) l -> length l = length lcs ->
  (forall lc, In lc lcs -> lc_time lc = ts) -> nth_error ts 0 = Some t0 -> (forall i j, (i < j < n)%nat -> (nth i ts 0 <= nth j ts 0)%Q) ->
  (2 <= k <= n)%nat -> (forall i, (i < n)%nat -> ((i < k)%nat <-> (nth i ts 0 < t0 + size)%Q)) ->
  exists sp, averaged_covariancespectrum argsort (Curves lcs) size dt bi (RefCurves l) std = Ok sp /\ rows_ok std 1 k lcs (fun i => nth i l nothing) sp.
Proof.
  intros Hs NE B F Fl L T T0 S Hk K. assert (Lts : length ts = n). { destruct lcs as [|a lcs]; [contradiction|]. rewrite <- (T a (or_introl eq_refl)). inversion F as [|? ? [_ X] _]; exact X. }
  apply (averaged_many argsort std size lcs l dt bi n t0 ts k); try assumption; try lia; [destruct bi as [[|]|]; [now apply B|exact I|exact I]|]. subst n.
  pose proof (first_bins ts (t0 + size) S) as P. assert (Kn : (searchsorted_left ts (t0 + size) <= length ts)%nat). { clear. induction ts as [|x ts IH]; [reflexivity|]. cbn [searchsorted_left]. destruct (qlt x _); cbn; lia. }
  destruct (Nat.lt_trichotomy k (searchsorted_left ts (t0 + size))) as [X|[X|X]]; [exfalso|exact X|exfalso].
  - assert (Y : (k < length ts)%nat) by lia. apply (P k Y) in X. apply (K k Y) in X. lia.
  - assert (Y : (searchsorted_left ts (t0 + size) < length ts)%nat) by lia. apply (K _ Y) in X. apply (P _ Y) in X. lia.
Qed.
