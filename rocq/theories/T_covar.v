(* T_covar.v: property theorems about covariance spectra (C122, C123, C124). *)
From Coq Require Import Qreals.
From Verif Require Import Np Lib S_gti S_seg S_utils S_lc M_gti M_seg M_utils M_lc M_exvar M_covar Cplx S_covar P_covar P_covar2 P_covar3 P_covar4 P_covar5 P_covar6 P_covar7.
From Coq Require Import Reals List Bool Arith Permutation Sorting.Sorted Lra Lia.
Import ListNotations.
Open Scope R_scope.

(* ---------- C122: spectra of light curves ---------- *)
Theorem C122_one_reference : forall argsort lcs dt bi lc std n,
  (2 <= n)%nat -> lcs <> [] -> match bi with Some [] => False | _ => True end -> Forall (bins n) lcs -> bins n lc ->
  exists sp, covariancespectrum argsort (Curves lcs) dt bi (RefCurve lc) std = Ok sp /\ rows_ok std 1 n lcs (fun _ => lc) sp.
Proof. exact curves_one. Qed.
Print Assumptions C122_one_reference.
Theorem C122_references : forall argsort lcs dt bi l std n,
  (2 <= n)%nat -> lcs <> [] -> match bi with Some [] => False | _ => True end -> Forall (bins n) lcs -> Forall (bins n) l -> length l = length lcs ->
  exists sp, covariancespectrum argsort (Curves lcs) dt bi (RefCurves l) std = Ok sp /\ rows_ok std 1 n lcs (fun i => nth i l nothing) sp.
Proof. exact curves_many. Qed.
Print Assumptions C122_references.
Theorem C122_others : forall argsort lcs dt bi std n,
  (2 <= n)%nat -> lcs <> [] -> bands_given bi lcs -> Forall (bins n) lcs ->
  exists sp refs, covariancespectrum argsort (Curves lcs) dt bi RefNothing std = Ok sp /\ rows_ok std 1 n lcs refs sp /\
    (forall i k, (i < length lcs)%nat -> counts_at (refs i) k = rs (length lcs) (fun j => if Nat.eqb i j then 0 else counts_at (nth j lcs nothing) k)) /\
    (forall i, (i < length lcs)%nat -> nth i (sp_unnorm sp) None = Some (rs (length lcs) (fun j => if Nat.eqb i j then 0 else cov_of n (counts_at (nth i lcs nothing)) (counts_at (nth j lcs nothing))))).
Proof. exact curves_others. Qed.
Print Assumptions C122_others.
Theorem C122_symmetric : forall n f g,
  cov_of n f g = cov_of n g f.
Proof. exact cov_sym. Qed.
Print Assumptions C122_symmetric.
Theorem C122_scale : forall n f g a b,
  (0 < n)%nat -> cov_of n (fun k => a * f k + b) g = a * cov_of n f g.
Proof. exact cov_affine. Qed.
Print Assumptions C122_scale.
Theorem C122_bound : forall std mm n lc lc' u c e s s' v,
  (2 <= n)%nat -> band_ok std mm n lc lc' u c e -> std_is std n (counts_at lc) s -> std_is std n (counts_at lc') s' -> c = Some v ->
  v ^ 2 * excess_of n (counts_at lc') s' <= cov_of n (counts_at lc) (counts_at lc) * cov_of n (counts_at lc') (counts_at lc').
Proof. exact covar_bound. Qed.
Print Assumptions C122_bound.
Theorem C122_self : forall mm n lc u c e,
  (2 <= n)%nat -> band_ok (StdNumber 0) mm n lc lc u c e -> 0 < var_of n (counts_at lc) -> c = Some (INR n / (INR n - 1) * sqrt (var_of n (counts_at lc))).
Proof. exact self_covar. Qed.
Print Assumptions C122_self.
Theorem C122_self_refuted : 
  exists lc sp v, bins 2 lc /\ construct_covar (StdNumber 0) [lc] (RefOne lc) = Ok sp /\ nth 0 (sp_covar sp) None = Some v /\ 0 < var_of 2 (counts_at lc) /\ v <> sqrt (var_of 2 (counts_at lc)).
Proof. exact self_refuted. Qed.
Print Assumptions C122_self_refuted.
Theorem C122_error_refuted : 
  exists lc lc2 s a b, bins 2 lc /\ bins 2 lc2 /\ (forall k, (k < 2)%nat -> counts_at lc2 k = 2 * counts_at lc k) /\
  calculate_covariance_error (StdNumber s) 1 lc lc = Some a /\ calculate_covariance_error (StdNumber (2 * s)) 1 lc2 lc2 = Some b /\ b <> 2 * a.
Proof. exact error_scale. Qed.
Print Assumptions C122_error_refuted.
Theorem C122_pair_error : forall argsort lcs dt bi lo hi std,
  covariancespectrum argsort (Curves lcs) dt bi (RefPair lo hi) std = Err ValueError \/ lcs = [].
Proof. exact curves_pair_error. Qed.
Print Assumptions C122_pair_error.
Theorem C122_number_error : forall argsort lcs dt bi x std,
  covariancespectrum argsort (Curves lcs) dt bi (RefNumber x) std = Err ValueError \/ lcs = [].
Proof. exact curves_number_error. Qed.
Print Assumptions C122_number_error.
Theorem C122_length_error : forall argsort lcs dt bi l std n,
  (2 <= n)%nat -> lcs <> [] -> match bi with Some [] => False | _ => True end -> l <> [] -> Forall (bins n) l -> length l <> length lcs ->
  covariancespectrum argsort (Curves lcs) dt bi (RefCurves l) std = Err AssertionError.
Proof. exact curves_length_error. Qed.
Print Assumptions C122_length_error.
Theorem C122_no_bands_error : forall argsort data dt ref std,
  covariancespectrum argsort data dt (Some []) ref std = Err ValueError \/ data = Events [] \/ data = Curves [].
Proof. exact no_bands_error. Qed.
Print Assumptions C122_no_bands_error.
Theorem C122_one_bin : forall argsort lc lc' dt std,
  bins 1 lc -> bins 1 lc' -> exists sp, covariancespectrum argsort (Curves [lc]) dt None (RefCurve lc') std = Ok sp /\ sp_unnorm sp = [None] /\ sp_covar sp = [None].
Proof. exact one_bin. Qed.
Print Assumptions C122_one_bin.
Theorem C122_empty_std : forall argsort lc lc' dt n,
  (2 <= n)%nat -> bins n lc -> bins n lc' -> exists sp, covariancespectrum argsort (Curves [lc]) dt None (RefCurve lc') (StdList []) = Ok sp /\ sp_covar sp = [None] /\ sp_error sp = [None].
Proof. exact empty_std. Qed.
Print Assumptions C122_empty_std.
Theorem C122_bins_error : forall argsort lc lc' dt std n m,
  bins n lc -> bins m lc' -> n <> m -> covariancespectrum argsort (Curves [lc]) dt None (RefCurve lc') std = Err ValueError.
Proof. exact bins_differ. Qed.
Print Assumptions C122_bins_error.
Theorem C122_references_error : forall argsort lcs dt a b l std,
  lcs <> [] -> length (lc_counts a) <> length (lc_counts b) -> covariancespectrum argsort (Curves lcs) dt None (RefCurves (a :: b :: l)) std = Err ValueError.
Proof. exact refs_differ. Qed.
Print Assumptions C122_references_error.
Theorem C122_one_number_error : forall argsort lc dt std,
  bins 1 lc -> covariancespectrum argsort (Curves [lc]) dt None RefNothing std = Err AttributeError.
Proof. exact one_number. Qed.
Print Assumptions C122_one_number_error.
Theorem C122_others_error : forall argsort a b dt std n m,
  bins n a -> bins m b -> n <> m -> covariancespectrum argsort (Curves [a; b]) dt None RefNothing std = Err ValueError.
Proof. exact others_differ. Qed.
Print Assumptions C122_others_error.

Example C122_nonvacuous : exists sp, covariancespectrum (fun l => l) (Curves [curve2 2; curve2 4]) None None RefNothing (StdNumber 0) = Ok sp /\
  nth 0 (sp_unnorm sp) None = Some 4 /\ nth 0 (sp_covar sp) None = Some (4 / sqrt 4).
Proof.
  destruct (curves_others (fun l => l) [curve2 2; curve2 4] None None (StdNumber 0) 2 ltac:(lia)) as (sp & refs & E & R & C & U); [discriminate|exact I|repeat constructor|].
  exists sp. split; [exact E|]. assert (V : nth 0 (sp_unnorm sp) None = Some 4).
  { rewrite (U 0%nat) by (cbn; lia). f_equal. change (length [curve2 2; curve2 4]) with 2%nat. rewrite rs2. cbn [Nat.eqb nth]. rewrite cov2, !counts0, !counts1, q2r2, q2r4. field. }
  split; [exact V|]. destruct R as (_ & _ & _ & R). destruct (R 0%nat ltac:(cbn; lia)) as [V' H]. destruct (H 0 0 eq_refl eq_refl) as [H1 _]. cbv zeta in H1.
  assert (K : forall k, counts_at (refs 0%nat) k = counts_at (curve2 4) k). { intros k. rewrite C by (cbn; lia). change (length [curve2 2; curve2 4]) with 2%nat. rewrite rs2. cbn [Nat.eqb nth]. ring. }
  rewrite excess2, !K, counts0, counts1, q2r4 in H1. replace (((4 - 0) / 2) ^ 2 - 0 ^ 2) with 4 in H1 by field. destruct (H1 ltac:(lra)) as [H2 _]. rewrite H2. f_equal. f_equal. rewrite V in V'. inversion V' as [W]. symmetry. exact W.
Qed.

(* ---------- C123: bands and references of an event list ---------- *)
Open Scope Q_scope.
Theorem C123_spectrum : forall argsort data dt bands std n s e lo hi blo bhi,
  (forall l, Permutation (argsort l) l) -> 0 < dt -> (2 <= n)%nat ->
  smallest (map fst data) s -> largest (map fst data) e -> whole_bins n dt (e - s) ->
  smallest (map snd data) lo -> largest (map snd data) hi -> smallest (map fst bands) blo -> largest (map snd bands) bhi -> blo < hi -> lo < bhi ->
  exists sp lcs refs s', covariancespectrum argsort (Events data) (Some dt) (Some bands) RefNothing std = Ok sp /\ s' == s /\ length lcs = length bands /\ rows_ok std 1 n lcs refs sp /\
    forall i, (i < length bands)%nat -> curve_of (filter (in_band (nth i bands (0, 0))) data) s' dt n (nth i lcs nothing) /\ curve_of (outside_band (nth i bands (0, 0)) data) s' dt n (refs i).
Proof. exact events_spectrum. Qed.
Print Assumptions C123_spectrum.
Theorem C123_reference : forall data bands dt s len n lo hi blo bhi,
  0 < dt -> whole_bins n dt len -> smallest (map snd data) lo -> largest (map snd data) hi -> smallest (map fst bands) blo -> largest (map snd bands) bhi ->
  (hi <= blo \/ bhi <= lo -> exists lc, reference_from_events data bands dt s len = Ok (RefOne lc) /\ curve_of data s dt n lc) /\
  (blo < hi -> lo < bhi -> exists l, reference_from_events data bands dt s len = Ok (RefList l) /\ length l = length bands /\
     forall i, (i < length bands)%nat -> curve_of (filter (fun p => qle (snd p) (fst (nth i bands (0, 0)))) data ++ filter (fun p => qle (snd (nth i bands (0, 0))) (snd p)) data) s dt n (nth i l nothing)).
Proof. exact reference_events_ok. Qed.
Print Assumptions C123_reference.
Theorem C123_photons : forall rows s dt n lc,
  0 < dt -> curve_of rows s dt n lc -> (forall p, In p rows -> snd p < s \/ bin_edge s dt n <= snd p) ->
  forall i, (i < n)%nat -> nth i (lc_counts lc) 0 = inject_Z (Z.of_nat (photons (bin_edge s dt i) (bin_edge s dt (S i)) rows)).
Proof. exact curve_photons. Qed.
Print Assumptions C123_photons.
Theorem C123_bands : forall energies,
  exists us, levels energies us /\
  ((length us <= 1)%nat -> create_band_interest energies = Err IndexError) /\
  ((2 <= length us)%nat -> exists bands, create_band_interest energies = Ok bands /\ length bands = length us /\
     forall i, (i < length us)%nat -> fst (nth i bands (0, 0)) == nth i us 0 - half_gap us i /\ snd (nth i bands (0, 0)) == nth i us 0 + half_gap us i).
Proof. exact bands_ok. Qed.
Print Assumptions C123_bands.
Theorem C123_bands_equal_steps : forall us a d,
  StronglySorted Qlt us -> (2 <= length us)%nat -> (forall i, (i < length us)%nat -> nth i us 0 == a + inject_Z (Z.of_nat i) * d) ->
  forall i j, (i < length us)%nat -> (j < length us)%nat -> (nth i us 0 - half_gap us i <= nth j us 0 <= nth i us 0 + half_gap us i <-> i = j).
Proof. exact equal_steps. Qed.
Print Assumptions C123_bands_equal_steps.
Theorem C123_bands_refuted : 
  exists energies bands, create_band_interest energies = Ok bands /\ (exists i j, i <> j /\ (i < 3)%nat /\ (j < 3)%nat /\ in_band (nth i bands (0, 0)%Q) (0%Q, nth j energies 0%Q) = true).
Proof. exact band_overlap. Qed.
Print Assumptions C123_bands_refuted.
Theorem C123_energies_counted_refuted : 
  exists data bands dt lc t e, make_lightcurves data bands dt = Ok ([lc], t, e) /\ lc_counts lc = [1; 5; 1]%Q /\
  photons 1 2 (filter (in_band (nth 0 bands (0, 0)%Q)) data) = 1%nat.
Proof. exact energies_counted. Qed.
Print Assumptions C123_energies_counted_refuted.
Theorem C123_edge_refuted : 
  exists data bands dt t e lc ref, make_lightcurves data bands dt = Ok ([lc], t, e) /\ reference_from_events data bands dt t e = Ok (RefList [ref]) /\
  lc_counts lc = [1; 1; 1]%Q /\ lc_counts ref = [1; 1; 1]%Q /\ photons 0 3 data = 3%nat.
Proof. exact edge_in_both. Qed.
Print Assumptions C123_edge_refuted.
Theorem C123_pair_ignored : forall argsort data dt bi lo hi std size,
  covariancespectrum argsort (Events data) dt bi (RefPair lo hi) std = covariancespectrum argsort (Events data) dt bi RefNothing std /\
  averaged_covariancespectrum argsort (Events data) size dt bi (RefPair lo hi) std = averaged_covariancespectrum argsort (Events data) size dt bi RefNothing std.
Proof. exact pair_ignored. Qed.
Print Assumptions C123_pair_ignored.
Theorem C123_no_dt_error : forall argsort d dt bi ref std,
  (dt = None \/ exists x, dt = Some x /\ (x == 0)%Q) -> d <> [] -> bi <> None -> covariancespectrum argsort (Events d) dt bi ref std = Err ValueError.
Proof. exact no_dt_error. Qed.
Print Assumptions C123_no_dt_error.
Theorem C123_default_bands : forall argsort d dt ref std bands,
  d <> [] -> create_band_interest (map snd d) = Ok bands -> bands <> [] ->
  covariancespectrum argsort (Events d) dt None ref std = covariancespectrum argsort (Events d) dt (Some bands) ref std.
Proof. exact default_bands. Qed.
Print Assumptions C123_default_bands.
Theorem C123_one_reference : forall argsort data dt bands std n s e lc,
  (forall l, Permutation (argsort l) l) -> (0 < dt)%Q -> (2 <= n)%nat -> data <> [] -> bands <> [] ->
  smallest (map fst data) s -> largest (map fst data) e -> whole_bins n dt (e - s) -> bins n lc ->
  exists sp lcs s', covariancespectrum argsort (Events data) (Some dt) (Some bands) (RefCurve lc) std = Ok sp /\ (s' == s)%Q /\ length lcs = length bands /\ rows_ok std 1 n lcs (fun _ => lc) sp /\
    forall i, (i < length bands)%nat -> curve_of (filter (in_band (nth i bands (0, 0)%Q)) data) s' dt n (nth i lcs nothing).
Proof. exact events_one. Qed.
Print Assumptions C123_one_reference.
Theorem C123_number_error : forall argsort data dt bands std n s e x,
  (forall l, Permutation (argsort l) l) -> (0 < dt)%Q -> data <> [] -> bands <> [] -> smallest (map fst data) s -> largest (map fst data) e -> whole_bins n dt (e - s) ->
  covariancespectrum argsort (Events data) (Some dt) (Some bands) (RefNumber x) std = Err ValueError.
Proof. exact events_number. Qed.
Print Assumptions C123_number_error.
Theorem C123_length_error : forall argsort data dt bands std n k s e l,
  (forall l, Permutation (argsort l) l) -> (0 < dt)%Q -> data <> [] -> bands <> [] -> smallest (map fst data) s -> largest (map fst data) e -> whole_bins n dt (e - s) ->
  (2 <= k)%nat -> l <> [] -> Forall (bins k) l -> length l <> length bands -> covariancespectrum argsort (Events data) (Some dt) (Some bands) (RefCurves l) std = Err AssertionError.
Proof. exact events_length. Qed.
Print Assumptions C123_length_error.
Open Scope R_scope.

Example C123_nonvacuous : whole_bins 3 1 (3 - 0) /\ smallest (map fst [(0, 10); (1, 20); (2, 10); (3, 30)]%Q) 0%Q /\ largest (map fst [(0, 10); (1, 20); (2, 10); (3, 30)]%Q) 3%Q /\
  smallest (map snd [(0, 10); (1, 20); (2, 10); (3, 30)]%Q) 10%Q /\ largest (map snd [(0, 10); (1, 20); (2, 10); (3, 30)]%Q) 30%Q /\ smallest (map fst [(15, 25)]%Q) 15%Q /\ largest (map snd [(15, 25)]%Q) 25%Q /\ (15 < 30)%Q /\ (10 < 25)%Q.
Proof.
  split; [split; vm_compute; congruence|]. unfold smallest, largest. cbn [map fst snd In].
  repeat split; try (intros e H; repeat destruct H as [<-|H]; try contradiction; vm_compute; congruence); try tauto; vm_compute; reflexivity.
Qed.

(* ---------- C124: averaged spectra ---------- *)
Theorem C124_first_segment : forall argsort std size lcs l dt bi n t0 ts k,
  (0 < size)%Q -> lcs <> [] -> bi <> Some [] -> Forall (bins n) lcs -> Forall (bins n) l -> length l = length lcs ->
  (forall lc, In lc lcs -> lc_time lc = ts) -> nth_error ts 0 = Some t0 -> (forall i j, (i < j < n)%nat -> (nth i ts 0 <= nth j ts 0)%Q) ->
  (2 <= k <= n)%nat -> (forall i, (i < n)%nat -> ((i < k)%nat <-> (nth i ts 0 < t0 + size)%Q)) ->
  exists sp, averaged_covariancespectrum argsort (Curves lcs) size dt bi (RefCurves l) std = Ok sp /\ rows_ok std 1 k lcs (fun i => nth i l nothing) sp.
Proof. exact averaged_first. Qed.
Print Assumptions C124_first_segment.
Theorem C124_average_refuted : 
  exists lc size sp, (0 < size)%Q /\ construct_averaged (StdNumber 0) size [lc] (RefList [lc]) = Ok sp /\ bins 4 lc /\
  nth 0 (sp_unnorm sp) None = Some 2 /\
  (cov_of 2 (counts_at lc) (counts_at lc) + cov_of 2 (fun k => counts_at lc (2 + k)) (fun k => counts_at lc (2 + k))) / 2 = 1.
Proof. exact averaged_first_segment. Qed.
Print Assumptions C124_average_refuted.
Theorem C124_one_reference_error : forall argsort std size lcs lc dt bi n t0,
  lcs <> [] -> match bi with Some [] => False | _ => True end -> nth_error (lc_time (nth 0 lcs nothing)) 0 = Some t0 -> (2 <= n)%nat -> bins n lc ->
  averaged_covariancespectrum argsort (Curves lcs) size dt bi (RefCurve lc) std = Err AttributeError.
Proof. exact averaged_curve_fails. Qed.
Print Assumptions C124_one_reference_error.
Theorem C124_size_error : forall std lcs r,
  lcs <> [] -> lc_time (nth 0 lcs nothing) <> [] -> (exists lc, reference_averaged r 0 = Ok lc) -> forall size, (size == 0)%Q -> construct_averaged std size lcs r = Err ValueError.
Proof. exact averaged_size_error. Qed.
Print Assumptions C124_size_error.
Theorem C124_negative_size_error : forall argsort std size lc l dt t ts n,
  (size < 0)%Q -> lc_time lc = t :: ts -> (2 <= n)%nat -> bins n l ->
  averaged_covariancespectrum argsort (Curves [lc]) size dt None (RefCurves [l]) std = Err IndexError.
Proof. exact empty_segment. Qed.
Print Assumptions C124_negative_size_error.

Example C124_nonvacuous : (0 < 2)%Q /\ Forall (bins 4) [curve4] /\ nth_error (lc_time curve4) 0 = Some (1 # 2)%Q /\ (forall i, (i < 4)%nat -> ((i < 2)%nat <-> (nth i (lc_time curve4) 0 < (1 # 2) + 2)%Q)).
Proof.
  split; [reflexivity|]. split; [repeat constructor|]. split; [reflexivity|]. intros i Hi.
  destruct i as [|[|[|[|i]]]]; [| | | |lia]; cbn [nth lc_time curve4]; (split; [intros X; first [vm_compute; reflexivity|lia]|intros X; first [lia|exfalso; vm_compute in X; discriminate X]]).
Qed.

