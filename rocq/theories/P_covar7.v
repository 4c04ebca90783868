(* P_covar7.v: covariance spectra, inputs that give nan or are refused. *)
From Coq Require Import Reals Qreals.
From Verif Require Import Np Lib M_gti M_utils M_lc M_exvar M_covar Cplx S_gti S_seg S_utils S_lc S_covar P_exvar P_helpers P_segan P_covar P_covar2 P_covar3 P_covar4 P_covar5.
From Coq Require Import Reals List Bool Arith Permutation Lra Lia.
Import ListNotations.
Open Scope R_scope.

Lemma one_band std lc lc' : construct_covar std [lc] (RefOne lc') =
  let! cv := compute_covariance lc lc' in Ok (finish [(cv, calculate_covariance_error std 1 lc lc', calculate_excess_variance std lc')]).
Proof. unfold construct_covar. cbn [length seq map_result get nth_error bind reference]. unfold get. cbn [nth_error bind]. destruct (compute_covariance lc lc'); reflexivity. Qed.
Lemma curves_one_band argsort lc lc' dt std : covariancespectrum argsort (Curves [lc]) dt None (RefCurve lc') std = construct_covar std [lc] (RefOne lc').
Proof. reflexivity. Qed.
(* one bin: no covariance *)
Lemma one_bin argsort lc lc' dt std : bins 1 lc -> bins 1 lc' -> exists sp, covariancespectrum argsort (Curves [lc]) dt None (RefCurve lc') std = Ok sp /\ sp_unnorm sp = [None] /\ sp_covar sp = [None].
Proof.
  intros [A _] [B _]. rewrite curves_one_band, one_band. unfold compute_covariance, np_cov, rcounts. rewrite !map_length, A, B. cbn [Nat.eqb Nat.leb bind]. eexists. split; [reflexivity|]. split; reflexivity.
Qed.
Lemma empty_std argsort lc lc' dt n : (2 <= n)%nat -> bins n lc -> bins n lc' -> exists sp, covariancespectrum argsort (Curves [lc]) dt None (RefCurve lc') (StdList []) = Ok sp /\ sp_covar sp = [None] /\ sp_error sp = [None].
Proof.
  intros Hn A B. rewrite curves_one_band, one_band. rewrite (cov_ok lc lc' n Hn A B). cbn [bind]. eexists. split; [reflexivity|]. split; reflexivity.
Qed.
Lemma bins_differ argsort lc lc' dt std n m : bins n lc -> bins m lc' -> n <> m -> covariancespectrum argsort (Curves [lc]) dt None (RefCurve lc') std = Err ValueError.
Proof.
  intros [A _] [B _] N. rewrite curves_one_band, one_band. unfold compute_covariance, np_cov, rcounts. rewrite !map_length, A, B, (proj2 (Nat.eqb_neq _ _) N). reflexivity.
Qed.
Lemma refs_differ argsort lcs dt a b l std : lcs <> [] -> length (lc_counts a) <> length (lc_counts b) -> covariancespectrum argsort (Curves lcs) dt None (RefCurves (a :: b :: l)) std = Err ValueError.
Proof.
  intros NE N. destruct lcs as [|c lcs]; [contradiction|]. unfold covariancespectrum, prepare. cbn [get nth_error bind]. unfold get. cbn [nth_error bind]. unfold size_of. cbn [forallb]. rewrite Nat.eqb_refl.
  rewrite (proj2 (Nat.eqb_neq _ _)) by congruence. reflexivity.
Qed.
Lemma one_number argsort lc dt std : bins 1 lc -> covariancespectrum argsort (Curves [lc]) dt None RefNothing std = Err AttributeError.
Proof.
  intros [A B]. destruct lc as [t c g d]. cbn [lc_counts lc_time] in A, B. destruct c as [|x [|]]; try discriminate A. reflexivity.
Qed.
Lemma others_differ argsort a b dt std n m : bins n a -> bins m b -> n <> m -> covariancespectrum argsort (Curves [a; b]) dt None RefNothing std = Err ValueError.
Proof.
  intros [A _] [B _] N. unfold covariancespectrum, prepare, reference_from_lightcurves. cbn [get nth_error bind length seq map map_result fold_left Nat.eqb]. unfold get. cbn [nth_error bind]. unfold add_counts. rewrite map_length, A, B, (proj2 (Nat.eqb_neq _ _) N). reflexivity.
Qed.
(* bands from the energies *)
Lemma default_bands argsort d dt ref std bands : d <> [] -> create_band_interest (map snd d) = Ok bands -> bands <> [] ->
  covariancespectrum argsort (Events d) dt None ref std = covariancespectrum argsort (Events d) dt (Some bands) ref std.
Proof.
  intros NE B NB. destruct d as [|p d]; [contradiction|]. destruct bands as [|b bands]; [contradiction|]. unfold covariancespectrum, prepare. rewrite B. reflexivity.
Qed.
(* event data with light curves as references *)
Lemma events_made argsort d dt bands : d <> [] -> bands <> [] -> ~ (dt == 0)%Q -> forall m, make_lightcurves (if sorted_rows d then d else argsort d) bands dt = Ok m ->
  forall ref std, covariancespectrum argsort (Events d) (Some dt) (Some bands) ref std =
  match ref with
  | RefNothing | RefPair _ _ => let! r := reference_from_events (if sorted_rows d then d else argsort d) bands dt (snd (fst m)) (snd m) in construct_covar std (fst (fst m)) r
  | RefCurve lc => construct_covar std (fst (fst m)) (RefOne lc)
  | RefNumber _ => Err ValueError
  | RefCurves l => let! s := size_of l in if Nat.eqb s 1 then Err ValueError else let! _ := get l 0 in if Nat.eqb (length l) (length (fst (fst m))) then construct_covar std (fst (fst m)) (RefList l) else Err AssertionError
  end.
Proof.
  intros NE NB Z m M ref std. destruct d as [|p d]; [contradiction|]. destruct bands as [|b bands]; [contradiction|]. unfold covariancespectrum, prepare. cbn [get nth_error bind]. unfold get at 1. cbn [nth_error bind].
  destruct (qeq dt 0) eqn:E; [apply qeq_t in E; contradiction|]. cbn [bind]. rewrite M. cbn [bind]. destruct ref as [|lc|l|lo hi|x]; cbn [bind fst snd]; try reflexivity; try (destruct (reference_from_events _ _ _ _ _); reflexivity).
  destruct (size_of l) as [s|]; [|reflexivity]. cbn [bind]. destruct (Nat.eqb s 1); [reflexivity|]. destruct l as [|a l]; [reflexivity|]. unfold get. cbn [nth_error bind]. destruct (Nat.eqb (length (a :: l)) (length (fst (fst m)))); reflexivity.
Qed.
(* the light curves of the bands, whatever the reference *)
Lemma made argsort data dt bands n s e : (forall l, Permutation (argsort l) l) -> (0 < dt)%Q -> data <> [] -> smallest (map fst data) s -> largest (map fst data) e -> whole_bins n dt (e - s) ->
  exists lcs s' len, make_lightcurves (if sorted_rows data then data else argsort data) bands dt = Ok (lcs, s', len) /\ (s' == s)%Q /\ length lcs = length bands /\
    forall i, (i < length bands)%nat -> curve_of (filter (in_band (nth i bands (0, 0)%Q)) data) s' dt n (nth i lcs nothing).
Proof.
  intros P Hd NE MS ML W. set (d' := if sorted_rows data then data else argsort data). assert (PD : Permutation d' data) by (unfold d'; destruct (sorted_rows data); [apply Permutation_refl|apply P]).
  assert (NE' : d' <> []) by (intros X; rewrite X in PD; apply Permutation_nil in PD; contradiction).
  destruct (make_lightcurves_ok d' bands dt n s e Hd NE') as (lcs & s' & len & E & S' & _ & L & C).
  - apply (smallest_perm (map fst data)); [apply Permutation_map, Permutation_sym, PD|exact MS].
  - apply (largest_perm (map fst data)); [apply Permutation_map, Permutation_sym, PD|exact ML].
  - exact W.
  - exists lcs, s', len. split; [exact E|]. split; [exact S'|]. split; [exact L|]. intros i Hi. apply (curve_perm (filter (in_band (nth i bands (0, 0)%Q)) d')); [apply filter_perm, PD|now apply C].
Qed.
Lemma curve_bins rows s dt n lc : curve_of rows s dt n lc -> bins n lc.
Proof. now intros [H _]. Qed.
Lemma events_one argsort data dt bands std n s e lc : (forall l, Permutation (argsort l) l) -> (0 < dt)%Q -> (2 <= n)%nat -> data <> [] -> bands <> [] ->
  smallest (map fst data) s -> largest (map fst data) e -> whole_bins n dt (e - s) -> bins n lc ->
  exists sp lcs s', covariancespectrum argsort (Events data) (Some dt) (Some bands) (RefCurve lc) std = Ok sp /\ (s' == s)%Q /\ length lcs = length bands /\ rows_ok std 1 n lcs (fun _ => lc) sp /\
    forall i, (i < length bands)%nat -> curve_of (filter (in_band (nth i bands (0, 0)%Q)) data) s' dt n (nth i lcs nothing).
Proof.
  intros P Hd Hn NE NB MS ML W B. destruct (made argsort data dt bands n s e P Hd NE MS ML W) as (lcs & s' & len & M & S' & L & C).
  rewrite (events_made argsort data dt bands NE NB) with (m := (lcs, s', len)); [|intros Z; rewrite Z in Hd; now apply Qlt_irrefl in Hd|exact M]. cbn [fst snd].
  destruct (construct_ok std lcs (RefOne lc) n Hn) as (sp & E & R); [|exact B|].
  - apply Forall_forall. intros x Hx. destruct (In_nth lcs x nothing Hx) as (i & Hi & <-). rewrite L in Hi. exact (curve_bins _ _ _ _ _ (C i Hi)).
  - exists sp, lcs, s'. repeat (split; [assumption|]). exact C.
Qed.
Lemma events_number argsort data dt bands std n s e x : (forall l, Permutation (argsort l) l) -> (0 < dt)%Q -> data <> [] -> bands <> [] -> smallest (map fst data) s -> largest (map fst data) e -> whole_bins n dt (e - s) ->
  covariancespectrum argsort (Events data) (Some dt) (Some bands) (RefNumber x) std = Err ValueError.
Proof.
  intros P Hd NE NB MS ML W. destruct (made argsort data dt bands n s e P Hd NE MS ML W) as (lcs & s' & len & M & _).
  rewrite (events_made argsort data dt bands NE NB) with (m := (lcs, s', len)); [reflexivity|intros Z; rewrite Z in Hd; now apply Qlt_irrefl in Hd|exact M].
Qed.
Lemma events_length argsort data dt bands std n k s e l : (forall l, Permutation (argsort l) l) -> (0 < dt)%Q -> data <> [] -> bands <> [] -> smallest (map fst data) s -> largest (map fst data) e -> whole_bins n dt (e - s) ->
  (2 <= k)%nat -> l <> [] -> Forall (bins k) l -> length l <> length bands -> covariancespectrum argsort (Events data) (Some dt) (Some bands) (RefCurves l) std = Err AssertionError.
Proof.
  intros P Hd NE NB MS ML W K NL F L. destruct (made argsort data dt bands n s e P Hd NE MS ML W) as (lcs & s' & len & M & _ & LL & _).
  rewrite (events_made argsort data dt bands NE NB) with (m := (lcs, s', len)); [|intros Z; rewrite Z in Hd; now apply Qlt_irrefl in Hd|exact M]. cbn [fst snd].
  assert (0 < length l)%nat by (destruct l; [contradiction|cbn; lia]). rewrite (size_common l k NL F). cbn [bind]. destruct (Nat.eqb (length l * k) 1) eqn:E1; [apply Nat.eqb_eq in E1; nia|]. rewrite (get_at l nothing 0) by lia. cbn [bind].
  rewrite LL, (proj2 (Nat.eqb_neq _ _) L). reflexivity.
Qed.
(* a segment without bins *)
Lemma empty_segment argsort std size lc l dt t ts n : (size < 0)%Q -> lc_time lc = t :: ts -> (2 <= n)%nat -> bins n l ->
  averaged_covariancespectrum argsort (Curves [lc]) size dt None (RefCurves [l]) std = Err IndexError.
Proof.
  intros Hs T Hn B. assert (NL : [l] <> []) by discriminate. assert (F : Forall (bins n) [l]) by (constructor; [exact B|constructor]). unfold averaged_covariancespectrum, prepare. cbn [get nth_error bind]. unfold get. cbn [nth_error bind]. rewrite (size_common [l] n NL F). cbn [bind length].
  destruct (Nat.eqb (1 * n) 1) eqn:E1; [apply Nat.eqb_eq in E1; lia|]. cbn [Nat.eqb bind fst snd]. unfold construct_averaged, reference_averaged. cbn [get nth_error bind length seq map_result]. unfold get. cbn [nth_error bind]. rewrite T. cbn [nth_error bind].
  rewrite (size_common [l] n NL F). cbn [bind length]. rewrite E1. cbn [bind].
  destruct (qeq size 0) eqn:Z; [apply qeq_t in Z; rewrite Z in Hs; now apply Qlt_irrefl in Hs|]. cbn [bind].
  assert (X : qlt t t = false) by (apply qlt_f, Qle_refl). assert (Y : qlt t (t + size) = false) by (apply qlt_f; Lqa.lra).
  assert (N1 : py_int ((t + size - t) / size) = 1%Z).
  { assert (E : ((t + size - t) / size == 1)%Q) by (field; intros X'; rewrite X' in Hs; now apply Qlt_irrefl in Hs). unfold py_int. replace (qle 0 ((t + size - t) / size)) with true by (symmetry; apply qle_t; rewrite E; discriminate). rewrite (Qfloor_comp _ _ E). reflexivity. }
  rewrite N1. cbn [Z.to_nat Pos.to_nat Pos.iter_op]. change (Pos.to_nat 1) with 1%nat. cbn [segment_loop]. rewrite T. cbn [searchsorted_left]. rewrite X, Y. unfold truncate_lc. rewrite T. reflexivity.
Qed.
