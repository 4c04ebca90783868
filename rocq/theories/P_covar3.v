(* P_covar3.v: spectra of lists of light curves; the averaged spectrum. *)
From Coq Require Import Reals Qreals.
From Verif Require Import Np Lib M_gti M_utils M_lc M_exvar M_covar Cplx S_covar P_exvar P_helpers P_segan P_covar P_covar2.
From Coq Require Import Reals List Bool Arith Lra Lia.
Import ListNotations.
Open Scope R_scope.

Lemma prepare_bands argsort lcs dt bi ref : lcs <> [] -> match bi with Some [] => False | _ => True end -> exists bands, (match bi with None => length bands = length lcs | Some b => bands = b end) /\
  prepare argsort (Curves lcs) dt bi ref =
  match ref with
  | RefNothing => let! r := reference_from_lightcurves lcs bands None in Ok (lcs, r)
  | RefCurve lc => Ok (lcs, RefOne lc)
  | RefNumber _ => Err ValueError
  | RefPair lo hi => let! r := reference_from_lightcurves lcs bands (Some (lo, hi)) in Ok (lcs, r)
  | RefCurves l => let! s := size_of l in
                   if Nat.eqb s 1 then Err ValueError
                   else let! _ := get l 0 in if Nat.eqb (length l) (length lcs) then Ok (lcs, RefList l) else Err AssertionError
  end.
Proof.
  intros NE B. unfold prepare. rewrite (get_at lcs nothing 0) by (destruct lcs; [contradiction|cbn; lia]). cbn [bind]. destruct bi as [[|b bi]|].
  - contradiction.
  - exists (b :: bi). split; reflexivity.
  - eexists. split; [|cbn [bind]; reflexivity]. rewrite map_length. apply seq_length.
Qed.
Lemma curves_one argsort lcs dt bi lc std n : (2 <= n)%nat -> lcs <> [] -> match bi with Some [] => False | _ => True end -> Forall (bins n) lcs -> bins n lc ->
  exists sp, covariancespectrum argsort (Curves lcs) dt bi (RefCurve lc) std = Ok sp /\ rows_ok std 1 n lcs (fun _ => lc) sp.
Proof.
  intros Hn NE B F H. unfold covariancespectrum. destruct (prepare_bands argsort lcs dt bi (RefCurve lc) NE B) as (bands & _ & E). rewrite E. cbn [bind fst snd]. exact (construct_ok std lcs (RefOne lc) n Hn F H).
Qed.
Lemma curves_many argsort lcs dt bi l std n : (2 <= n)%nat -> lcs <> [] -> match bi with Some [] => False | _ => True end -> Forall (bins n) lcs -> Forall (bins n) l -> length l = length lcs ->
  exists sp, covariancespectrum argsort (Curves lcs) dt bi (RefCurves l) std = Ok sp /\ rows_ok std 1 n lcs (fun i => nth i l nothing) sp.
Proof.
  intros Hn NE B F Fl L. unfold covariancespectrum. destruct (prepare_bands argsort lcs dt bi (RefCurves l) NE B) as (bands & _ & E). rewrite E.
  assert (NEl : l <> []) by (intros ->; destruct lcs; [contradiction|discriminate L]). assert (0 < length l)%nat by (destruct l; [contradiction|cbn; lia]).
  rewrite (size_common l n NEl Fl). cbn [bind]. destruct (Nat.eqb (length l * n) 1) eqn:E1; [apply Nat.eqb_eq in E1; nia|]. rewrite (get_at l nothing 0) by lia. cbn [bind]. rewrite L, Nat.eqb_refl. cbn [bind fst snd].
  exact (construct_ok std lcs (RefList l) n Hn F (conj L Fl)).
Qed.
Lemma curves_others argsort lcs dt bi std n : (2 <= n)%nat -> lcs <> [] -> bands_given bi lcs -> Forall (bins n) lcs ->
  exists sp refs, covariancespectrum argsort (Curves lcs) dt bi RefNothing std = Ok sp /\ rows_ok std 1 n lcs refs sp /\
    (forall i k, (i < length lcs)%nat -> counts_at (refs i) k = rs (length lcs) (fun j => if Nat.eqb i j then 0 else counts_at (nth j lcs nothing) k)) /\
    (forall i, (i < length lcs)%nat -> nth i (sp_unnorm sp) None = Some (rs (length lcs) (fun j => if Nat.eqb i j then 0 else cov_of n (counts_at (nth i lcs nothing)) (counts_at (nth j lcs nothing))))).
Proof.
  intros Hn NE B F. assert (0 < length lcs)%nat by (destruct lcs; [contradiction|cbn; lia]). unfold covariancespectrum.
  destruct (prepare_bands argsort lcs dt bi RefNothing NE) as (bands & Lb & E); [destruct bi as [[|]|]; cbn [bands_given length] in B; [lia|exact I|exact I]|]. rewrite E.
  assert (Lb' : length bands = length lcs) by (destruct bi; [rewrite Lb; exact B|exact Lb]).
  destruct (others_ok lcs bands n ltac:(lia) NE Lb' F) as (l & R & L & Fl & K). rewrite R. cbn [bind fst snd].
  destruct (construct_ok std lcs (RefList l) n Hn F (conj L Fl)) as (sp & C & RO). exists sp, (fun i => nth i l nothing). split; [exact C|]. split; [exact RO|]. split; [intros i k Hi; now apply K|].
  intros i Hi. destruct RO as (_ & _ & _ & RO). destruct (RO i Hi) as [U _]. rewrite U. f_equal. cbn [ref_of].
  rewrite (cov_ext n _ (counts_at (nth i lcs nothing)) _ (fun k => rs (length lcs) (fun j => (fun j k => if Nat.eqb i j then 0 else counts_at (nth j lcs nothing) k) j k))) by (intros; first [reflexivity|now apply K]).
  rewrite cov_sum. apply rs_ext. intros j Hj. destruct (Nat.eqb i j); [|reflexivity]. rewrite cov_sym. unfold cov_of.
  rewrite rs_zero; [unfold Rdiv; ring|]. intros k Hk. unfold mean_of. rewrite (rs_zero n (fun _ => 0)) by reflexivity. unfold Rdiv. ring.
Qed.
Lemma curves_pair_error argsort lcs dt bi lo hi std : covariancespectrum argsort (Curves lcs) dt bi (RefPair lo hi) std = Err ValueError \/ lcs = [].
Proof.
  destruct lcs as [|a l]; [now right|left]. unfold covariancespectrum. destruct bi as [[|b bi]|]; reflexivity.
Qed.
Lemma curves_number_error argsort lcs dt bi x std : covariancespectrum argsort (Curves lcs) dt bi (RefNumber x) std = Err ValueError \/ lcs = [].
Proof.
  destruct lcs as [|a l]; [now right|left]. unfold covariancespectrum. destruct bi as [[|b bi]|]; reflexivity.
Qed.
Lemma curves_length_error argsort lcs dt bi l std n : (2 <= n)%nat -> lcs <> [] -> match bi with Some [] => False | _ => True end -> l <> [] -> Forall (bins n) l -> length l <> length lcs ->
  covariancespectrum argsort (Curves lcs) dt bi (RefCurves l) std = Err AssertionError.
Proof.
  intros Hn NE B NEl Fl L. unfold covariancespectrum. destruct (prepare_bands argsort lcs dt bi (RefCurves l) NE B) as (bands & _ & E). rewrite E. assert (0 < length l)%nat by (destruct l; [contradiction|cbn; lia]).
  rewrite (size_common l n NEl Fl). cbn [bind]. destruct (Nat.eqb (length l * n) 1) eqn:E1; [apply Nat.eqb_eq in E1; nia|]. rewrite (get_at l nothing 0) by lia. cbn [bind]. rewrite (proj2 (Nat.eqb_neq _ _) L). reflexivity.
Qed.
Lemma no_bands_error argsort data dt ref std : covariancespectrum argsort data dt (Some []) ref std = Err ValueError \/ data = Events [] \/ data = Curves [].
Proof. destruct data as [[|]|[|]]; auto. Qed.
Lemma no_dt_error argsort d dt bi ref std : (dt = None \/ exists x, dt = Some x /\ (x == 0)%Q) -> d <> [] -> bi <> None -> covariancespectrum argsort (Events d) dt bi ref std = Err ValueError.
Proof.
  intros D NE B. unfold covariancespectrum, prepare. destruct d as [|a d]; [contradiction|]. cbn [get nth_error bind]. destruct bi as [[|b bi]|]; [reflexivity| |contradiction]. cbn [bind].
  destruct D as [->|(x & -> & X)]; [reflexivity|]. assert (Y : qeq x 0 = true) by (apply qeq_t; exact X). rewrite Y. reflexivity.
Qed.
(* the covariance never exceeds what the spread of the two bands allows *)
Lemma covar_bound std mm n lc lc' u c e s s' v : (2 <= n)%nat -> band_ok std mm n lc lc' u c e -> std_is std n (counts_at lc) s -> std_is std n (counts_at lc') s' -> c = Some v ->
  v ^ 2 * excess_of n (counts_at lc') s' <= cov_of n (counts_at lc) (counts_at lc) * cov_of n (counts_at lc') (counts_at lc').
Proof.
  intros Hn [U H] S S' C. destruct (H s s' S S') as [H1 H2]. destruct (Rlt_le_dec 0 (excess_of n (counts_at lc') s')) as [P|P]; [|rewrite H2 in C by exact P; discriminate C].
  destruct (H1 P) as [H3 _]. rewrite H3 in C. inversion C as [V]. clear C. set (y := excess_of n (counts_at lc') s') in *. assert (Y : 0 < sqrt y) by (now apply sqrt_lt_R0).
  replace ((cov_of n (counts_at lc) (counts_at lc') / sqrt y) ^ 2 * y) with ((cov_of n (counts_at lc) (counts_at lc')) ^ 2); [now apply cov_cauchy|].
  rewrite <- (sqrt_sqrt y) at 2 by lra. field. lra.
Qed.
(* a band against itself, without noise: not its standard deviation but n / (n - 1) times it *)
Lemma self_covar mm n lc u c e : (2 <= n)%nat -> band_ok (StdNumber 0) mm n lc lc u c e -> 0 < var_of n (counts_at lc) -> c = Some (INR n / (INR n - 1) * sqrt (var_of n (counts_at lc))).
Proof.
  intros Hn [_ H] P. destruct (H 0 0 eq_refl eq_refl) as [H1 _]. assert (X : excess_of n (counts_at lc) 0 = var_of n (counts_at lc)) by (unfold excess_of; ring). cbv zeta in H1. rewrite X in H1.
  rewrite (proj1 (H1 P)). f_equal. rewrite cov_self by exact Hn. assert (Y : 0 < sqrt (var_of n (counts_at lc))) by (now apply sqrt_lt_R0). unfold Rdiv. rewrite !Rmult_assoc. do 2 f_equal.
  rewrite <- (sqrt_sqrt (var_of n (counts_at lc))) at 1 by lra. field. lra.
Qed.

(* ---- averaged ---- *)
Definition cut_at (k : nat) (lc : lightcurve) : lightcurve := mkLC (firstn k (lc_time lc)) (firstn k (lc_counts lc)) (lc_gti lc) (lc_dt lc).
Lemma counts_cut k lc j : (j < k)%nat -> counts_at (cut_at k lc) j = counts_at lc j.
Proof. intros H. unfold counts_at, cut_at. cbn [lc_counts]. f_equal. revert j H. generalize (lc_counts lc). induction k as [|k IH]; intros l j H; [lia|]. destruct l as [|a l]; [reflexivity|]. destruct j; [reflexivity|]. cbn. apply IH. lia. Qed.
Lemma cut_bins k n lc : bins n lc -> (k <= n)%nat -> bins k (cut_at k lc).
Proof. intros [A B] H. split; cbn [cut_at lc_counts lc_time]; rewrite firstn_length; lia. Qed.
Lemma truncate_ok lc n k : bins n lc -> (0 < k)%nat -> (k <= n)%nat -> truncate_lc lc 0 k = Ok (cut_at k lc).
Proof.
  intros [A B] H H'. unfold truncate_lc, slice. cbn [skipn]. rewrite Nat.sub_0_r. destruct (firstn k (lc_time lc)) eqn:E; [apply (f_equal (@length Q)) in E; rewrite firstn_length in E; cbn in E; lia|]. rewrite <- E. reflexivity.
Qed.
Lemma mean_cut k f g : (forall j, (j < k)%nat -> f j = g j) -> mean_of k f = mean_of k g.
Proof. apply mean_ext. Qed.
Lemma band_ext std mm n a a' b b' u c e : (forall j, (j < n)%nat -> counts_at a j = counts_at a' j) -> (forall j, (j < n)%nat -> counts_at b j = counts_at b' j) -> band_ok std mm n a b u c e -> band_ok std mm n a' b' u c e.
Proof.
  intros A B [U H].
  assert (SA : forall s f g, (forall j, (j < n)%nat -> f j = g j) -> std_is std n f s -> std_is std n g s) by (intros s f g X; destruct std; cbn [std_is]; rewrite ?(mean_ext n f g X); tauto).
  assert (V : forall f g s, (forall j, (j < n)%nat -> f j = g j) -> excess_of n f s = excess_of n g s).
  { intros f g s X. unfold excess_of, var_of. rewrite (mean_ext n f g X). rewrite (rs_ext n _ (fun i => (g i - mean_of n g) ^ 2)) by (intros; now rewrite X). reflexivity. }
  split; [now rewrite <- (cov_ext n (counts_at a) (counts_at a') (counts_at b) (counts_at b') A B)|]. intros s s' S S'.
  specialize (H s s' (SA s _ _ (fun j J => eq_sym (A j J)) S) (SA s' _ _ (fun j J => eq_sym (B j J)) S')). cbv zeta in *.
  rewrite (V _ (counts_at a') s A), (V _ (counts_at b') s' B), (cov_ext n (counts_at a) (counts_at a') (counts_at b) (counts_at b') A B) in H. exact H.
Qed.
Lemma construct_averaged_ok std size lcs l n t0 ts k : (0 < size)%Q -> (2 <= n)%nat -> lcs <> [] -> Forall (bins n) lcs -> Forall (bins n) l -> length l = length lcs ->
  (forall lc, In lc lcs -> lc_time lc = ts) -> nth_error ts 0 = Some t0 -> k = searchsorted_left ts (t0 + size) -> (2 <= k)%nat ->
  exists sp, construct_averaged std size lcs (RefList l) = Ok sp /\ rows_ok std 1 k lcs (fun i => nth i l nothing) sp.
Proof.
  intros Hs Hn NE F Fl L T T0 K Hk. unfold construct_averaged. assert (Hlen : (0 < length lcs)%nat) by (destruct lcs; [contradiction|cbn; lia]).
  rewrite (get_at lcs nothing 0 Hlen). cbn [bind]. rewrite (T (nth 0 lcs nothing) (nth_In _ _ Hlen)). unfold get at 1. rewrite T0. cbn [bind].
  assert (Lts : length ts = n). { rewrite Forall_forall in F. rewrite <- (T _ (nth_In lcs nothing Hlen)). apply F, nth_In, Hlen. }
  assert (Kn : (k <= n)%nat). { rewrite K, <- Lts. clear. induction ts as [|x ts IH]; [reflexivity|]. cbn [searchsorted_left]. destruct (qlt x _); cbn; lia. }
  assert (S0 : searchsorted_left ts t0 = 0%nat). { destruct ts as [|x ts]; [discriminate T0|]. inversion T0; subst. cbn. replace (qlt t0 t0) with false by (symmetry; apply qlt_f; apply Qle_refl). reflexivity. }
  assert (N1 : py_int ((t0 + size - t0) / size) = 1%Z).
  { assert (E : ((t0 + size - t0) / size == 1)%Q) by (field; intros X; rewrite X in Hs; discriminate (proj1 (Qlt_alt 0 0) Hs)). unfold py_int. replace (qle 0 ((t0 + size - t0) / size)) with true by (symmetry; apply qle_t; rewrite E; discriminate). rewrite (Qfloor_comp _ _ E). reflexivity. }
  assert (Z0 : qeq size 0 = false). { destruct (qeq size 0) eqn:E; [|reflexivity]. apply qeq_t in E. rewrite E in Hs. discriminate (proj1 (Qlt_alt 0 0) Hs). }
  set (row := fun i => (Some (cov_of k (counts_at (cut_at k (nth i lcs nothing))) (counts_at (cut_at k (nth i l nothing)))), calculate_covariance_error std 1 (cut_at k (nth i lcs nothing)) (cut_at k (nth i l nothing)), calculate_excess_variance std (cut_at k (nth i l nothing)))).
  rewrite (map_result_total _ row).
  - cbn [bind]. eexists. split; [reflexivity|]. unfold finish, rows_ok. cbn [sp_unnorm sp_covar sp_error]. rewrite !map_map, !map_length, seq_length. do 3 (split; [reflexivity|]). intros i Hi.
    assert (Nth : forall f : nat -> option R, nth i (map f (seq 0 (length lcs))) None = f i).
    { intros f. rewrite (nth_indep _ None (f O)) by now rewrite map_length, seq_length. rewrite map_nth, seq_nth by exact Hi. reflexivity. }
    rewrite !Nth. unfold row. cbn [fst snd].
    assert (B1 : bins n (nth i lcs nothing)) by (rewrite Forall_forall in F; apply F, nth_In, Hi). assert (B2 : bins n (nth i l nothing)) by (rewrite Forall_forall in Fl; apply Fl, nth_In; lia).
    apply (band_ext std 1 k (cut_at k (nth i lcs nothing)) _ (cut_at k (nth i l nothing))); [intros; now apply counts_cut|intros; now apply counts_cut|].
    apply finish_row; [lra|lia| |]; now apply (cut_bins k n).
  - intros i I. apply in_seq in I. assert (Hi : (i < length lcs)%nat) by lia. rewrite (get_at lcs nothing i Hi). cbn [bind].
    assert (B1 : bins n (nth i lcs nothing)) by (rewrite Forall_forall in F; apply F, nth_In, Hi). assert (B2 : bins n (nth i l nothing)) by (rewrite Forall_forall in Fl; apply Fl, nth_In; lia).
    cbn [reference_averaged]. rewrite (size_common l n) by (try assumption; intros ->; cbn in L; lia). cbn [bind]. destruct (Nat.eqb (length l * n) 1) eqn:E; [apply Nat.eqb_eq in E; nia|]. rewrite (get_at l nothing i) by lia. cbn [bind].
    rewrite Z0. cbn [bind]. rewrite N1. change (Z.to_nat 1) with 1%nat. cbn [segment_loop]. rewrite (T _ (nth_In lcs nothing Hi)), S0, <- K.
    rewrite (truncate_ok _ n k B1), (truncate_ok _ n k B2) by lia. cbn [bind]. rewrite (cov_ok _ _ k Hk (cut_bins k n _ B1 Kn) (cut_bins k n _ B2 Kn)). cbn [bind fst snd].
    assert (One : forall o : option R, (flet v := oplus (Some 0) o in fdiv v 1) = o). { intros [v|]; [|reflexivity]. cbn [oplus]. rewrite fdiv_some by lra. f_equal. lra. }
    rewrite !One. reflexivity.
Qed.
Lemma averaged_curve_error std size lcs lc n t0 : lcs <> [] -> nth_error (lc_time (nth 0 lcs nothing)) 0 = Some t0 -> (2 <= n)%nat -> bins n lc -> construct_averaged std size lcs (RefOne lc) = Err AttributeError.
Proof.
  intros NE T0 Hn [B _]. unfold construct_averaged. assert (Hlen : (0 < length lcs)%nat) by (destruct lcs; [contradiction|cbn; lia]). rewrite (get_at lcs nothing 0 Hlen). cbn [bind]. unfold get at 1. rewrite T0. cbn [bind].
  destruct lcs as [|a lcs]; [contradiction|]. cbn [length seq map_result]. unfold get at 1. cbn [nth_error bind reference_averaged]. rewrite B. rewrite (proj2 (Nat.eqb_neq _ _)) by lia. unfold get at 1.
  destruct (lc_counts lc) as [|c cs]; [cbn in B; lia|]. reflexivity.
Qed.
