(* P_covar4.v: bands of event lists: light curves, references, bands made from the energies. *)
From Coq Require Import Reals Qreals.
From Verif Require Import Np Lib S_gti S_seg S_utils S_lc M_gti M_seg M_utils M_lc M_exvar M_covar Cplx S_covar P_lc_make P_helpers P_segan P_covar.
From Coq Require Import QArith List Bool Arith Lqa Lia.
Import ListNotations.
Open Scope Q_scope.

Lemma hits_flat a b rows : count (within a b) (flat_rows rows) = hits a b rows.
Proof. unfold hits. induction rows as [|[t e] rows IH]; [reflexivity|]. unfold flat_rows in *. cbn [flat_map app map count fst snd]. rewrite IH. lia. Qed.
Lemma rows_ok_curve rows dt s len n : 0 < dt -> whole_bins n dt len -> exists lc, rows_lightcurve rows dt s len = Ok lc /\ curve_of rows s dt n lc.
Proof.
  intros Hdt [N1 N2]. unfold rows_lightcurve. destruct (make_main (flat_rows rows) dt (Some len) (Some s) None false Hdt) as (s' & len' & S & D & M); [split; right; split; discriminate|].
  cbn [start_is duration_is] in S, D. subst s' len'. destruct (M n N1 N2) as (lc & E & H1 & H2 & H3 & _ & H5 & H6 & _). exists lc. split; [exact E|]. split; [split; assumption|]. split; [exact H1|]. split; [exact H5|].
  intros i Hi. destruct (nth_error (lc_counts lc) i) as [c|] eqn:X; [|apply nth_error_None in X; lia]. rewrite (nth_error_nth _ _ 0 X), (H6 i c X). now rewrite hits_flat.
Qed.
Lemma make_lightcurves_ok data bands dt n s e : 0 < dt -> data <> [] -> smallest (map fst data) s -> largest (map fst data) e -> whole_bins n dt (e - s) ->
  exists lcs s' len, make_lightcurves data bands dt = Ok (lcs, s', len) /\ s' == s /\ len == e - s /\ length lcs = length bands /\
    forall i, (i < length bands)%nat -> curve_of (filter (in_band (nth i bands (0, 0))) data) s' dt n (nth i lcs nothing).
Proof.
  intros Hdt NE [Si Sl] [Li Ll] W. unfold make_lightcurves. assert (NM : map fst data <> []) by (destruct data; [contradiction|discriminate]).
  destruct (qmin_list_ok _ NM) as (m & Em & Im & Mm). destruct (qmax_list_ok _ NM) as (M & EM & IM & MM). rewrite Em. cbn [bind]. rewrite EM. cbn [bind].
  assert (Es : m == s) by (apply Qle_antisym; auto). assert (Ee : M == e) by (apply Qle_antisym; auto).
  assert (W' : whole_bins n dt (M - m)) by (unfold whole_bins in *; rewrite Es, Ee; exact W).
  set (f := fun b => rows_lightcurve (filter (fun p => (qle (fst b) (snd p) && qle (snd p) (snd b))%bool) data) dt m (M - m)).
  assert (X : forall b, exists lc, f b = Ok lc /\ curve_of (filter (in_band b) data) m dt n lc) by (intros b; apply rows_ok_curve; assumption).
  destruct (map_result_ok f bands) as [r R]; [intros b _; destruct (X b) as (lc & E & _); eauto|]. rewrite R. cbn [bind]. exists r, m, (M - m). split; [reflexivity|]. split; [exact Es|]. split; [now rewrite Es, Ee|].
  destruct (map_result_nth f _ r R) as [L N]. split; [exact L|]. intros i Hi. destruct (N i (nth i bands (0, 0)) (nth_error_nth' bands (0, 0) Hi)) as (b & B1 & B2).
  rewrite (nth_error_nth r i nothing B1). destruct (X (nth i bands (0, 0))) as (lc & E & C). rewrite B2 in E. inversion E; subst. exact C.
Qed.
Lemma hits_photons a b rows : (forall p, In p rows -> snd p < a \/ b <= snd p) -> hits a b rows = photons a b rows.
Proof.
  intros H. unfold hits, photons. replace (count (within a b) (map snd rows)) with 0%nat; [lia|]. induction rows as [|p rows IH]; [reflexivity|]. cbn [map count]. rewrite <- IH by (intros; apply H; now right).
  replace (within a b (snd p)) with false; [reflexivity|]. symmetry. unfold within. destruct (H p (or_introl eq_refl)) as [X|X].
  - replace (qle a (snd p)) with false; [reflexivity|]. symmetry. apply qle_f. exact X.
  - replace (qlt (snd p) b) with false; [apply andb_false_r|]. symmetry. apply qlt_f. exact X.
Qed.
Lemma curve_photons rows s dt n lc : 0 < dt -> curve_of rows s dt n lc -> (forall p, In p rows -> snd p < s \/ bin_edge s dt n <= snd p) ->
  forall i, (i < n)%nat -> nth i (lc_counts lc) 0 = inject_Z (Z.of_nat (photons (bin_edge s dt i) (bin_edge s dt (S i)) rows)).
Proof.
  intros Hdt (_ & _ & _ & C) H i Hi. rewrite (C i Hi). rewrite hits_photons; [reflexivity|]. intros p I.
  assert (B : forall j k, (j <= k)%nat -> bin_edge s dt j <= bin_edge s dt k). { intros j k J. unfold bin_edge. assert (inject_Z (Z.of_nat j) <= inject_Z (Z.of_nat k)) by (rewrite <- Zle_Qle; lia). nra. }
  destruct (H p I) as [X|X]; [left|right].
  - apply (Qlt_le_trans _ s); [exact X|]. assert (s == bin_edge s dt 0) by (unfold bin_edge; cbn; ring). rewrite H0 at 1. apply B. lia.
  - apply (Qle_trans _ (bin_edge s dt n)); [apply B; lia|exact X].
Qed.
(* ---- references ---- *)
Lemma reference_events_ok data bands dt s len n lo hi blo bhi : 0 < dt -> whole_bins n dt len -> smallest (map snd data) lo -> largest (map snd data) hi -> smallest (map fst bands) blo -> largest (map snd bands) bhi ->
  (hi <= blo \/ bhi <= lo -> exists lc, reference_from_events data bands dt s len = Ok (RefOne lc) /\ curve_of data s dt n lc) /\
  (blo < hi -> lo < bhi -> exists l, reference_from_events data bands dt s len = Ok (RefList l) /\ length l = length bands /\
     forall i, (i < length bands)%nat -> curve_of (filter (fun p => qle (snd p) (fst (nth i bands (0, 0)))) data ++ filter (fun p => qle (snd (nth i bands (0, 0))) (snd p)) data) s dt n (nth i l nothing)).
Proof.
  intros Hdt W [L1 L2] [H1 H2] [B1 B2] [C1 C2]. unfold reference_from_events.
  assert (NE : forall {A B} (f : A -> B) l x, In x (map f l) -> map f l <> []) by (intros A B f l x I E; rewrite E in I; exact I).
  destruct (qmin_list_ok _ (NE _ _ _ _ _ L1)) as (lo' & Elo & Ilo & Mlo). destruct (qmax_list_ok _ (NE _ _ _ _ _ H1)) as (hi' & Ehi & Ihi & Mhi). destruct (qmin_list_ok _ (NE _ _ _ _ _ B1)) as (blo' & Eblo & Iblo & Mblo). destruct (qmax_list_ok _ (NE _ _ _ _ _ C1)) as (bhi' & Ebhi & Ibhi & Mbhi).
  rewrite Elo. cbn [bind]. rewrite Ehi. cbn [bind]. rewrite Eblo. cbn [bind]. rewrite Ebhi. cbn [bind].
  assert (Q1 : lo' == lo) by (apply Qle_antisym; auto). assert (Q2 : hi' == hi) by (apply Qle_antisym; auto). assert (Q3 : blo' == blo) by (apply Qle_antisym; auto). assert (Q4 : bhi' == bhi) by (apply Qle_antisym; auto).
  assert (In1 : forall p, In p data -> qle lo' (snd p) = true) by (intros p I; apply qle_t, Mlo, in_map, I). assert (In2 : forall p, In p data -> qle (snd p) hi' = true) by (intros p I; apply qle_t, Mhi, in_map, I).
  assert (Fe : forall f g : Q * Q -> bool, (forall p, In p data -> f p = g p) -> filter f data = filter g data) by (intros f g; clear; induction data as [|a d IH]; intros H; [reflexivity|]; cbn [filter]; rewrite (H a (or_introl eq_refl)), IH by (intros; apply H; now right); reflexivity).
  split.
  - intros D. replace (qle hi' blo' || qle bhi' lo')%bool with true.
    2:{ symmetry. apply orb_true_iff. destruct D as [D|D]; [left|right]; apply qle_t; lra. }
    destruct (rows_ok_curve (filter (fun p => (qle lo' (snd p) && qle (snd p) hi')%bool) data) dt s len n Hdt W) as (lc & E & C). rewrite E. cbn [bind]. exists lc. split; [reflexivity|].
    rewrite (Fe _ (fun _ => true)) in C by (intros p I; now rewrite In1, In2). replace (filter (fun _ : Q * Q => true) data) with data in C; [exact C|]. clear. induction data as [|a d IH]; [reflexivity|]. cbn. now f_equal.
  - intros D1 D2. replace (qle hi' blo' || qle bhi' lo')%bool with false.
    2:{ symmetry. apply orb_false_iff. split; apply qle_f; lra. }
    set (f := fun b : Q * Q => rows_lightcurve (filter (fun p => (qle (snd p) (fst b) && qle lo' (snd p))%bool) data ++ filter (fun p => (qle (snd p) hi' && qle (snd b) (snd p))%bool) data) dt s len).
    assert (X : forall b, exists lc, f b = Ok lc /\ curve_of (filter (fun p => qle (snd p) (fst b)) data ++ filter (fun p => qle (snd b) (snd p)) data) s dt n lc).
    { intros b. unfold f. rewrite (Fe _ (fun p => qle (snd p) (fst b))) by (intros p I; rewrite (In1 p I); apply andb_true_r). rewrite (Fe (fun p => (qle (snd p) hi' && qle (snd b) (snd p))%bool) (fun p => qle (snd b) (snd p))) by (intros p I; rewrite (In2 p I); reflexivity). now apply rows_ok_curve. }
    change (exists l, (let! l := map_result f bands in Ok (RefList l)) = Ok (RefList l) /\ length l = length bands /\
     forall i, (i < length bands)%nat -> curve_of (filter (fun p => qle (snd p) (fst (nth i bands (0, 0)))) data ++ filter (fun p => qle (snd (nth i bands (0, 0))) (snd p)) data) s dt n (nth i l nothing)).
    destruct (map_result_ok f bands) as [r R]; [intros b _; destruct (X b) as (lc & E & _); eauto|]. rewrite R. cbn [bind]. exists r. split; [reflexivity|].
    destruct (map_result_nth f _ r R) as [L N]. split; [exact L|]. intros i Hi. destruct (N i (nth i bands (0, 0)) (nth_error_nth' bands (0, 0) Hi)) as (b & G1 & G2).
    rewrite (nth_error_nth r i nothing G1). destruct (X (nth i bands (0, 0))) as (lc & E & C). rewrite G2 in E. inversion E; subst. exact C.
Qed.
Lemma pair_ignored argsort data dt bi lo hi std size :
  covariancespectrum argsort (Events data) dt bi (RefPair lo hi) std = covariancespectrum argsort (Events data) dt bi RefNothing std /\
  averaged_covariancespectrum argsort (Events data) size dt bi (RefPair lo hi) std = averaged_covariancespectrum argsort (Events data) size dt bi RefNothing std.
Proof. split; reflexivity. Qed.
