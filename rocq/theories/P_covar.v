(* P_covar.v: covariances and excess variances, spectra of light curves. *)
From Coq Require Import Reals Qreals.
From Verif Require Import Np Lib M_gti M_utils M_lc M_exvar M_covar Cplx S_covar P_exvar P_helpers P_segan.
From Coq Require Import Reals List Bool Arith Lra Lia.
Import ListNotations.
Open Scope R_scope.

Lemma rmean_of lc n : bins n lc -> rmean (rcounts lc) = mean_of n (counts_at lc).
Proof.
  intros [H _]. unfold rmean, mean_of, rcounts. rewrite map_length, H. f_equal. change rsum with rlsum. rewrite rlsum_rs, map_length, H. apply rs_ext. intros i Hi.
  unfold counts_at. rewrite (nth_indep _ 0 (Q2R 0%Q)) by now rewrite map_length, H. apply map_nth.
Qed.
Lemma nth_rcounts lc i : (i < length (lc_counts lc))%nat -> nth i (rcounts lc) 0 = counts_at lc i.
Proof. intros H. unfold rcounts, counts_at. rewrite (nth_indep _ 0 (Q2R 0%Q)) by now rewrite map_length. apply map_nth. Qed.
Lemma rvar_of lc n : bins n lc -> rvar (rcounts lc) = var_of n (counts_at lc).
Proof.
  intros H. unfold rvar, var_of. cbv zeta. rewrite (rmean_of lc n H). destruct H as [H _]. unfold rmean. rewrite map_length. unfold rcounts at 2. rewrite map_length, H. f_equal.
  change rsum with rlsum. rewrite (rs_nth_seq (rcounts lc) 0). unfold rcounts at 1. rewrite map_length, H. apply rs_ext. intros i Hi. rewrite nth_rcounts by lia. ring.
Qed.
Lemma ovar_of lc n : (0 < n)%nat -> bins n lc -> ovar (rcounts lc) = Some (var_of n (counts_at lc)).
Proof. intros Hn H. rewrite <- (rvar_of lc n H). destruct H as [H _]. unfold ovar. destruct (rcounts lc) eqn:E; [|reflexivity]. exfalso. apply (f_equal (@length R)) in E. unfold rcounts in E. rewrite map_length in E. cbn in E. lia. Qed.
Lemma omean_of lc n : (0 < n)%nat -> bins n lc -> omean (rcounts lc) = Some (mean_of n (counts_at lc)).
Proof. intros Hn H. rewrite <- (rmean_of lc n H). destruct H as [H _]. unfold omean. destruct (rcounts lc) eqn:E; [|reflexivity]. exfalso. apply (f_equal (@length R)) in E. unfold rcounts in E. rewrite map_length in E. cbn in E. lia. Qed.
Lemma cov_ok lc lc' n : (2 <= n)%nat -> bins n lc -> bins n lc' -> compute_covariance lc lc' = Ok (Some (cov_of n (counts_at lc) (counts_at lc'))).
Proof.
  intros Hn H H'. unfold compute_covariance, np_cov. rewrite (rmean_of lc n H), (rmean_of lc' n H'). destruct H as [H _], H' as [H' _]. unfold rcounts at 1 2. rewrite !map_length, H, H', Nat.eqb_refl.
  unfold rcounts at 1. rewrite map_length, H. destruct (Nat.leb n 1) eqn:E; [apply Nat.leb_le in E; lia|]. unfold cov_of. unfold rcounts at 3. rewrite map_length, H, minus_INR by lia. cbn [INR]. do 3 f_equal.
  change rsum with rlsum. rewrite (rs_nth_seq _ (0, 0)). rewrite combine_length. unfold rcounts at 1 2. rewrite !map_length, H, H', Nat.min_id. apply rs_ext. intros i Hi.
  rewrite combine_nth by (unfold rcounts; rewrite !map_length; congruence). cbn [fst snd]. rewrite !nth_rcounts by lia. reflexivity.
Qed.
Lemma std_ok std lc n s : (0 < n)%nat -> bins n lc -> std_is std n (counts_at lc) s -> calculate_std std lc = Some s.
Proof.
  intros Hn H S. destruct std as [|x|l]; cbn [calculate_std std_is] in *.
  - rewrite (omean_of lc n Hn H). destruct S as [P ->]. now apply fsqrt_some.
  - now rewrite S.
  - destruct S as [N ->]. destruct l; [contradiction|]. reflexivity.
Qed.
Lemma excess_ok std lc n s : (0 < n)%nat -> bins n lc -> std_is std n (counts_at lc) s -> calculate_excess_variance std lc = Some (excess_of n (counts_at lc) s).
Proof. intros Hn H S. unfold calculate_excess_variance. rewrite (std_ok std lc n s Hn H S), (ovar_of lc n Hn H). reflexivity. Qed.
Lemma error_ok std mm lc lc' n s s' : (0 < n)%nat -> bins n lc -> bins n lc' -> std_is std n (counts_at lc) s -> std_is std n (counts_at lc') s' ->
  let x := excess_of n (counts_at lc) s in let y := excess_of n (counts_at lc') s' in
  calculate_covariance_error std mm lc lc' = (if Req_EM_T (INR n * mm * y) 0 then None else fsqrt ((x * s' + y * s + s * s') / (INR n * mm * y))).
Proof.
  intros Hn H H' S S'. cbv zeta. unfold calculate_covariance_error. rewrite (excess_ok std lc n s), (excess_ok std lc' n s'), (std_ok std lc n s), (std_ok std lc' n s') by assumption. cbv iota zeta. destruct H as [_ ->]. unfold fdiv. destruct (Req_EM_T _ 0); reflexivity.
Qed.

(* ---- the spectrum ---- *)
Lemma size_common l n : l <> [] -> Forall (bins n) l -> size_of l = Ok (length l * n)%nat.
Proof.
  intros N F. destruct l as [|a l]; [contradiction|]. unfold size_of. inversion F as [|? ? [Ha _] F']; subst. rewrite Forall_forall in F.
  rewrite (proj2 (forallb_forall _ _)); [reflexivity|]. intros b I. apply Nat.eqb_eq. now apply (F b I).
Qed.
Lemma get_at {A} (l : list A) d i : (i < length l)%nat -> get l i = Ok (nth i l d).
Proof. intros H. unfold get. now rewrite (nth_error_nth' l d H). Qed.
Lemma reference_ok n m r i : (2 <= n)%nat -> (i < m)%nat -> refs_ok n m r -> reference r i = Ok (ref_of r i) /\ bins n (ref_of r i).
Proof.
  intros Hn Hi H. destruct r as [lc|l]; cbn [reference ref_of refs_ok] in *; [now split|]. destruct H as [L F]. split.
  - rewrite (size_common l n) by (try assumption; intros ->; cbn in L; lia). cbn [bind]. destruct (Nat.eqb (length l * n) 1) eqn:E; [apply Nat.eqb_eq in E; nia|]. apply get_at. lia.
  - rewrite Forall_forall in F. apply F, nth_In. lia.
Qed.
Lemma finish_row std mm n lc lc' : 0 < mm -> (0 < n)%nat -> bins n lc -> bins n lc' ->
  let u := Some (cov_of n (counts_at lc) (counts_at lc')) in let xs := calculate_excess_variance std lc' in
  band_ok std mm n lc lc' u (flet c := u in flet x := xs in flet s := fsqrt x in fdiv c s) (calculate_covariance_error std mm lc lc').
Proof.
  intros Hm Hn H H'. cbv zeta. split; [reflexivity|]. intros s s' S S'. cbv zeta. rewrite (excess_ok std lc' n s' Hn H' S'). split.
  - intros P. rewrite fsqrt_some by lra. rewrite fdiv_some by (apply Rgt_not_eq, sqrt_lt_R0; exact P). split; [reflexivity|]. intros Q0.
    rewrite (error_ok std mm lc lc' n s s') by assumption. assert (D : 0 < INR n * mm * excess_of n (counts_at lc') s') by (apply Rmult_lt_0_compat; [apply Rmult_lt_0_compat; [apply lt_0_INR; lia|exact Hm]|exact P]).
    destruct (Req_EM_T _ 0); [lra|]. apply fsqrt_some. apply div_nonneg; assumption.
  - intros P. unfold fsqrt. destruct (Rle_dec 0 _) as [L|]; [|reflexivity]. replace (excess_of n (counts_at lc') s') with 0 by lra. rewrite sqrt_0. apply fdiv_none.
Qed.
Lemma construct_ok std lcs r n : (2 <= n)%nat -> Forall (bins n) lcs -> refs_ok n (length lcs) r ->
  exists sp, construct_covar std lcs r = Ok sp /\ length (sp_unnorm sp) = length lcs /\ length (sp_covar sp) = length lcs /\ length (sp_error sp) = length lcs /\
    forall i, (i < length lcs)%nat ->
      band_ok std 1 n (nth i lcs nothing) (ref_of r i) (nth i (sp_unnorm sp) None) (nth i (sp_covar sp) None) (nth i (sp_error sp) None).
Proof.
  intros Hn F Hr. unfold construct_covar.
  set (row := fun i => (Some (cov_of n (counts_at (nth i lcs nothing)) (counts_at (ref_of r i))), calculate_covariance_error std 1 (nth i lcs nothing) (ref_of r i), calculate_excess_variance std (ref_of r i))).
  rewrite (map_result_total _ row).
  - cbn [bind]. eexists. split; [reflexivity|]. unfold finish. cbn [sp_unnorm sp_covar sp_error]. rewrite !map_map, !map_length, seq_length. do 3 (split; [reflexivity|]). intros i Hi.
    assert (Nth : forall f : nat -> option R, nth i (map f (seq 0 (length lcs))) None = f i).
    { intros f. rewrite (nth_indep _ None (f O)) by now rewrite map_length, seq_length. rewrite map_nth, seq_nth by exact Hi. reflexivity. }
    rewrite !Nth. unfold row. cbn [fst snd]. apply finish_row; [lra|lia| |]; [rewrite Forall_forall in F; apply F, nth_In, Hi|now apply (reference_ok n (length lcs) r i)].
  - intros i I. apply in_seq in I. rewrite (get_at lcs nothing) by lia. cbn [bind]. destruct (reference_ok n (length lcs) r i Hn ltac:(lia) Hr) as [E B]. rewrite E. cbn [bind].
    rewrite (cov_ok _ _ n Hn); [reflexivity| |exact B]. rewrite Forall_forall in F. apply F, nth_In. lia.
Qed.
