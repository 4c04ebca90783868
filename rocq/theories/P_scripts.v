(* P_scripts.v: proofs about the fits with one call. *)
From Coq Require Import String DecimalString Decimal.
From Verif Require Import Np M_utils M_exvar P_exvar M_posterior M_scripts S_scripts.
From Coq Require Import Reals List Bool Arith ZArith Lia Lra.
Import ListNotations.
Open Scope R_scope.

Section Fit.
Variable minimize : string -> (list R -> result R) -> list R -> result (list R).
Notation fit_powerspectrum := (fit_powerspectrum minimize).
Notation fit_lorentzians := (fit_lorentzians minimize).
Lemma fit_length md m x y t0 mp priors method : (forall p, priors = Some p -> List.length t0 <> npar_not_fixed md) -> (priors = None -> List.length t0 <> npar_free md) ->
  fit_powerspectrum md m x y (Sequence t0) mp priors method = Err ValueError.
Proof.
  intros A B. unfold M_scripts.fit_powerspectrum, checked_fit. cbn [start_of]. destruct priors as [p|].
  - destruct (Nat.eqb_spec (List.length t0) (npar_not_fixed md)); [exfalso; exact (A p eq_refl e)|reflexivity].
  - destruct (Nat.eqb_spec (List.length t0) (npar_free md)); [exfalso; exact (B eq_refl e)|reflexivity].
Qed.
Lemma fit_likelihood md m x y t0 mp method : List.length t0 = npar_free md ->
  fit_powerspectrum md m x y (Sequence t0) mp None method = minimize method (fun p => psd_evaluate m md x y p true) t0.
Proof. intro H. unfold M_scripts.fit_powerspectrum, checked_fit. cbn [start_of]. rewrite H, Nat.eqb_refl. reflexivity. Qed.
Lemma fit_posterior md m x y t0 priors method : List.length t0 = npar_not_fixed md ->
  fit_powerspectrum md m x y (Sequence t0) true (Some priors) method = minimize method (fun p => psd_posterior m md x y (Some priors) p true) t0.
Proof. intro H. unfold M_scripts.fit_powerspectrum, checked_fit. cbn [start_of]. rewrite H, Nat.eqb_refl. reflexivity. Qed.
Lemma npar_untied md : (forall p, In p (m_params md) -> is_tied p = false) -> npar_not_fixed md = npar_free md.
Proof.
  intro U. unfold npar_not_fixed, npar_free. f_equal. apply filter_ext_in. intros p P. unfold not_fixed, is_free. rewrite (U p P). cbn. rewrite andb_true_r. reflexivity.
Qed.
Lemma fit_priors_unused md m x y t0 priors method : (forall p, In p (m_params md) -> is_tied p = false) ->
  fit_powerspectrum md m x y (Sequence t0) false (Some priors) method = fit_powerspectrum md m x y (Sequence t0) false None method.
Proof. intro U. unfold M_scripts.fit_powerspectrum. rewrite npar_untied by exact U. reflexivity. Qed.
(* fixed and tied parameters *)
Lemma filter_most {A} (f : A -> bool) l : (List.length (filter f l) <= List.length l)%nat.
Proof. induction l as [|a l IH]; [apply Nat.le_refl|]. cbn. destruct (f a); cbn; lia. Qed.
Lemma filter_short {A} (f : A -> bool) l : (exists a, In a l /\ f a = false) -> (List.length (filter f l) < List.length l)%nat.
Proof.
  intros (a & I & F). induction l as [|b l IH]; [destruct I|]. cbn. destruct I as [-> |I].
  - rewrite F. pose proof (filter_most f l). lia.
  - specialize (IH I). destruct (f b); cbn; lia.
Qed.
Lemma fit_default_fixed md m x y mp priors method : (exists p, In p (m_params md) /\ p_fixed p = true) ->
  fit_powerspectrum md m x y NoStart mp priors method = Err ValueError.
Proof.
  intros (p & I & F). unfold M_scripts.fit_powerspectrum, checked_fit. cbn [start_of]. rewrite map_length.
  assert (A : (npar_not_fixed md < List.length (m_params md))%nat) by (apply filter_short; exists p; split; [exact I|unfold not_fixed; rewrite F; reflexivity]).
  assert (B : (npar_free md < List.length (m_params md))%nat) by (apply filter_short; exists p; split; [exact I|unfold is_free; rewrite F; reflexivity]).
  destruct priors; [destruct (Nat.eqb_spec (List.length (m_params md)) (npar_not_fixed md))|destruct (Nat.eqb_spec (List.length (m_params md)) (npar_free md))]; try reflexivity; lia.
Qed.
Lemma filter_all {A} (f : A -> bool) l : (forall a, In a l -> f a = true) -> filter f l = l.
Proof. induction l as [|b l IH]; intro H; [reflexivity|]. cbn. rewrite (H b) by (left; reflexivity). f_equal. apply IH. intros a I. apply H. right. exact I. Qed.
Lemma fit_default_free md m x y mp method : (forall p, In p (m_params md) -> is_free p = true) ->
  fit_powerspectrum md m x y NoStart mp None method = minimize method (fun p => psd_evaluate m md x y p true) (map p_value (m_params md)).
Proof.
  intro F. unfold M_scripts.fit_powerspectrum, checked_fit. cbn [start_of]. unfold npar_free. rewrite (filter_all _ _ F), map_length, Nat.eqb_refl. reflexivity.
Qed.
Lemma fit_other md m x y l mp priors method : fit_powerspectrum md m x y (OtherIterable l) mp priors method = fit_powerspectrum md m x y NoStart mp priors method.
Proof. reflexivity. Qed.
(* a tied parameter and priors: no start is right *)
Lemma tied_short md : (exists p, In p (m_params md) /\ is_tied p = true /\ p_fixed p = false) -> (npar_free md < npar_not_fixed md)%nat.
Proof.
  intros (p & I & T & F). unfold npar_free, npar_not_fixed.
  assert (E : filter is_free (m_params md) = filter (fun p => negb (is_tied p)) (filter not_fixed (m_params md))).
  { induction (m_params md) as [|q l IH]; [reflexivity|]. cbn. unfold is_free at 1, not_fixed at 1. destruct (p_fixed q) eqn:Q; cbn.
    - destruct I as [-> |I]; [congruence|]. apply IH, I.
    - destruct I as [-> |I].
      + rewrite T. cbn. clear. induction l as [|q l IH]; [reflexivity|]. cbn. unfold is_free at 1, not_fixed at 1. destruct (p_fixed q); cbn; [exact IH|]. destruct (is_tied q); cbn; [exact IH|f_equal; exact IH].
      + destruct (is_tied q); cbn; [apply IH, I|f_equal; apply IH, I]. }
  rewrite E. apply filter_short. exists p. split; [apply filter_In; split; [exact I|unfold not_fixed; rewrite F; reflexivity]|rewrite T; reflexivity].
Qed.
Lemma logprior_defined priors ps : forall t0 v, (forall p, In p ps -> p_fixed p = false -> priors (p_name p) <> None) ->
  List.length t0 = List.length (filter not_fixed ps) -> exists r, logprior_loop priors ps t0 v = Ok r.
Proof.
  induction ps as [|p ps IH]; intros t0 v H L; [exists v; reflexivity|]. cbn in L |- *. unfold not_fixed in L at 1. destruct (p_fixed p) eqn:F; cbn in L.
  - apply IH; [|exact L]. intros q Q. apply H. right. exact Q.
  - destruct (priors (p_name p)) as [f|] eqn:E; [|exfalso; exact (H p (or_introl eq_refl) F E)]. destruct t0 as [|t t0]; [discriminate L|]. apply IH; [|cbn in L; lia].
    intros q Q. apply H. right. exact Q.
Qed.
Lemma fit_tied md m x y t0 mp priors method : evaluates minimize -> (exists p, In p (m_params md) /\ is_tied p = true /\ p_fixed p = false) ->
  (forall p, In p (m_params md) -> p_fixed p = false -> priors (p_name p) <> None) ->
  fit_powerspectrum md m x y (Sequence t0) mp (Some priors) method = Err (if Nat.eqb (List.length t0) (npar_not_fixed md) then IncorrectParameterError else ValueError).
Proof.
  intros V T D. pose proof (tied_short md T) as L. unfold M_scripts.fit_powerspectrum, checked_fit. cbn [start_of].
  destruct (Nat.eqb_spec (List.length t0) (npar_not_fixed md)) as [E|E]; [|reflexivity].
  assert (P : forall p, List.length p = List.length t0 -> forall neg, psd_evaluate m md x y p neg = Err IncorrectParameterError).
  { intros p Lp neg. unfold psd_evaluate, evaluate_with. destruct (Nat.eqb_spec (List.length p) (npar_free md)); [lia|reflexivity]. }
  apply V. intros p Lp. destruct mp; [|apply P, Lp]. unfold psd_posterior, logposterior, prior_of, set_logprior. cbn [option_map]. rewrite Lp, E, Nat.eqb_refl. cbn [negb].
  destruct (logprior_defined priors (m_params md) p (Some 0) D) as (r & ->); [rewrite Lp, E; reflexivity|]. cbn [bind]. rewrite P by exact Lp. reflexivity.
Qed.
(* ---------- Lorentzians ---------- *)
Lemma sum_lorentz l : forall noise x, (forall a x0 w, In (a, x0, w) l -> w <> 0) ->
  sum_value (repeat Lorentz1D (List.length l) ++ [Const1D]) (listed l ++ [noise]) x = Some (lorentz_sum l noise x).
Proof.
  induction l as [|[[a x0] w] l IH]; intros noise x H.
  - cbn. f_equal. ring.
  - cbn [List.length repeat app listed flat_map]. fold (listed l). cbn [sum_value shape_params List.length firstn skipn app shape_value].
    assert (W : w <> 0) by (apply (H a x0); left; reflexivity). assert (0 < (w / 2) ^ 2) by (assert (w / 2 <> 0) by lra; rewrite <- Rsqr_pow2; apply Rsqr_pos_lt; assumption).
    pose proof (pow2_ge_0 (x - x0)). rewrite fdiv_some by lra. rewrite IH by (intros; eapply H; right; eassumption). reflexivity.
Qed.
Lemma sum_lorentz_only l : forall x, (forall a x0 w, In (a, x0, w) l -> w <> 0) -> sum_value (repeat Lorentz1D (List.length l)) (listed l) x = Some (lorentz_sum l 0 x).
Proof.
  induction l as [|[[a x0] w] l IH]; intros x H; [reflexivity|].
  cbn [List.length repeat app listed flat_map]. fold (listed l). cbn [sum_value shape_params List.length firstn skipn app shape_value].
  assert (W : w <> 0) by (apply (H a x0); left; reflexivity). assert (0 < (w / 2) ^ 2) by (assert (w / 2 <> 0) by lra; rewrite <- Rsqr_pow2; apply Rsqr_pos_lt; assumption).
  pose proof (pow2_ge_0 (x - x0)). rewrite fdiv_some by lra. rewrite IH by (intros; eapply H; right; eassumption). reflexivity.
Qed.
Lemma shapes n white : (0 < n)%nat -> lorentzians (Z.of_nat n) white = repeat Lorentz1D n ++ (if white then [Const1D] else []).
Proof.
  intro H. unfold lorentzians. f_equal. destruct n as [|n]; [lia|]. cbn [repeat]. f_equal. destruct (Z.ltb_spec 1 (Z.of_nat (S n))).
  - f_equal. lia.
  - replace n with 0%nat by lia. reflexivity.
Qed.
Lemma names_from l (white : bool) : forall k, flat_map (fun si : shape * nat => map (fun q => p_name (free_param (suffixed (fst q) (snd si)) (snd q))) (shape_params (fst si)))
    (combine (repeat Lorentz1D l ++ (if white then [Const1D] else [])) (seq k (l + if white then 1 else 0))) =
  flat_map (fun i => [numbered "amplitude" i; numbered "x_0" i; numbered "fwhm" i])%string (seq k l) ++ (if white then [numbered "amplitude" (k + l)] else []).
Proof.
  induction l as [|l IH]; intro k.
  - destruct white; cbn; [rewrite Nat.add_0_r|]; reflexivity.
  - cbn [repeat app Nat.add seq combine flat_map]. rewrite IH. cbn. unfold numbered, suffixed. cbn. replace (k + S l)%nat with (S (k + l)) by lia. reflexivity.
Qed.
Lemma names_documented n : (0 < n)%nat -> map p_name (m_params (sum_model (lorentzians (Z.of_nat n) true))) = documented n.
Proof.
  intro H. rewrite shapes by exact H. cbn [m_params sum_model]. unfold sum_params, documented. destruct n as [|n]; [lia|]. pose proof (names_from (S n) true 0) as E.
  rewrite Nat.add_comm in E. cbn [Nat.add] in E.
  assert (Lg : List.length (repeat Lorentz1D (S n) ++ [Const1D]) = S (S n)) by (rewrite app_length, repeat_length; cbn; lia).
  destruct (repeat Lorentz1D (S n) ++ [Const1D]) as [|s [|s2 l]] eqn:Q; [discriminate Lg|discriminate Lg|]. rewrite Lg.
  rewrite <- E. clear. generalize (combine (s :: s2 :: l) (seq 0 (S (S n)))). intro c. induction c as [|a c IH]; [reflexivity|]. cbn [flat_map]. rewrite map_app, IH, map_map. reflexivity.
Qed.
Lemma number_of_parameters n white : (0 < n)%nat -> npar_free (sum_model (lorentzians (Z.of_nat n) white)) = (3 * n + (if white then 1 else 0))%nat.
Proof.
  intro H. unfold npar_free. rewrite filter_all.
  - rewrite shapes by exact H. cbn [m_params sum_model]. unfold sum_params. set (l := repeat Lorentz1D n ++ _).
    assert (Lg : forall c : list (shape * nat), List.length (flat_map (fun si => map (fun q => free_param (suffixed (fst q) (snd si)) (snd q)) (shape_params (fst si))) c) = fold_right (fun si k => (List.length (shape_params (fst si)) + k)%nat) 0%nat c)
      by (induction c as [|a c IH]; [reflexivity|]; cbn [flat_map fold_right]; rewrite app_length, map_length, IH; reflexivity).
    assert (Cn : forall k, fold_right (fun si k => (List.length (shape_params (fst si)) + k)%nat) 0%nat (combine l (seq k (List.length l))) = (3 * n + (if white then 1 else 0))%nat).
    { unfold l. clear. induction n as [|n IH]; intro k; [destruct white; reflexivity|]. cbn [repeat app List.length seq combine fold_right fst shape_params]. rewrite IH. lia. }
    destruct l as [|s [|s2 l']] eqn:Q.
    + rewrite Lg. exact (Cn 0%nat).
    + rewrite map_length. specialize (Cn 0%nat). cbn in Cn. lia.
    + rewrite Lg. exact (Cn 0%nat).
  - intros p I. cbn [m_params sum_model] in I. unfold sum_params in I. destruct (lorentzians (Z.of_nat n) white) as [|s [|s2 l]]; [destruct I|apply in_map_iff in I; destruct I as (q & <- & _); reflexivity|].
    apply in_flat_map in I. destruct I as (si & _ & I). apply in_map_iff in I. destruct I as (q & <- & _). reflexivity.
Qed.
Lemma lorentzians_few nlor white : (nlor <= 1)%Z -> lorentzians nlor white = lorentzians 1 white.
Proof. intro H. unfold lorentzians. destruct (Z.ltb_spec 1 nlor); [lia|]. reflexivity. Qed.
End Fit.
Lemma single_names : map p_name (m_params (sum_model (lorentzians 1 false))) = ["amplitude"; "x_0"; "fwhm"]%string.
Proof. reflexivity. Qed.
Lemma lorentzians_value l noise x : l <> [] -> (forall a x0 w, In (a, x0, w) l -> w <> 0) ->
  m_eval (sum_model (lorentzians (Z.of_nat (List.length l)) true)) (listed l ++ [noise]) x = Some (lorentz_sum l noise x) /\
  m_eval (sum_model (lorentzians (Z.of_nat (List.length l)) false)) (listed l) x = Some (lorentz_sum l 0 x).
Proof.
  intros N H. assert (P : (0 < List.length l)%nat) by (destruct l; [contradiction|cbn; lia]). rewrite !shapes by exact P. rewrite app_nil_r. split; [apply sum_lorentz, H|apply sum_lorentz_only, H].
Qed.
Definition one_call : string -> (list R -> result R) -> list R -> result (list R) := fun _ f t => bind (f t) (fun _ => Ok t).
Lemma one_call_evaluates : evaluates one_call.
Proof. intros method f t e H. unfold one_call. rewrite (H t eq_refl). reflexivity. Qed.
Definition w_line (fixed : bool) (tied : option (list R -> R)) : astromodel :=
  mkModel [mkParam "a" 1 false None; mkParam "b" 2 fixed tied] (fun p _ => match p with a :: b :: _ => Some (a + b) | _ => None end).
Lemma fixed_refuted : exists md, forall minimize m x y mp priors method, fit_powerspectrum minimize md m x y NoStart mp priors method = Err ValueError.
Proof. exists (w_line true None). intros. apply fit_default_fixed. exists (mkParam "b" 2 true None). split; [right; left; reflexivity|reflexivity]. Qed.
Lemma start_refuted : exists minimize md m x y l method, fit_powerspectrum minimize md m x y (OtherIterable l) false None method <> fit_powerspectrum minimize md m x y (Sequence l) false None method.
Proof.
  exists (fun _ _ t => Ok t), (w_line false None), (MScalar 1), [], [], [5; 6], "BFGS"%string. cbn. intro E. injection E. lra.
Qed.
Lemma max_post_refuted : exists minimize md m x y l method r, fit_powerspectrum minimize md m x y (Sequence l) true None method = Ok r.
Proof. exists (fun _ _ t => Ok t), (w_line false None), (MScalar 1), [], [], [5; 6], "BFGS"%string. eexists. reflexivity. Qed.
Lemma tied_refuted : exists md priors, (forall p, In p (m_params md) -> priors (p_name p) <> None) /\
  forall minimize m x y t0 mp method, evaluates minimize -> exists e, fit_powerspectrum minimize md m x y (Sequence t0) mp (Some priors) method = Err e.
Proof.
  exists (w_line false (Some (fun p => nth 0 p 0))), (fun _ => Some (fun _ => Some 1)). split; [intros p _; discriminate|]. intros minimize m x y t0 mp method V. eexists. apply fit_tied; [exact V| |intros p _ _; discriminate].
  exists (mkParam "b" 2 false (Some (fun p => nth 0 p 0))). split; [right; left; reflexivity|split; reflexivity].
Qed.
Lemma zero_refuted : exists nlor, npar_free (sum_model (lorentzians nlor true)) <> Z.to_nat (3 * nlor + 1).
Proof. exists 0%Z. cbn. lia. Qed.
Lemma single_refuted : exists n, map p_name (m_params (sum_model (lorentzians (Z.of_nat n) false))) <> removelast (documented n).
Proof. exists 1%nat. cbn. discriminate. Qed.
(* cross spectra *)
Lemma cross_likelihood minimize md x y yerr t0 mp method : List.length t0 = npar_not_fixed md ->
  fit_crossspectrum minimize md x y yerr (Sequence t0) mp None method = minimize method (fun p => gaussian_evaluate md x y yerr p true) t0.
Proof. intros H. unfold fit_crossspectrum, checked_fit. cbn [start_of]. now rewrite H, Nat.eqb_refl. Qed.
Lemma cross_posterior minimize md x y yerr t0 priors method : List.length t0 = npar_not_fixed md ->
  fit_crossspectrum minimize md x y yerr (Sequence t0) true (Some priors) method = minimize method (fun p => gaussian_posterior md x y yerr (Some priors) p true) t0.
Proof. intros H. unfold fit_crossspectrum, checked_fit. cbn [start_of]. now rewrite H, Nat.eqb_refl. Qed.
Lemma cross_unused minimize md x y yerr t0 priors method :
  fit_crossspectrum minimize md x y yerr t0 false (Some priors) method = fit_crossspectrum minimize md x y yerr t0 false None method.
Proof. reflexivity. Qed.
Lemma cross_length minimize md x y yerr t0 mp priors method : List.length t0 <> npar_not_fixed md ->
  fit_crossspectrum minimize md x y yerr (Sequence t0) mp priors method = Err ValueError.
Proof. intros H. unfold fit_crossspectrum, checked_fit. cbn [start_of]. apply Nat.eqb_neq in H. rewrite H. destruct priors; reflexivity. Qed.
Lemma lorentzians_posterior minimize m x y nlor white t0 priors method : List.length t0 = npar_not_fixed (sum_model (lorentzians nlor white)) ->
  fit_lorentzians minimize m x y nlor (Sequence t0) white true (Some priors) method =
  minimize method (fun p => psd_posterior m (sum_model (lorentzians nlor white)) x y (Some priors) p true) t0.
Proof. intros H. unfold fit_lorentzians. now apply fit_posterior. Qed.
Lemma lorentzians_likelihood minimize m x y nlor white t0 mp method : List.length t0 = npar_free (sum_model (lorentzians nlor white)) ->
  fit_lorentzians minimize m x y nlor (Sequence t0) white mp None method = minimize method (fun p => psd_evaluate m (sum_model (lorentzians nlor white)) x y p true) t0.
Proof. intros H. unfold fit_lorentzians. now apply fit_likelihood. Qed.
