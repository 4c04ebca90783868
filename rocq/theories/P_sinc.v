(* P_sinc.v: proofs about the sinc squared curve. *)
From Verif Require Import Np M_sinc S_sinc.
From Coq Require Import Reals List String Lra Lia.
Import ListNotations.
Open Scope R_scope.

Lemma abs_sin x : Rabs (sin x) <= Rabs x.
Proof.
  assert (P : forall x, 0 <= x -> Rabs (sin x) <= x).
  { intros y Hy. destruct (Rle_dec y 1) as [L|L].
    - assert (0 <= sin y) by (apply sin_ge_0; [assumption|pose proof PI_RGT_0; pose proof PI2_3_2; lra]).
      rewrite Rabs_right by lra. destruct (Req_dec y 0) as [->|N]; [rewrite sin_0; lra|]. left. apply sin_lt_x. lra.
    - unfold Rabs. pose proof (SIN_bound y). destruct (Rcase_abs (sin y)); lra. }
  unfold Rabs at 2. destruct (Rcase_abs x) as [H|H].
  - rewrite <- (Rabs_Ropp (sin x)), <- sin_neg. apply P. lra.
  - apply P. lra.
Qed.
Lemma cos_near x : 0 <= 1 - cos x <= x * x / 2.
Proof.
  replace x with (2 * (x / 2)) at 1 2 by field. rewrite cos_2a_sin.
  pose proof (abs_sin (x / 2)) as A. assert (S : sin (x / 2) * sin (x / 2) <= x / 2 * (x / 2)).
  { apply Rsqr_le_abs_1 in A. exact A. }
  split; [pose proof (Rle_0_sqr (sin (x / 2))) as Q; unfold Rsqr in Q; lra|]. lra.
Qed.
Lemma sin_near x : Rabs (sin x - x) <= Rabs x * (x * x).
Proof.
  destruct (Req_dec x 0) as [->|N]; [rewrite sin_0, Rminus_0_r, Rabs_R0; lra|].
  assert (D : forall c, derivable_pt_lim (fun y => sin y - y) c (cos c - 1)).
  { intros c. apply derivable_pt_lim_minus; [apply derivable_pt_lim_sin|apply derivable_pt_lim_id]. }
  assert (M : forall a b, a < b -> exists c, (sin b - b) - (sin a - a) = (cos c - 1) * (b - a) /\ a < c < b).
  { intros a b H. destruct (MVT_cor2 (fun y => sin y - y) (fun y => cos y - 1) a b H (fun c _ => D c)) as (c & E & B). now exists c. }
  assert (G : exists c, sin x - x = (cos c - 1) * x /\ Rabs c <= Rabs x).
  { destruct (Rlt_dec 0 x) as [P|P].
    - destruct (M 0 x P) as (c & E & B). exists c. rewrite sin_0 in E. split; [lra|]. rewrite !Rabs_right; lra.
    - destruct (M x 0 ltac:(lra)) as (c & E & B). exists c. rewrite sin_0 in E. split; [lra|]. rewrite !Rabs_left by lra. lra. }
  destruct G as (c & -> & B). rewrite Rabs_mult, Rmult_comm. apply Rmult_le_compat_l; [apply Rabs_pos|].
  pose proof (cos_near c) as Q. rewrite Rabs_minus_sym, Rabs_right by lra.
  assert (c * c <= x * x) by (apply Rsqr_le_abs_1 in B; exact B). pose proof (Rle_0_sqr x) as X. unfold Rsqr in X. lra.
Qed.
(* the square of sinc and its derivative *)
Definition g (z : R) : R := sinc z * sinc z.
Definition g' (z : R) : R := if Req_EM_T z 0 then 0 else 2 * sinc z * (z * cos z - sin z) / (z * z).
Lemma sinc_0 : sinc 0 = 1.
Proof. unfold sinc. destruct (Req_EM_T 0 0); [reflexivity|lra]. Qed.
Lemma sinc_n z : z <> 0 -> sinc z = sin z / z.
Proof. intros H. unfold sinc. destruct (Req_EM_T z 0); [lra|reflexivity]. Qed.
Lemma sinc_spec z : sinc2 z (sinc z * sinc z).
Proof.
  destruct (Req_dec z 0) as [->|N]; [left; rewrite sinc_0; split; [reflexivity|ring]|right]. split; [exact N|]. rewrite sinc_n by exact N. field. exact N.
Qed.
Lemma sinc2_unique z v w : sinc2 z v -> sinc2 z w -> v = w.
Proof.
  intros [[A B]|[A B]] [[C D]|[C D]]; try lra. assert (z * z <> 0) by nra. apply (Rmult_eq_reg_r (z * z)); [congruence|assumption].
Qed.
Lemma lim_local f h x d e : 0 < e -> (forall y, Rabs (y - x) < e -> f y = h y) -> derivable_pt_lim h x d -> derivable_pt_lim f x d.
Proof.
  intros He H D eps Heps. destruct (D eps Heps) as [del Hd]. assert (P : 0 < Rmin del e) by (apply Rmin_pos; [apply cond_pos|assumption]).
  exists (mkposreal _ P). cbn. intros k K1 K2. rewrite !H.
  - apply Hd; [assumption|]. eapply Rlt_le_trans; [exact K2|apply Rmin_l].
  - rewrite Rminus_diag_eq, Rabs_R0 by reflexivity. assumption.
  - replace (x + k - x) with k by ring. eapply Rlt_le_trans; [exact K2|apply Rmin_r].
Qed.
Lemma g_deriv z : derivable_pt_lim g z (g' z).
Proof.
  unfold g'. destruct (Req_EM_T z 0) as [->|N].
  - intros eps Heps. assert (P : 0 < Rmin 1 (eps / 4)) by (apply Rmin_pos; lra). exists (mkposreal _ P). cbn. intros h H1 H2.
    assert (B1 : Rabs h < 1) by (eapply Rlt_le_trans; [exact H2|apply Rmin_l]).
    assert (B2 : Rabs h < eps / 4) by (eapply Rlt_le_trans; [exact H2|apply Rmin_r]).
    unfold g. rewrite Rplus_0_l, sinc_0, sinc_n by exact H1. rewrite Rminus_0_r.
    replace ((sin h / h * (sin h / h) - 1 * 1) / h) with ((sin h - h) * (sin h + h) / (h * h * h)) by (field; exact H1).
    unfold Rdiv. rewrite !Rabs_mult. rewrite Rabs_inv. rewrite !Rabs_mult.
    pose proof (sin_near h) as SN. pose proof (abs_sin h) as SA. assert (HP : 0 < Rabs h) by (now apply Rabs_pos_lt).
    pose proof (Rabs_triang (sin h) h) as ST. assert (HH : h * h = Rabs h * Rabs h) by (rewrite <- Rabs_mult, Rabs_right; [reflexivity|pose proof (Rle_0_sqr h) as Q; unfold Rsqr in Q; lra]).
    apply (Rle_lt_trans _ (Rabs h * (h * h) * (2 * Rabs h) * / (Rabs h * Rabs h * Rabs h))).
    + apply Rmult_le_compat_r; [left; apply Rinv_0_lt_compat; repeat apply Rmult_lt_0_compat; assumption|].
      apply Rmult_le_compat; [apply Rabs_pos|apply Rabs_pos|exact SN|lra].
    + rewrite HH. field_simplify; [|lra]. lra.
  - apply (lim_local _ (fun y => sin y / y * (sin y / y)) _ _ (Rabs z)); [now apply Rabs_pos_lt| |].
    + intros y Hy. unfold g. rewrite sinc_n; [reflexivity|]. intros ->. rewrite Rminus_0_l, Rabs_Ropp in Hy. lra.
    + assert (D : derivable_pt_lim (fun y => sin y / y) z ((cos z * z - 1 * sin z) / Rsqr z)).
      { apply derivable_pt_lim_div; [apply derivable_pt_lim_sin|apply derivable_pt_lim_id|exact N]. }
      pose proof (derivable_pt_lim_mult _ _ _ _ _ D D) as M. cbv beta in M.
      replace (2 * sinc z * (z * cos z - sin z) / (z * z)) with ((cos z * z - 1 * sin z) / Rsqr z * (sin z / z) + sin z / z * ((cos z * z - 1 * sin z) / Rsqr z)); [exact M|].
      rewrite sinc_n by exact N. unfold Rsqr. field. exact N.
Qed.
Lemma model_g x a m w : w <> 0 -> sinc_square_model x a m w = Some (a * g ((x - m) / w)).
Proof. intros H. unfold sinc_square_model. destruct (Req_EM_T w 0); [contradiction|reflexivity]. Qed.
Lemma true_amplitude x a m w : w <> 0 -> slope_at (fun a => sinc_square_model x a m w) a (g ((x - m) / w)).
Proof.
  intros H. exists (fun a => a * g ((x - m) / w)). split.
  - exists 1. split; [lra|]. intros y _. now apply model_g.
  - pose proof (derivable_pt_lim_mult (fun a => a) (fct_cte (g ((x - m) / w))) a 1 0 (derivable_pt_lim_id a) (derivable_pt_lim_const _ a)) as M.
    cbv beta in M. replace (1 * fct_cte (g ((x - m) / w)) a + a * 0) with (g ((x - m) / w)) in M by (unfold fct_cte; ring). exact M.
Qed.
Lemma true_mean x a m w : w <> 0 -> slope_at (fun m => sinc_square_model x a m w) m (a * g' ((x - m) / w) * (-1 / w)).
Proof.
  intros H. exists (fun m => a * g ((x - m) / w)). split.
  - exists 1. split; [lra|]. intros y _. now apply model_g.
  - assert (D : derivable_pt_lim (fun m => (x - m) / w) m (-1 / w)).
    { apply (lim_local _ (fun m => (fct_cte x m - m) * fct_cte (/ w) m) _ _ 1); [lra|reflexivity|].
      replace (-1 / w) with ((0 - 1) * fct_cte (/ w) m + (fct_cte x m - m) * 0) by (unfold fct_cte; field; exact H).
      apply (derivable_pt_lim_mult (fun m => fct_cte x m - m) (fct_cte (/ w))); [|apply derivable_pt_lim_const].
      apply derivable_pt_lim_minus; [apply derivable_pt_lim_const|apply derivable_pt_lim_id]. }
    pose proof (derivable_pt_lim_comp (fun m => (x - m) / w) g m _ _ D (g_deriv ((x - m) / w))) as M.
    apply (derivable_pt_lim_scal _ a) in M. unfold mult_real_fct, comp in M.
    replace (a * g' ((x - m) / w) * (-1 / w)) with (a * (g' ((x - m) / w) * (-1 / w))) by ring. exact M.
Qed.
Lemma true_width x a m w : w <> 0 -> slope_at (fun w => sinc_square_model x a m w) w (a * g' ((x - m) / w) * (- (x - m) / (w * w))).
Proof.
  intros H. exists (fun w => a * g ((x - m) / w)). split.
  - exists (Rabs w). split; [now apply Rabs_pos_lt|]. intros y Hy. apply model_g. intros ->. rewrite Rminus_0_l, Rabs_Ropp in Hy. lra.
  - assert (D : derivable_pt_lim (fun w => (x - m) / w) w (- (x - m) / (w * w))).
    { apply (lim_local _ (div_fct (fct_cte (x - m)) id) _ _ 1); [lra|reflexivity|].
      replace (- (x - m) / (w * w)) with ((0 * id w - 1 * fct_cte (x - m) w) / Rsqr (id w)) by (unfold fct_cte, id, Rsqr; field; exact H).
      apply derivable_pt_lim_div; [apply derivable_pt_lim_const|apply derivable_pt_lim_id|exact H]. }
    pose proof (derivable_pt_lim_comp (fun w => (x - m) / w) g w _ _ D (g_deriv ((x - m) / w))) as M.
    apply (derivable_pt_lim_scal _ a) in M. unfold mult_real_fct, comp in M.
    replace (a * g' ((x - m) / w) * (- (x - m) / (w * w))) with (a * (g' ((x - m) / w) * (- (x - m) / (w * w)))) by ring. exact M.
Qed.
Lemma slope_unique f x d d' : slope_at f x d -> slope_at f x d' -> d = d'.
Proof.
  intros (g1 & (e1 & E1 & F1) & D1) (g2 & (e2 & E2 & F2) & D2).
  apply (uniqueness_limite g2 x); [|exact D2]. apply (lim_local _ g1 _ _ (Rmin e1 e2)); [apply Rmin_pos; assumption| |exact D1].
  intros y Hy. assert (A : f y = Some (g1 y)) by (apply F1; eapply Rlt_le_trans; [exact Hy|apply Rmin_l]).
  assert (B : f y = Some (g2 y)) by (apply F2; eapply Rlt_le_trans; [exact Hy|apply Rmin_r]). congruence.
Qed.
Definition partials (x a m w : R) (d : R * R * R) : Prop :=
  slope_at (fun a => sinc_square_model x a m w) a (fst (fst d)) /\
  slope_at (fun m => sinc_square_model x a m w) m (snd (fst d)) /\
  slope_at (fun w => sinc_square_model x a m w) w (snd d).
Lemma z_zero x m w : w <> 0 -> ((x - m) / w = 0 <-> x = m).
Proof.
  intros H. split; [|intros ->; unfold Rdiv; rewrite Rminus_diag_eq by reflexivity; ring].
  intros E. assert (E' : (x - m) / w * w = 0) by (rewrite E; ring). unfold Rdiv in E'. rewrite Rmult_assoc, Rinv_l in E' by exact H. lra.
Qed.
Lemma deriv_peak a m w : w <> 0 -> exists d, sinc_square_deriv m a m w = Some d /\ partials m a m w d.
Proof.
  intros H. unfold sinc_square_deriv. destruct (Req_EM_T w 0); [contradiction|]. destruct (Req_EM_T m m) as [_|]; [|congruence].
  eexists. split; [reflexivity|]. unfold partials. cbn [fst snd].
  assert (Z : g' ((m - m) / w) = 0) by (rewrite (proj2 (z_zero m m w H) eq_refl); unfold g'; destruct (Req_EM_T 0 0); [reflexivity|lra]).
  pose proof (true_mean m a m w H) as A. pose proof (true_width m a m w H) as B. rewrite Z in A, B. rewrite Rmult_0_r, Rmult_0_l in A, B. rewrite !Rmult_0_l.
  split; [apply true_amplitude; exact H|]. split; assumption.
Qed.
Lemma deriv_amplitude x a m w : w <> 0 -> exists d1 d2 d3, sinc_square_deriv x a m w = Some (d1, d2, d3) /\ slope_at (fun a => sinc_square_model x a m w) a d1.
Proof.
  intros H. unfold sinc_square_deriv. destruct (Req_EM_T w 0); [contradiction|]. do 3 eexists. split; [reflexivity|]. now apply true_amplitude.
Qed.
(* when the other two are right *)
Lemma deriv_iff x a m w : w <> 0 -> x <> m ->
  exists d, sinc_square_deriv x a m w = Some d /\
    (partials x a m w d <-> a = 0 \/ sin ((x - m) / w) = 0 \/ cos ((x - m) / w) = 0 \/ x = (x - m) / w).
Proof.
  intros H N. assert (Zn : (x - m) / w <> 0) by (intros Z; apply (z_zero x m w H) in Z; contradiction).
  unfold sinc_square_deriv. destruct (Req_EM_T w 0); [contradiction|]. destruct (Req_EM_T x m); [contradiction|].
  eexists. split; [reflexivity|]. set (z := (x - m) / w) in *. unfold partials. cbn [fst snd].
  assert (G : g' z = 2 * sinc z * (z * cos z - sin z) / (z * z)) by (unfold g'; destruct (Req_EM_T z 0); [contradiction|reflexivity]).
  assert (F : a * g' z - 2 * a * sinc z * (x * cos z - sin z) / (z * z) = 2 * a * sin z * cos z * (z - x) / (z * z * z)).
  { rewrite G, sinc_n by exact Zn. field. exact Zn. }
  pose proof (true_mean x a m w H) as TM. pose proof (true_width x a m w H) as TW. fold z in TM, TW. split.
  - intros (_ & A & _). pose proof (slope_unique _ _ _ _ A TM) as E.
    assert (E' : 2 * a * sin z * cos z * (z - x) / (z * z * z) = 0).
    { rewrite <- F. apply (Rmult_eq_compat_r w) in E. replace (a * g' z * (-1 / w) * w) with (- (a * g' z)) in E by (field; exact H).
      replace (2 * a * sinc z * (x * cos z - sin z) / (z * z) * (-1 / w) * w) with (- (2 * a * sinc z * (x * cos z - sin z) / (z * z))) in E by (field; split; assumption). lra. }
    assert (E2 : 2 * a * sin z * cos z * (z - x) = 0).
    { apply (Rmult_eq_compat_r (z * z * z)) in E'. unfold Rdiv in E'. rewrite Rmult_assoc, Rinv_l, Rmult_0_l, Rmult_1_r in E' by (intros X; apply Rmult_integral in X; destruct X as [X|X]; [apply Rmult_integral in X; tauto|tauto]). exact E'. }
    repeat (apply Rmult_integral in E2; destruct E2 as [E2|E2]); try lra; auto.
  - intros C. assert (E : 2 * a * sinc z * (x * cos z - sin z) / (z * z) = a * g' z).
    { symmetry. apply Rminus_diag_uniq. rewrite F. destruct C as [->|[->|[->|C]]]; [unfold Rdiv; ring..|]. rewrite <- C. unfold Rdiv. ring. }
    rewrite E. split; [apply true_amplitude; exact H|]. split; assumption.
Qed.
Lemma deriv_standard x a : exists d, sinc_square_deriv x a 0 1 = Some d /\ partials x a 0 1 d.
Proof.
  destruct (Req_dec x 0) as [->|N]; [apply deriv_peak; lra|].
  destruct (deriv_iff x a 0 1 ltac:(lra) N) as (d & E & I). exists d. split; [exact E|]. apply I. right; right; right. field.
Qed.
Lemma deriv_wrong : exists x a m w d, w <> 0 /\ sinc_square_deriv x a m w = Some d /\ ~ partials x a m w d.
Proof.
  destruct (deriv_iff 2 1 1 1 ltac:(lra) ltac:(lra)) as (d & E & I). exists 2, 1, 1, 1, d. split; [lra|]. split; [exact E|]. intros P. apply I in P.
  replace ((2 - 1) / 1) with 1 in P by field. pose proof PI2_3_2. assert (0 < cos 1) by (apply cos_gt_0; lra). assert (0 < sin 1) by (apply sin_gt_0; lra). lra.
Qed.
Lemma model_spec x a m w : w <> 0 -> exists v, sinc_square_model x a m w = Some (a * v) /\ sinc2 ((x - m) / w) v.
Proof. intros H. exists (g ((x - m) / w)). split; [now apply model_g|]. apply sinc_spec. Qed.

(* ---- setup of the fit ---- *)
Lemma fixed_last d n b : is_fixed (d ++ [(n, b)]) n = b.
Proof. unfold is_fixed. rewrite rev_app_distr. cbn. now rewrite String.eqb_refl. Qed.
Lemma fixed_other d n b n' : n <> n' -> is_fixed (d ++ [(n, b)]) n' = is_fixed d n'.
Proof. intros H. unfold is_fixed. rewrite rev_app_distr. cbn. destruct (String.eqb_spec n n'); [contradiction|reflexivity]. Qed.
Lemma setup_obs dflt fixed amp mean width o : o <> 0 -> exists d, fit_sinc_setup dflt fixed amp mean width (Some o) = Ok ((amp, mean, 1 / (PI * o), d), d) /\
  is_fixed d "width" = true /\ forall n, n <> "width"%string -> is_fixed d n = is_fixed (match fixed with Some d => d | None => dflt end) n.
Proof.
  intros H. unfold fit_sinc_setup. destruct (Req_EM_T o 0); [contradiction|]. eexists. split; [reflexivity|]. split; [apply fixed_last|].
  intros n' Hn. apply fixed_other. congruence.
Qed.
Lemma setup_plain dflt fixed amp mean width : 
  fit_sinc_setup dflt fixed amp mean width None = Ok ((amp, mean, width, match fixed with Some d => d | None => dflt end), match fixed with Some d => d | None => dflt end).
Proof. reflexivity. Qed.
(* the width stays fixed in every later call without obs_length *)
Lemma setup_leaks amp mean width o amp' mean' width' : o <> 0 -> exists a d a' d',
  fit_sinc_setup [] None amp mean width (Some o) = Ok (a, d) /\ fit_sinc_setup d None amp' mean' width' None = Ok (a', d') /\
  is_fixed (snd a') "width" = true /\ is_fixed [] "width" = false.
Proof.
  intros H. destruct (setup_obs [] None amp mean width o H) as (d & E & F & _). do 4 eexists. split; [exact E|]. split; [reflexivity|]. split; [exact F|reflexivity].
Qed.
