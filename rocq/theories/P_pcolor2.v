(* P_pcolor2.v: power colours (scale, errors), hues. *)
From Coq Require Import Reals Qreals Lqa Lia.
From Coq Require Lra.
From Verif Require Import Np Lib Cplx M_gti M_seg M_utils M_power M_espec M_fourier M_pcolor S_gti S_seg S_power S_pcolor P_seg_regions P_seg_cut P_base2 P_helpers P_power P_lag P_espec P_pcolor.
Open Scope Q_scope.

(* ---- scale ---- *)
Definition scaled (c : Q) (r r' : pbin) : Prop := b_f r' = b_f r /\ b_df r' = b_df r /\ b_p r' == c * b_p r /\ b_noise r' == c * b_noise r /\ b_err r' == c * b_err r.
Lemma scaled_filter c (q : pbin -> bool) l l' : (forall r r', scaled c r r' -> q r' = q r) -> Forall2 (scaled c) l l' -> Forall2 (scaled c) (filter q l) (filter q l').
Proof. intros Hq. induction 1 as [|r r' l l' S1 F IH]; [constructor|]. cbn [filter]. rewrite (Hq r r' S1). destruct (q r); [constructor|]; assumption. Qed.
Lemma scaled_last c l l' rl : Forall2 (scaled c) l l' -> get_last l = Ok rl -> exists rl', get_last l' = Ok rl' /\ scaled c rl rl'.
Proof.
  intros F H. destruct F as [|r r' l l' S1 F]; [discriminate|]. rewrite get_last_cons in *.
  assert (E : rl = last l r) by congruence. subst rl. eexists. split; [reflexivity|]. clear H. revert r r' S1. induction F as [|a a' l l' S2 F IH]; intros r r' S1; [exact S1|].
  cbn [last]. destruct F as [|b b' l l' S3 F']; [exact S2|].
  change (scaled c (last (b :: l) r) (last (b' :: l') r')). rewrite (last_dflt l b r a), (last_dflt l' b' r' a'). apply (IH a a' S2).
Qed.
Lemma scaled_sum c w (f f' : pbin -> Q) : forall l l' (ds : list Q), Forall2 (scaled c) l l' -> (forall r r', scaled c r r' -> f' r' == w * f r) -> forall g : Q -> Q,
  qsum (map (fun rd => f' (fst rd) * g (snd rd)) (combine l' ds)) == w * qsum (map (fun rd => f (fst rd) * g (snd rd)) (combine l ds)).
Proof.
  intros l l' ds F Hf g. revert ds. induction F as [|r r' l l' S1 F IH]; intros ds; [cbn; ring|]. destruct ds as [|d ds]; [cbn; ring|].
  cbn [combine map qsum fold_right]. fold (qsum (map (fun rd => f' (fst rd) * g (snd rd)) (combine l' ds))). fold (qsum (map (fun rd => f (fst rd) * g (snd rd)) (combine l ds))).
  rewrite IH. cbn [fst snd]. rewrite (Hf r r' S1). ring.
Qed.
Lemma integrate_scaled c rows rows' lo hi m v e : Forall2 (scaled c) rows rows' -> integrate_power rows lo hi m = Ok (v, e) ->
  exists v' e', integrate_power rows' lo hi m = Ok (v', e') /\ v' == c * v /\ e' == c * c * e.
Proof.
  intros F E. unfold integrate_power in *. set (q := fun r => (qlt lo (b_f r + b_df r / 2) && qlt (b_f r - b_df r / 2) hi)%bool) in *.
  assert (FF : Forall2 (scaled c) (filter q rows) (filter q rows')).
  { apply scaled_filter; [|exact F]. intros r r' (E1 & E2 & _). unfold q. now rewrite E1, E2. }
  set (sel := filter q rows) in *. set (sel' := filter q rows') in *. clearbody sel sel'.
  apply bind_ok in E. destruct E as (r0 & E0 & E). apply bind_ok in E. destruct E as (rl & E1 & E).
  assert (G0 : exists r0', get sel' 0 = Ok r0' /\ scaled c r0 r0') by (destruct FF; [discriminate|]; cbn in *; injection E0 as <-; eexists; split; [reflexivity|assumption]).
  destruct G0 as (r0' & G0 & S0). destruct (scaled_last c sel sel' rl FF E1) as (rl' & G1 & S1). rewrite G0. cbn [bind]. rewrite G1. cbn [bind].
  destruct S0 as (A1 & A2 & _). destruct S1 as (B1 & B2 & _). rewrite A1, A2, B1, B2.
  assert (O : map (fun _ : pbin => 1) sel' = map (fun _ => 1) sel) by (clear - FF; induction FF; [reflexivity|]; cbn; now f_equal). rewrite O.
  set (cs := put_last _ _) in *. clearbody cs.
  assert (D : map (fun rc => b_df (fst rc) * snd rc) (combine sel' cs) = map (fun rc => b_df (fst rc) * snd rc) (combine sel cs)).
  { clear - FF. revert cs. induction FF as [|r r' l l' S1 F IH]; intros cs; [reflexivity|]. destruct cs as [|x cs]; [reflexivity|]. cbn. rewrite IH. f_equal. destruct S1 as (_ & -> & _). reflexivity. }
  rewrite D. set (ds := map _ (combine sel cs)) in *. clearbody ds.
  assert (IO : forall x y : Q * Q, Ok x = Ok y -> x = y) by congruence. apply IO in E. injection E as <- <-. eexists _, _. split; [reflexivity|]. split.
  - apply (scaled_sum c c (fun r => b_p r - b_noise r) (fun r => b_p r - b_noise r) sel sel' ds FF) with (g := fun x => x). intros r r' (_ & _ & E1' & E2' & _). rewrite E1', E2'. ring.
  - apply (scaled_sum c (c * c) (power_var m) (power_var m) sel sel' ds FF) with (g := fun x => x * x). intros r r' (_ & _ & E1' & _ & E3'). unfold power_var. destruct m as [m|]; [|rewrite E3'; ring].
    unfold Qdiv. rewrite E1'. ring.
Qed.
Lemma scaled_get c rows rows' i p : Forall2 (scaled c) rows rows' -> get (map b_p rows) i = Ok p -> exists p', get (map b_p rows') i = Ok p' /\ p' == c * p.
Proof.
  intros F. revert i. induction F as [|r r' l l' S1 F IH]; intros [|i] H; try discriminate.
  - cbn in *. injection H as <-. eexists. split; [reflexivity|]. apply S1.
  - apply IH. exact H.
Qed.
Lemma scaled_freqs c rows rows' : Forall2 (scaled c) rows rows' -> map b_f rows' = map b_f rows.
Proof. induction 1 as [|r r' l l' S1 F IH]; [reflexivity|]. cbn. rewrite IH. f_equal. apply S1. Qed.
Lemma exclude_scaled c excl : forall rows rows' out, Forall2 (scaled c) rows rows' -> exclude_all rows excl = Ok out -> exists out', exclude_all rows' excl = Ok out' /\ Forall2 (scaled c) out out'.
Proof.
  assert (IO : forall x y : list pbin, Ok x = Ok y -> x = y) by congruence.
  induction excl as [|[lo hi] l IH]; intros rows rows' out F E; cbn [exclude_all] in *.
  - apply IO in E. subst. eexists. split; [reflexivity|exact F].
  - apply bind_ok in E. destruct E as (rows1 & E1 & E). unfold exclude_one in *. cbn [fst snd] in *.
    apply bind_ok in E1. destruct E1 as (p0 & P0 & E1). apply bind_ok in E1. destruct E1 as (p1 & P1 & E1). apply IO in E1. subst rows1.
    rewrite (scaled_freqs _ _ _ F). destruct (scaled_get _ _ _ _ _ F P0) as (q0 & -> & Q0). destruct (scaled_get _ _ _ _ _ F P1) as (q1 & -> & Q1). cbn [bind].
    eapply IH; [|exact E]. clear - F Q0 Q1. induction F as [|r r' l l' S1 F IH]; cbn [map]; constructor; [|exact IH].
    destruct S1 as (A1 & A2 & A3 & A4 & A5). rewrite A1, A2. destruct (_ && _)%bool; [|repeat split; assumption].
    repeat split; cbn; try assumption. rewrite Q0, Q1. field.
Qed.
Lemma color_error_scaled c a b a' b' : 0 < c -> fst a' == c * fst a -> snd a' == c * c * snd a -> fst b' == c * fst b -> snd b' == c * c * snd b ->
  fst a' / fst b' == fst a / fst b /\ color_error a' b' = color_error a b.
Proof.
  intros Hc A1 A2 B1 B2. assert (E : fst a' / fst b' == fst a / fst b).
  { rewrite A1, B1. unfold Qdiv. rewrite Qinv_mult_distr. assert (X : c * / c == 1) by (apply Qmult_inv_r; lra).
    transitivity (fst a * / fst b * (c * / c)); [ring|rewrite X; ring]. }
  split; [exact E|]. unfold color_error. rewrite (Qeq_eqR _ _ E). f_equal.
  assert (P : (0 < Q2R c)%R) by (replace 0%R with (Q2R 0) by (unfold Q2R; cbn; Lra.lra); now apply Qlt_Rlt).
  assert (X : forall s s' v v', s' == c * c * s -> v' == c * v -> (sqrt (Q2R s') / Q2R v' = sqrt (Q2R s) / Q2R v)%R).
  { intros s s' v v' E1 E2. rewrite (Qeq_eqR _ _ E1), (Qeq_eqR _ _ E2), !Q2R_mult. rewrite sqrt_mult_alt by (apply Rmult_le_pos; Lra.lra). rewrite sqrt_square by Lra.lra.
    unfold Rdiv. rewrite Rinv_mult. transitivity (sqrt (Q2R s) * / Q2R v * (Q2R c * / Q2R c))%R; [ring|]. rewrite Rinv_r by Lra.lra. ring. }
  now rewrite (X _ _ _ _ A2 A1), (X _ _ _ _ B2 B1).
Qed.
Lemma power_color_scaled rows edges m excl c p0 s0 p1 s1 rows1 : 0 < c -> power_color rows edges m excl = Ok ((p0, s0), (p1, s1), rows1) ->
  exists p0' p1' rows1', power_color (map (scale_bin c) rows) edges m excl = Ok ((p0', s0), (p1', s1), rows1') /\ p0' == p0 /\ p1' == p1.
Proof.
  intros Hc E. assert (F : Forall2 (scaled c) rows (map (scale_bin c) rows)) by (clear; induction rows; constructor; [repeat split; reflexivity|assumption]).
  set (rows' := map (scale_bin c) rows) in *. clearbody rows'. unfold power_color in *. destruct edges as [|e0 [|e1 [|e2 [|e3 [|e4 [|]]]]]]; try discriminate.
  apply bind_ok in E. destruct E as (r0 & G0 & E). apply bind_ok in E. destruct E as (lo & -> & E). apply bind_ok in E. destruct E as (hi & -> & E). apply bind_ok in E. destruct E as (rl & Gl & E).
  assert (G0' : exists r0', get rows' 0 = Ok r0' /\ scaled c r0 r0') by (destruct F; [discriminate|]; cbn in *; injection G0 as <-; eexists; split; [reflexivity|assumption]).
  destruct G0' as (r0' & -> & (A1 & A2 & _)). cbn [bind]. destruct (scaled_last c rows rows' rl F Gl) as (rl' & -> & (B1 & B2 & _)). cbn [bind]. rewrite A1, A2, B1, B2.
  destruct (qlt lo _); [discriminate|]. destruct (qlt _ hi); [discriminate|]. apply bind_ok in E. destruct E as (rows2 & EX & E).
  destruct (exclude_scaled c excl rows rows' rows2 F EX) as (rows2' & -> & F2). cbn [bind].
  assert (V : forall a b x, (let! v := integrate_power rows2 a b None in let! e := integrate_power rows a b m in Ok (fst v, snd e)) = Ok x ->
     exists x', (let! v := integrate_power rows2' a b None in let! e := integrate_power rows' a b m in Ok (fst v, snd e)) = Ok x' /\ fst x' == c * fst x /\ snd x' == c * c * snd x).
  { intros a b x H. apply bind_ok in H. destruct H as ([v u] & H1 & H). apply bind_ok in H. destruct H as ([u' e] & H2 & H). assert (X : x = (v, e)) by (cbn in H; congruence). subst x.
    destruct (integrate_scaled c _ _ _ _ _ _ _ F2 H1) as (v1 & u1 & -> & V1 & _). destruct (integrate_scaled c _ _ _ _ _ _ _ F H2) as (v2 & u2 & -> & _ & U2). cbn [bind fst snd].
    eexists. split; [reflexivity|]. cbn. auto. }
  apply bind_ok in E. destruct E as (v00 & H00 & E). apply bind_ok in E. destruct E as (v01 & H01 & E). apply bind_ok in E. destruct E as (v10 & H10 & E). apply bind_ok in E. destruct E as (v11 & H11 & E).
  destruct (V _ _ _ H00) as (w00 & -> & C1 & C2). destruct (V _ _ _ H01) as (w01 & -> & C3 & C4). destruct (V _ _ _ H10) as (w10 & -> & C5 & C6). destruct (V _ _ _ H11) as (w11 & -> & C7 & C8). cbn [bind].
  assert (X : p0 = fst v00 / fst v01 /\ s0 = color_error v00 v01 /\ p1 = fst v10 / fst v11 /\ s1 = color_error v10 v11) by (repeat split; congruence). destruct X as (-> & -> & -> & ->).
  destruct (color_error_scaled c v00 v01 w00 w01 Hc C1 C2 C3 C4) as [D1 D2]. destruct (color_error_scaled c v10 v11 w10 w11 Hc C5 C6 C7 C8) as [D3 D4].
  rewrite <- D2, <- D4. eexists _, _, _. split; [reflexivity|]. split; assumption.
Qed.

(* ---- rejected arguments ---- *)
Lemma power_color_number rows edges m excl : length edges <> 5%nat -> power_color rows edges m excl = Err ValueError.
Proof. intros H. destruct edges as [|e0 [|e1 [|e2 [|e3 [|e4 [|]]]]]]; try reflexivity. cbn in H. congruence. Qed.
Lemma power_color_outside r0 l edges m excl e : In e edges -> e < left_edge r0 \/ right_edge (last l r0) < e -> power_color (r0 :: l) edges m excl = Err ValueError.
Proof.
  intros Hin H. unfold power_color. destruct edges as [|e0 [|e1 [|e2 [|e3 [|e4 [|]]]]]]; try reflexivity. cbn [get nth_error bind].
  destruct (qmin_list_ok [e0; e1; e2; e3; e4] ltac:(discriminate)) as (lo & -> & _ & Hlo). destruct (qmax_list_ok [e0; e1; e2; e3; e4] ltac:(discriminate)) as (hi & -> & _ & Hhi).
  cbn [bind]. rewrite get_last_cons. cbn [bind]. specialize (Hlo e Hin). specialize (Hhi e Hin). unfold left_edge, right_edge in H.
  destruct (qlt lo _) eqn:Q1; [reflexivity|]. destruct (qlt _ hi) eqn:Q2; [reflexivity|]. qb. destruct H; lra.
Qed.

(* ---- refuted ---- *)
Definition pb (f p noise err : Q) : pbin := {| b_f := f; b_df := 1; b_p := p; b_noise := noise; b_err := err |}.
Definition ex_rows : list pbin := [pb 1 1 0 0; pb 2 1 0 0; pb 3 9 0 0; pb 4 1 0 0; pb 5 1 0 0].
Lemma power_color_eval rows e0 e1 e2 e3 e4 m excl rows' v00 v01 v10 v11 :
  (let! r0 := get rows 0 in let! lo := qmin_list [e0; e1; e2; e3; e4] in let! hi := qmax_list [e0; e1; e2; e3; e4] in let! rl := get_last rows in
   if qlt lo (b_f r0 - b_df r0 / 2) then Err ValueError else if qlt (b_f rl + b_df rl / 2) hi then Err ValueError else exclude_all rows excl) = Ok rows' ->
  let var a b := let! v := integrate_power rows' a b None in let! e := integrate_power rows a b m in Ok (fst v, snd e) in
  var e0 e1 = Ok v00 -> var e2 e3 = Ok v01 -> var e1 e2 = Ok v10 -> var e3 e4 = Ok v11 ->
  power_color rows [e0; e1; e2; e3; e4] m excl = Ok ((fst v00 / fst v01, color_error v00 v01), (fst v10 / fst v11, color_error v10 v11), rows').
Proof.
  intros E var E1 E2 E3 E4. unfold power_color. apply bind_ok in E. destruct E as (r0 & -> & E). apply bind_ok in E. destruct E as (lo & -> & E).
  apply bind_ok in E. destruct E as (hi & -> & E). apply bind_ok in E. destruct E as (rl & -> & E). cbn [bind].
  destruct (qlt lo _); [discriminate|]. destruct (qlt _ hi); [discriminate|]. rewrite E. cbn [bind]. unfold var in *. rewrite E1. cbn [bind]. rewrite E2. cbn [bind]. rewrite E3. cbn [bind].
  rewrite E4. reflexivity.
Qed.
Lemma power_color_in_place : exists rows edges excl c0 c1 rows', power_color rows edges (Some 1) excl = Ok (c0, c1, rows') /\ map b_p rows' <> map b_p rows.
Proof.
  exists ex_rows, [1; 2; 3; 4; 5], [(3 # 2, 4)]. eexists _, _, _. split.
  - apply power_color_eval; vm_compute; reflexivity.
  - vm_compute. discriminate.
Qed.
Lemma q2r_i x z : x == inject_Z z -> Q2R x = IZR z.
Proof. intros H. rewrite (Qeq_eqR _ _ H). unfold Q2R, inject_Z. cbn. rewrite Rinv_1. apply Rmult_1_r. Qed.
Lemma power_color_negative_error : exists rows edges c0 s0 c1 s1 rows', bins_ok rows /\ power_color rows edges None [] = Ok ((c0, s0), (c1, s1), rows') /\ (s0 < 0)%R.
Proof.
  exists [pb 1 1 11 0; pb 2 1 0 0; pb 3 1 0 1; pb 4 1 0 0], [1 # 2; 3 # 2; 5 # 2; 7 # 2; 9 # 2]. eexists _, _, _, _, _. split; [|split].
  - split; repeat constructor; vm_compute; discriminate.
  - apply power_color_eval; vm_compute; reflexivity.
  - unfold color_error. cbn [fst snd].
    repeat match goal with |- context [Q2R ?q] => match q with _ => let z := eval vm_compute in (Qnum (Qred q)) in rewrite (q2r_i q z ltac:(vm_compute; reflexivity)) end end.
    rewrite sqrt_0, sqrt_1. Lra.lra.
Qed.
(* ---- hue ---- *)
Open Scope R_scope.
Lemma angle_range z : - PI < angle z <= PI.
Proof.
  unfold angle. pose proof PI_RGT_0 as HP. pose proof (atan_bound (im z / re z)) as B.
  destruct (Rlt_dec 0 (re z)); [Lra.lra|]. destruct (Rlt_dec (re z) 0) as [H|H].
  - destruct (Rle_dec 0 (im z)) as [G|G].
    + split; [Lra.lra|]. assert (L : im z / re z <= 0).
      { unfold Rdiv. assert (X : / re z < 0) by now apply Rinv_lt_0_compat. Lra.nra. }
      assert (A : atan (im z / re z) <= atan 0). { destruct L as [L|L]; [left; now apply atan_increasing|right; now rewrite L]. } rewrite atan_0 in A. Lra.lra.
    + split; [|Lra.lra]. assert (L : 0 < im z / re z).
      { unfold Rdiv. assert (X : / re z < 0) by now apply Rinv_lt_0_compat. Lra.nra. }
      assert (A : atan 0 < atan (im z / re z)) by now apply atan_increasing. rewrite atan_0 in A. Lra.lra.
  - destruct (Rlt_dec 0 (im z)); [Lra.lra|]. destruct (Rlt_dec (im z) 0); Lra.lra.
Qed.
Lemma angle_exact x y : x <> 0 \/ y <> 0 -> exists r, 0 < r /\ x = r * cos (angle (x, y)) /\ y = r * sin (angle (x, y)).
Proof.
  intros N. unfold angle. cbn [re im fst snd].
  assert (Q : forall t, 0 < sqrt (1 + t²)) by (intros t; apply sqrt_lt_R0; pose proof (Rle_0_sqr t); Lra.lra).
  destruct (Rlt_dec 0 x) as [H|H].
  - set (t := y / x). exists (x * sqrt (1 + t²)). split; [apply Rmult_lt_0_compat; auto|]. rewrite cos_atan, sin_atan.
    pose proof (Q t) as Qt. assert (Y : y = x * t) by (unfold t; field; Lra.lra). split; [field; Lra.lra|]. rewrite Y at 1. field. Lra.lra.
  - destruct (Rlt_dec x 0) as [G|G].
    + set (t := y / x). exists (- x * sqrt (1 + t²)). pose proof (Q t) as Qt. split; [apply Rmult_lt_0_compat; Lra.lra|].
      assert (T : forall s, (s = PI \/ s = - PI) -> cos (atan t + s) = - cos (atan t) /\ sin (atan t + s) = - sin (atan t)).
      { intros s [->| ->]; [split; [apply neg_cos|apply neg_sin]|]. rewrite cos_plus, sin_plus, cos_neg, sin_neg, cos_PI, sin_PI. split; ring. }
      assert (E : forall s, (s = PI \/ s = - PI) -> x = - x * sqrt (1 + t²) * cos (atan t + s) /\ y = - x * sqrt (1 + t²) * sin (atan t + s)).
      { intros s Hs. destruct (T s Hs) as [-> ->]. rewrite cos_atan, sin_atan. assert (Y : y = x * t) by (unfold t; field; Lra.lra). split; [field; Lra.lra|]. rewrite Y at 1. field. Lra.lra. }
      destruct (Rle_dec 0 y); [apply E; now left|]. unfold Rminus. apply E. now right.
    + assert (x = 0) by Lra.lra. subst x. destruct (Rlt_dec 0 y); [exists y; rewrite cos_PI2, sin_PI2; repeat split; Lra.lra|].
      destruct (Rlt_dec y 0); [|Lra.lra]. exists (- y). rewrite cos_neg, sin_neg, cos_PI2, sin_PI2. repeat split; Lra.lra.
Qed.
Lemma hue_correct x y cx cy : x <> cx \/ y <> cy -> at_hue x y cx cy (hue_from_log x y (cx, cy)) /\ - (PI / 4) <= hue_from_log x y (cx, cy) < 7 * PI / 4.
Proof.
  intros N. unfold hue_from_log. cbn [fst snd]. pose proof (angle_range (x - cx, y - cy)) as R. split; [|Lra.lra].
  destruct (angle_exact (x - cx) (y - cy)) as (r & H & E1 & E2); [destruct N; [left|right]; Lra.lra|]. exists r. split; [exact H|].
  replace (3 / 4 * PI - (3 / 4 * PI - angle (x - cx, y - cy))) with (angle (x - cx, y - cy)) by ring. split; Lra.lra.
Qed.
Lemma hue_unique x y cx cy h : at_hue x y cx cy h -> - (PI / 4) <= h < 7 * PI / 4 -> hue_from_log x y (cx, cy) = h.
Proof.
  intros (r & H & -> & ->) B. unfold hue_from_log. cbn [fst snd]. replace (cx + r * cos (3 / 4 * PI - h) - cx) with (r * cos (3 / 4 * PI - h)) by ring.
  replace (cy + r * sin (3 / 4 * PI - h) - cy) with (r * sin (3 / 4 * PI - h)) by ring. rewrite angle_polar; [ring|exact H|Lra.lra].
Qed.
Lemma log10_div a b : 0 < a -> 0 < b -> log10 (a / b) = log10 a - log10 b.
Proof. intros Ha Hb. unfold log10, Rdiv. rewrite ln_mult, ln_Rinv; [ring|assumption..|now apply Rinv_0_lt_compat]. Qed.
Lemma log10_inj a b : 0 < a -> 0 < b -> log10 a = log10 b -> a = b.
Proof.
  intros Ha Hb E. apply ln_inv; auto. unfold log10, Rdiv in E. apply Rmult_eq_reg_r in E; [exact E|]. apply Rinv_neq_0_compat.
  assert (ln 1 < ln 10) by (apply ln_increasing; Lra.lra). rewrite ln_1 in H. Lra.lra.
Qed.
Lemma log10_deriv x : 0 < x -> derivable_pt_lim log10 x (/ x / ln 10).
Proof.
  intros Hx. unfold log10. apply (derivable_pt_lim_ext (fun y => / ln 10 * ln y)); [intros y; unfold Rdiv; ring|].
  replace (/ x / ln 10) with (/ ln 10 * / x) by (unfold Rdiv; ring). apply (derivable_pt_lim_scal ln (/ ln 10) x (/ x)). now apply derivable_pt_lim_ln.
Qed.
Lemma ln10_pos : 1 < ln 10.
Proof.
  replace 1 with (ln (exp 1)) by apply ln_exp. apply ln_increasing; [apply exp_pos|]. pose proof exp_le_3. Lra.lra.
Qed.
Lemma log_color_ok rows edges m excl c0 s0 c1 s1 rows' : power_color rows edges m excl = Ok ((c0, s0), (c1, s1), rows') -> (0 < c0)%Q -> (0 < c1)%Q ->
  exists x0 e0 x1 e1, power_color_log rows edges m excl = Ok ((x0, e0), (x1, e1), rows') /\
  Rpower 10 x0 = Q2R c0 /\ Rpower 10 x1 = Q2R c1 /\
  (forall d, derivable_pt_lim log10 (Q2R c0) d -> e0 = ln 10 * (d * s0)) /\ (forall d, derivable_pt_lim log10 (Q2R c1) d -> e1 = ln 10 * (d * s1)).
Proof.
  intros E H0 H1. unfold power_color_log. rewrite E. cbn [bind fst snd]. unfold log_color. cbn [fst snd]. eexists _, _, _, _. split; [reflexivity|].
  assert (P : forall c, (0 < c)%Q -> 0 < Q2R c) by (intros c Hc; replace 0 with (Q2R 0) by (unfold Q2R; cbn; Lra.lra); now apply Qlt_Rlt).
  split; [apply rpower_log10; now apply P|]. split; [apply rpower_log10; now apply P|]. pose proof ln10_pos as L.
  assert (D : forall c s d, (0 < c)%Q -> derivable_pt_lim log10 (Q2R c) d -> 1 / Q2R c * s = ln 10 * (d * s)).
  { intros c s d Hc Hd. specialize (P c Hc). rewrite (uniqueness_limite _ _ _ _ Hd (log10_deriv _ P)). field. split; Lra.lra. }
  split; intros d Hd; now apply D.
Qed.
Lemma log_error_wrong : exists rows edges c0 s0 c1 s1 rows' x0 e0 x1 e1 d, power_color rows edges (Some 1%Q) [] = Ok ((c0, s0), (c1, s1), rows') /\ (0 < c0)%Q /\
  power_color_log rows edges (Some 1%Q) [] = Ok ((x0, e0), (x1, e1), rows') /\ derivable_pt_lim log10 (Q2R c0) d /\ d * s0 < e0.
Proof.
  assert (E : exists c0 s0 c1 s1 rows', power_color ex_rows [1%Q; 2%Q; 3%Q; 4%Q; 5%Q] (Some 1%Q) [] = Ok ((c0, s0), (c1, s1), rows') /\ (0 < c0)%Q /\ (0 < c1)%Q /\ 0 < s0).
  { eexists _, _, _, _, _. split; [apply power_color_eval; vm_compute; reflexivity|]. split; [reflexivity|]. split; [reflexivity|].
    unfold color_error. cbn [fst snd]. assert (P : forall c, (0 < c)%Q -> 0 < Q2R c) by (intros c Hc; replace 0 with (Q2R 0) by (unfold Q2R; cbn; Lra.lra); now apply Qlt_Rlt).
    apply Rmult_lt_0_compat; [apply P; reflexivity|]. apply Rplus_lt_0_compat; apply Rdiv_lt_0_compat; try apply sqrt_lt_R0; apply P; reflexivity. }
  destruct E as (c0 & s0 & c1 & s1 & rows' & E & P0 & P1 & S0). destruct (log_color_ok _ _ _ _ _ _ _ _ _ E P0 P1) as (x0 & e0 & x1 & e1 & E' & _ & _ & D & _).
  assert (Q0 : 0 < Q2R c0) by (replace 0 with (Q2R 0) by (unfold Q2R; cbn; Lra.lra); now apply Qlt_Rlt).
  exists ex_rows, [1%Q; 2%Q; 3%Q; 4%Q; 5%Q], c0, s0, c1, s1, rows', x0, e0, x1, e1, (/ Q2R c0 / ln 10). split; [exact E|]. split; [exact P0|]. split; [exact E'|].
  pose proof (log10_deriv _ Q0) as DD. split; [exact DD|]. rewrite (D _ DD). pose proof ln10_pos as L.
  assert (X : 0 < / Q2R c0 / ln 10 * s0) by (repeat apply Rmult_lt_0_compat; try apply Rinv_0_lt_compat; Lra.lra). Lra.nra.
Qed.
Lemma hue_color p0 p1 c0 c1 : 0 < p0 -> 0 < p1 -> 0 < c0 -> 0 < c1 -> p0 <> c0 \/ p1 <> c1 ->
  at_hue (log10 (p0 / c0)) (log10 (p1 / c1)) 0 0 (hue_from_power_color p0 p1 (c0, c1)) /\ - (PI / 4) <= hue_from_power_color p0 p1 (c0, c1) < 7 * PI / 4.
Proof.
  intros H1 H2 H3 H4 N. unfold hue_from_power_color. cbn [fst snd]. destruct (hue_correct (log10 p0) (log10 p1) (log10 c0) (log10 c1)) as [(r & Hr & E1 & E2) B].
  { destruct N as [N|N]; [left|right]; intros C; apply N; now apply log10_inj. }
  split; [|exact B]. exists r. rewrite !log10_div by assumption. repeat split; Lra.lra.
Qed.
Lemma hue_scale p0 p1 c0 c1 a b : 0 < p0 -> 0 < p1 -> 0 < c0 -> 0 < c1 -> 0 < a -> 0 < b ->
  hue_from_power_color (a * p0) (b * p1) (a * c0, b * c1) = hue_from_power_color p0 p1 (c0, c1).
Proof.
  intros. unfold hue_from_power_color, hue_from_log. cbn [fst snd]. rewrite <- !log10_div by (try apply Rmult_lt_0_compat; assumption). replace (a * p0 / (a * c0)) with (p0 / c0) by (field; Lra.lra). replace (b * p1 / (b * c1)) with (p1 / c1) by (field; Lra.lra). reflexivity.
Qed.
Lemma hue_line center hue ref ts : cos (ref - hue) <> 0 -> exists pts, hue_line_data center hue ref ts = Ok pts /\
  Forall2 (fun t p => 0 < t -> exists r, 0 < r /\ fst p = fst center + r * cos (ref - hue) /\ snd p = snd center + r * sin (ref - hue)) ts pts.
Proof.
  intros N. unfold hue_line_data. replace (- hue + ref) with (ref - hue) by ring. destruct (Req_EM_T (cos (ref - hue)) 0) as [C|_]; [contradiction|]. eexists. split; [reflexivity|].
  induction ts as [|t ts IH]; cbn [map]; constructor; [|exact IH]. intros Ht. cbn [fst snd]. unfold tan. set (c := cos (ref - hue)) in *. set (s := sin (ref - hue)). unfold sign.
  destruct (Rlt_dec 0 c) as [P|P].
  - exists (t / c). split; [apply Rdiv_lt_0_compat; Lra.lra|]. split; field; exact N.
  - destruct (Rlt_dec c 0) as [M|M]; [|Lra.lra]. exists (- (t / c)). split; [|split; field; exact N]. unfold Rdiv. assert (X : / c < 0) by now apply Rinv_lt_0_compat. Lra.nra.
Qed.
Close Scope R_scope.

(* ---- angles between 0 and 360 ---- *)
Notation nq n := (inject_Z (Z.of_nat n)).
Lemma lower_ok fuel : forall a, a < 360 * nq fuel -> (0 < fuel)%nat -> exists b k, lower_angle fuel a = Ok b /\ b < 360 /\ b == a - 360 * nq k /\ (k = 0%nat \/ 0 <= b).
Proof.
  induction fuel as [|fuel IH]; intros a H Hf; [lia|]. cbn [lower_angle]. destruct (qle 360 a) eqn:E; qb.
  - rewrite zof_S in H. assert (F : (0 < fuel)%nat).
    { destruct fuel; [|lia]. exfalso. change (nq 0) with 0 in H. lra. }
    destruct (IH (a - 360)) as (b & k & -> & B1 & B2 & B3); [lra|exact F|]. exists b, (S k). split; [reflexivity|]. split; [exact B1|]. split; [rewrite zof_S; lra|].
    right. destruct B3 as [->|B3]; [change (nq 0) with 0 in B2; lra|exact B3].
  - exists a, 0%nat. split; [reflexivity|]. split; [lra|]. split; [change (nq 0) with 0; lra|now left].
Qed.
Lemma raise_ok fuel : forall a, - a <= 360 * nq fuel - 360 -> (0 < fuel)%nat -> a < 360 -> exists b k, raise_angle fuel a = Ok b /\ 0 <= b /\ b < 360 /\ b == a + 360 * nq k /\ (0 <= a -> k = 0%nat).
Proof.
  induction fuel as [|fuel IH]; intros a H Hf Ha; [lia|]. cbn [raise_angle]. destruct (qlt a 0) eqn:E; qb.
  - rewrite zof_S in H. assert (F : (0 < fuel)%nat).
    { destruct fuel; [|lia]. exfalso. change (nq 0) with 0 in H. lra. }
    destruct (IH (a + 360)) as (b & k & -> & B1 & B2 & B3 & B4); [lra|exact F|lra|]. exists b, (S k). split; [reflexivity|]. split; [exact B1|]. split; [exact B2|].
    split; [rewrite zof_S; lra|]. intros C. lra.
  - exists a, 0%nat. split; [reflexivity|]. split; [exact E|]. split; [exact Ha|]. split; [change (nq 0) with 0; lra|reflexivity].
Qed.
Lemma lower_mono f : forall f' a b, (f <= f')%nat -> lower_angle f a = Ok b -> lower_angle f' a = Ok b.
Proof. induction f as [|f IH]; intros [|f'] a b H E; try discriminate; [lia|]. cbn [lower_angle] in *. destruct (qle 360 a); [|exact E]. apply IH; [lia|exact E]. Qed.
Lemma raise_mono f : forall f' a b, (f <= f')%nat -> raise_angle f a = Ok b -> raise_angle f' a = Ok b.
Proof. induction f as [|f IH]; intros [|f'] a b H E; try discriminate; [lia|]. cbn [raise_angle] in *. destruct (qlt a 0); [|exact E]. apply IH; [lia|exact E]. Qed.
Lemma enough (x : Q) : exists n, x <= nq n.
Proof. exists (Z.to_nat (Qceiling x)). pose proof (Qle_ceiling x) as H. assert (Z : inject_Z (Qceiling x) <= nq (Z.to_nat (Qceiling x))) by (rewrite <- Zle_Qle; lia). lra. Qed.
Lemma limit_angle_main a : exists n b z, (forall fuel, (n <= fuel)%nat -> limit_angle_to_360 fuel a = Ok b) /\ 0 <= b /\ b < 360 /\ b == a + 360 * inject_Z z.
Proof.
  destruct (enough a) as (n1 & H1). pose proof (zof_0 n1) as Z1.
  destruct (lower_ok (S n1) a) as (b1 & k1 & E1 & B1 & B2 & _); [rewrite zof_S; lra|lia|].
  destruct (enough (- b1)) as (n2 & H2). pose proof (zof_0 n2) as Z2.
  destruct (raise_ok (S n2) b1) as (b & k & E2 & C1 & C2 & C3 & _); [rewrite zof_S; lra|lia|exact B1|].
  exists (S n1 + S n2)%nat, b, (Z.of_nat k - Z.of_nat k1)%Z. split.
  - intros fuel Hf. unfold limit_angle_to_360. rewrite (lower_mono (S n1) fuel _ _ ltac:(lia) E1). cbn [bind]. apply (raise_mono (S n2)); [lia|exact E2].
  - split; [exact C1|]. split; [exact C2|]. unfold Zminus. rewrite inject_Z_plus, inject_Z_opp. lra.
Qed.
