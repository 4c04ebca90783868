(* T_pcolor.v: property theorems about power colours and hues (C80-C81). *)
From Coq Require Import Reals Qreals Lqa Lia.
From Coq Require Lra.
From Verif Require Import Np Cplx M_gti M_seg M_utils M_power M_espec M_fourier M_pcolor S_gti S_seg S_power S_pcolor P_power P_pcolor P_pcolor2.
Open Scope Q_scope.

(* ---------- C80: power colours ---------- *)
Theorem C80_colors : forall rows e0 e1 e2 e3 e4 m excl,
  bins_ok rows -> contiguous rows ->
  wide_range rows e0 e1 -> wide_range rows e1 e2 -> wide_range rows e2 e3 -> wide_range rows e3 e4 ->
  (forall lo hi, In (lo, hi) excl -> (exists r, In r rows /\ lo <= b_f r) /\ exists r, In r rows /\ hi <= b_f r) ->
  exists c0 s0 c1 s1 rows', power_color rows [e0; e1; e2; e3; e4] m excl = Ok ((c0, s0), (c1, s1), rows') /\
  bridged_all excl rows rows' /\
  c0 == integral rows' e0 e1 / integral rows' e2 e3 /\ c1 == integral rows' e1 e2 / integral rows' e3 e4 /\
  (~ integral rows' e0 e1 == 0 -> ~ integral rows' e2 e3 == 0 ->
     s0 = propagated (Q2R (integral rows' e0 e1)) (std_dev m rows e0 e1) (Q2R (integral rows' e2 e3)) (std_dev m rows e2 e3)) /\
  (~ integral rows' e1 e2 == 0 -> ~ integral rows' e3 e4 == 0 ->
     s1 = propagated (Q2R (integral rows' e1 e2)) (std_dev m rows e1 e2) (Q2R (integral rows' e3 e4)) (std_dev m rows e3 e4)).
Proof. exact power_color_main. Qed.
Print Assumptions C80_colors.
Theorem C80_scale : forall rows edges m excl c p0 s0 p1 s1 rows1,
  0 < c -> power_color rows edges m excl = Ok ((p0, s0), (p1, s1), rows1) ->
  exists p0' p1' rows1', power_color (map (scale_bin c) rows) edges m excl = Ok ((p0', s0), (p1', s1), rows1') /\ p0' == p0 /\ p1' == p1.
Proof. exact power_color_scaled. Qed.
Print Assumptions C80_scale.
Theorem C80_number_error : forall rows edges m excl,
  length edges <> 5%nat -> power_color rows edges m excl = Err ValueError.
Proof. exact power_color_number. Qed.
Print Assumptions C80_number_error.
Theorem C80_outside_error : forall r0 l edges m excl e,
  In e edges -> e < left_edge r0 \/ right_edge (last l r0) < e -> power_color (r0 :: l) edges m excl = Err ValueError.
Proof. exact power_color_outside. Qed.
Print Assumptions C80_outside_error.
(* The colours with return_log=True; the error bars are too large by a factor ln(10). *)
Theorem C80_log_partial : forall rows edges m excl c0 s0 c1 s1 rows',
  power_color rows edges m excl = Ok ((c0, s0), (c1, s1), rows') -> 0 < c0 -> 0 < c1 ->
  exists x0 e0 x1 e1, power_color_log rows edges m excl = Ok ((x0, e0), (x1, e1), rows') /\
  (Rpower 10 x0 = Q2R c0 /\ Rpower 10 x1 = Q2R c1 /\
  (forall d, derivable_pt_lim log10 (Q2R c0) d -> e0 = ln 10 * (d * s0)) /\ (forall d, derivable_pt_lim log10 (Q2R c1) d -> e1 = ln 10 * (d * s1)))%R.
Proof. exact log_color_ok. Qed.
Print Assumptions C80_log_partial.
Theorem C80_log_error_refuted : exists rows edges c0 s0 c1 s1 rows' x0 e0 x1 e1 d,
  power_color rows edges (Some 1) [] = Ok ((c0, s0), (c1, s1), rows') /\ 0 < c0 /\
  power_color_log rows edges (Some 1) [] = Ok ((x0, e0), (x1, e1), rows') /\ derivable_pt_lim log10 (Q2R c0) d /\ (d * s0 < e0)%R.
Proof. exact log_error_wrong. Qed.
Print Assumptions C80_log_error_refuted.
(* The powers of the caller are overwritten. *)
Theorem C80_unchanged_refuted : 
  exists rows edges excl c0 c1 rows', power_color rows edges (Some 1) excl = Ok (c0, c1, rows') /\ map b_p rows' <> map b_p rows.
Proof. exact power_color_in_place. Qed.
Print Assumptions C80_unchanged_refuted.
Theorem C80_negative_error_refuted : 
  exists rows edges c0 s0 c1 s1 rows', bins_ok rows /\ power_color rows edges None [] = Ok ((c0, s0), (c1, s1), rows') /\ (s0 < 0)%R.
Proof. exact power_color_negative_error. Qed.
Print Assumptions C80_negative_error_refuted.

Example C80_nonvacuous : bins_ok ex_rows /\ contiguous ex_rows /\ wide_range ex_rows 1 2 /\ wide_range ex_rows 2 3 /\ wide_range ex_rows 3 4 /\ wide_range ex_rows 4 5 /\
  exists c s rows', power_color ex_rows [1; 2; 3; 4; 5] None [(3 # 2, 4)] = Ok (c, s, rows') /\ fst c == 1 /\ exists s2 c2 rows2, power_color ex_rows [1; 2; 3; 4; 5] None [] = Ok (s2, c2, rows2) /\ fst s2 == 1 # 5.
Proof.
  split; [split; repeat constructor; vm_compute; discriminate|]. split; [repeat split|].
  assert (W : forall a b, qle (1 # 2) a = true -> qle b (11 # 2) = true -> qle 1 (b - a) = true -> wide_range ex_rows a b).
  { intros a b H1 H2 H3. apply Lib.qle_t in H1, H2, H3. eexists _, _. split; [reflexivity|]. split; [unfold left_edge; cbn; change (1 - 1 / 2) with (1 # 2); lra|].
    split; [unfold right_edge; cbn; change (5 + 1 / 2) with (11 # 2); lra|]. split; [lra|]. intros r Hr. cbn in Hr. destruct Hr as [<-|[<-|[<-|[<-|[<-|[]]]]]]; exact H3. }
  repeat (split; [apply W; reflexivity|]). eexists _, _, _. split; [apply power_color_eval; vm_compute; reflexivity|]. split; [reflexivity|].
  eexists _, _, _. split; [apply power_color_eval; vm_compute; reflexivity|]. reflexivity.
Qed.
Example C80_scale_nonvacuous : 0 < 3 /\ integral ex_rows 1 2 == 1 /\ integral (map (scale_bin 3) ex_rows) 1 2 == 3.
Proof. repeat split; vm_compute; reflexivity. Qed.

(* ---------- C81: hues ---------- *)
Open Scope R_scope.
Theorem C81_hue : forall x y cx cy,
  x <> cx \/ y <> cy -> at_hue x y cx cy (hue_from_log x y (cx, cy)) /\ - (PI / 4) <= hue_from_log x y (cx, cy) < 7 * PI / 4.
Proof. exact hue_correct. Qed.
Print Assumptions C81_hue.
Theorem C81_unique : forall x y cx cy h,
  at_hue x y cx cy h -> - (PI / 4) <= h < 7 * PI / 4 -> hue_from_log x y (cx, cy) = h.
Proof. exact hue_unique. Qed.
Print Assumptions C81_unique.
Theorem C81_power_color : forall p0 p1 c0 c1,
  0 < p0 -> 0 < p1 -> 0 < c0 -> 0 < c1 -> p0 <> c0 \/ p1 <> c1 ->
  at_hue (log10 (p0 / c0)) (log10 (p1 / c1)) 0 0 (hue_from_power_color p0 p1 (c0, c1)) /\ - (PI / 4) <= hue_from_power_color p0 p1 (c0, c1) < 7 * PI / 4.
Proof. exact hue_color. Qed.
Print Assumptions C81_power_color.
Theorem C81_scale : forall p0 p1 c0 c1 a b,
  0 < p0 -> 0 < p1 -> 0 < c0 -> 0 < c1 -> 0 < a -> 0 < b ->
  hue_from_power_color (a * p0) (b * p1) (a * c0, b * c1) = hue_from_power_color p0 p1 (c0, c1).
Proof. exact hue_scale. Qed.
Print Assumptions C81_scale.
(* the lines of constant hue in the plots *)
Theorem C81_line : forall center hue ref ts,
  cos (ref - hue) <> 0 -> exists pts, hue_line_data center hue ref ts = Ok pts /\
  Forall2 (fun t p => 0 < t -> exists r, 0 < r /\ fst p = fst center + r * cos (ref - hue) /\ snd p = snd center + r * sin (ref - hue)) ts pts.
Proof. exact hue_line. Qed.
Print Assumptions C81_line.
Close Scope R_scope.
Theorem C81_limit : forall a,
  exists n b z, (forall fuel, (n <= fuel)%nat -> limit_angle_to_360 fuel a = Ok b) /\ 0 <= b /\ b < 360 /\ b == a + 360 * inject_Z z.
Proof. exact limit_angle_main. Qed.
Print Assumptions C81_limit.

Example C81_nonvacuous : at_hue 1 1 0 0 (PI / 2)%R /\ hue_from_log 1 1 (0, 0)%R = (PI / 2)%R /\ exists b, limit_angle_to_360 10 (- (20 # 1)) = Ok b /\ b == 340.
Proof.
  assert (A : at_hue 1 1 0 0 (PI / 2)%R).
  { exists (sqrt 2). assert (E : (3 / 4 * PI - PI / 2 = PI / 4)%R) by field. rewrite E, cos_PI4, sin_PI4. split; [apply sqrt_lt_R0; Lra.lra|].
    assert (N : sqrt 2 <> 0%R) by (apply Rgt_not_eq, sqrt_lt_R0; Lra.lra). split; field; exact N. }
  split; [exact A|]. split; [apply hue_unique; [exact A|pose proof PI_RGT_0; Lra.lra]|]. eexists. split; [vm_compute; reflexivity|reflexivity].
Qed.

