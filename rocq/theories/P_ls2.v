(* P_ls2.v: the Lomb-Scargle transforms on evenly spaced times, their linearity, and lsft_fast. *)
From Verif Require Import Np M_utils Cplx M_fourier M_norm M_ls S_fourier S_ls P_pcolor2 P_lag P_timmer P_dft P_ls.
From Coq Require Import Reals List Arith ZArith Lra Lia.
Import ListNotations.
Open Scope R_scope.

(* ---- linearity ---- *)
Lemma minus_affine a b y : y <> [] -> minus_mean (map (fun v => a * v + b) y) = map (fun v => a * v) (minus_mean y).
Proof.
  intros N. unfold minus_mean. rewrite !map_map, map_length, affine_sum. apply map_ext. intros v. field. apply not_0_INR. destruct y; [congruence|cbn; lia].
Qed.
Lemma rlsum_minus y : y <> [] -> rlsum (minus_mean y) = 0.
Proof.
  intros N. unfold minus_mean. rewrite (map_ext _ (fun v => 1 * v + - (rlsum y / INR (length y)))) by (intros; ring). rewrite affine_sum. field.
  apply not_0_INR. destruct y; [congruence|cbn; lia].
Qed.
Theorem slow_linear sgn a b y t f : y <> [] ->
  slow_at sgn (map (fun v => a * v + b) y) t f = match slow_at sgn y t f with Some z => Some (cscal z a) | None => None end.
Proof.
  intros N. destruct (Req_dec f 0) as [F|F].
  - subst f. unfold slow_at. destruct (Req_EM_T (0 * 2 * PI) 0) as [_|E]; [|exfalso; apply E; ring].
    rewrite !rlsum_minus by (try exact N; intros C; apply map_eq_nil in C; contradiction). f_equal. apply cx_eq; unfold cscal, re, im; cbn [fst snd]; unfold Rdiv; ring.
  - rewrite !slow_form by exact F. rewrite map_length. set (w := f * 2 * PI). set (phi := tau w t).
    unfold sumr, sumi. rewrite minus_affine, !ysum_scale by exact N. fold (sumr y t w phi) (sumi y t w phi). unfold over_sqrt.
    destruct (Rlt_dec 0 (sc t w phi)); [|reflexivity]. destruct (Rlt_dec 0 (ss t w phi)); [|reflexivity]. cbn [both omul]. f_equal.
    unfold sumr, sumi. apply cx_eq; unfold cmul, cscal, re, im; cbn [fst snd]; unfold Rdiv; ring.
Qed.
Theorem slow_zero sgn y t : y <> [] -> slow_at sgn y t 0 = Some (0, 0).
Proof.
  intros N. unfold slow_at. destruct (Req_EM_T (0 * 2 * PI) 0) as [_|E]; [|exfalso; apply E; ring].
  rewrite rlsum_minus by exact N. unfold Rdiv. now rewrite Rmult_0_l.
Qed.
(* ---- evenly spaced times ---- *)
Lemma even_shift t0 dt n : even t0 dt n = map (fun x => x + t0) (even 0 dt n).
Proof. unfold even. rewrite map_map. apply map_ext. intros. ring. Qed.
Lemma even_len t0 dt n : length (even t0 dt n) = n.
Proof. unfold even. now rewrite map_length, seq_length. Qed.
Lemma tsum_even f t0 dt n : tsum f (even t0 dt n) = rs n (fun j => f (t0 + INR j * dt)).
Proof. unfold tsum, even, rs. now rewrite map_map. Qed.
Lemma ysum_even f y t0 dt : ysum f y (even t0 dt (length y)) = rs (length y) (fun j => val y j * f (t0 + INR j * dt)).
Proof.
  unfold even.
  assert (G : forall i, ysum f y (map (fun j => t0 + INR j * dt) (seq i (length y))) = rs (length y) (fun j => val y j * f (t0 + INR (i + j) * dt))).
  { induction y as [|v y IH]; intros i; [reflexivity|]. cbn [length seq map]. rewrite ysum_cons, IH, rs_first. unfold val at 2. cbn [nth].
    replace (i + 0)%nat with i by lia. f_equal. apply rs_ext. intros j _. unfold val. cbn [nth]. replace (S i + j)%nat with (i + S j)%nat by lia. reflexivity. }
  exact (G 0%nat).
Qed.
Section Even.
Variables (n k : nat) (dt : R).
Hypothesis K : (0 < k < n)%nat.
Hypothesis K2 : (2 * k <> n)%nat.
Hypothesis D : dt <> 0.
Let w := INR k / (INR n * dt) * 2 * PI.
Lemma n_ne : INR n <> 0.
Proof. apply not_0_INR. lia. Qed.
Lemma geom2 : rs n (fun j => cos (2 * w * (0 + INR j * dt))) = 0 /\ rs n (fun j => sin (2 * w * (0 + INR j * dt))) = 0.
Proof.
  pose proof n_ne as NN.
  assert (M : (Z.of_nat (2 * k) mod Z.of_nat n <> 0)%Z).
  { intros E. apply Z.mod_divide in E; [|lia]. destruct E as (q & E). assert (q = 1 \/ q <= 0 \/ 2 <= q)%Z by lia. nia. }
  pose proof (cis_geom n (Z.of_nat (2 * k)) ltac:(lia) M) as G.
  assert (A : forall j : nat, 2 * w * (0 + INR j * dt) = 2 * PI * IZR (Z.of_nat j * Z.of_nat (2 * k)) / INR n).
  { intros j. unfold w. rewrite mult_IZR, <- !INR_IZR_INZ, mult_INR. change (INR 2) with 2. field. auto. }
  split.
  - pose proof (f_equal re G) as X. rewrite re_cs in X. rewrite <- X at 1. apply rs_ext. intros j _. now rewrite A.
  - pose proof (f_equal im G) as X. rewrite im_cs in X. rewrite <- X at 1. apply rs_ext. intros j _. now rewrite A.
Qed.
Lemma even_flat t0 : Cw w (even t0 dt n) = 0 /\ Sw w (even t0 dt n) = 0.
Proof.
  destruct geom2 as [A B]. rewrite even_shift, shift_C, shift_S. unfold Cw, Sw. rewrite !tsum_even, A, B. split; ring.
Qed.
Lemma dft_minus y : length y = n -> dft (minus_mean y) k = dft y k.
Proof.
  intros L. unfold minus_mean. rewrite (map_ext _ (fun v => 1 * v + - (rlsum y / INR (length y)))) by (intros; ring). rewrite affine_dft by lia.
  apply cx_eq; unfold cscal, re, im; cbn [fst snd]; ring.
Qed.
Lemma sums_0 y : length y = n -> sumr y (even 0 dt n) w 0 = re (dft y k) /\ sumi y (even 0 dt n) w 0 = - im (dft y k).
Proof.
  intros L. pose proof n_ne as NN. rewrite <- (dft_minus y L). unfold sumr, sumi. assert (LM : length (minus_mean y) = n) by (unfold minus_mean; now rewrite map_length).
  assert (A : forall j : nat, w * (0 + INR j * dt) - 0 = 2 * PI * INR (j * k) / INR n) by (intros j; unfold w; rewrite mult_INR; field; auto).
  assert (Y : forall f, ysum f (minus_mean y) (even 0 dt n) = rs n (fun j => val (minus_mean y) j * f (0 + INR j * dt))) by (intros f; rewrite <- LM at 1; rewrite ysum_even, LM; reflexivity).
  rewrite !Y. unfold dft, re, im. cbn [fst snd]. rewrite Ropp_involutive, LM. split; apply rs_ext; intros j _; now rewrite A.
Qed.
Lemma even_form sgn y t0 : length y = n ->
  slow_at sgn y (even t0 dt n) (INR k / (INR n * dt)) =
  Some (cmul (sumr y (even t0 dt n) w 0, rsign sgn * sumi y (even t0 dt n) w 0) (cos (w * t0), sin (w * t0))).
Proof.
  intros L. pose proof n_ne as NN. destruct (even_flat t0) as [C S]. destruct (flat_sums _ _ C S) as (T & E1 & E2). rewrite even_len in E1, E2.
  assert (P : 0 < INR n) by (apply lt_0_INR; lia).
  assert (F : INR k / (INR n * dt) <> 0).
  { unfold Rdiv. apply Rmult_integral_contrapositive. split; [apply not_0_INR; lia|]. apply Rinv_neq_0_compat. apply Rmult_integral_contrapositive. auto. }
  rewrite slow_defined by (try exact F; fold w; rewrite T, ?E1, ?E2; lra). fold w. rewrite T, E1, E2, L. do 2 f_equal.
  - assert (Q : sqrt (INR n / 2) <> 0) by (apply Rgt_not_eq, sqrt_lt_R0; lra).
    replace (1 / 2 * INR n) with (INR n / 2) by field. apply cx_eq; unfold re, im; cbn [fst snd]; field; exact Q.
  - unfold unit_phase. assert (Z : nth 0 (even t0 dt n) 0 = t0).
    { unfold even. destruct n; [lia|]. cbn [seq map nth]. cbn [INR]. ring. }
    rewrite Z. replace (- (0 - w * t0)) with (w * t0) by ring. reflexivity.
Qed.
Theorem even_neg sgn y t0 : sgn < 0 -> length y = n -> slow_at sgn y (even t0 dt n) (INR k / (INR n * dt)) = Some (dft y k).
Proof.
  intros G L. rewrite even_form by exact L. f_equal. rewrite rsign_neg by exact G. rewrite even_shift.
  destruct (rotate_sums w t0 y (even 0 dt n)) as [-> ->]. destruct (sums_0 y L) as [-> ->].
  pose proof (sin2_cos2 (w * t0)) as U. unfold Rsqr in U. set (c := cos (w * t0)) in *. set (s := sin (w * t0)) in *.
  apply cx_eq; unfold cmul, re, im; cbn [fst snd]; fold (re (dft y k)) (im (dft y k)).
  - transitivity (re (dft y k) * (s * s + c * c)); [unfold re, im; ring|rewrite U; ring].
  - transitivity (im (dft y k) * (s * s + c * c)); [unfold re, im; ring|rewrite U; ring].
Qed.
Theorem even_pos sgn y t0 : 0 < sgn -> length y = n ->
  slow_at sgn y (even t0 dt n) (INR k / (INR n * dt)) = Some (cmul (cos (2 * (w * t0)), sin (2 * (w * t0))) (cconj (dft y k))).
Proof.
  intros G L. rewrite even_form by exact L. f_equal. rewrite rsign_pos by exact G. rewrite even_shift.
  destruct (rotate_sums w t0 y (even 0 dt n)) as [-> ->]. destruct (sums_0 y L) as [-> ->]. rewrite cos_2a, sin_2a.
  apply cx_eq; unfold cmul, cconj, re, im; cbn [fst snd]; ring.
Qed.
Lemma points_ysum f h t : points (fun v x => v * f x) h t = ysum f h t.
Proof. revert t. induction h as [|v h IH]; intros [|x t]; try reflexivity. cbn [points]. now rewrite ysum_cons, IH. Qed.
Lemma ysum_const f c (y : list R) t : length y = length t -> ysum f (map (fun _ => c) y) t = c * tsum f t.
Proof.
  revert t. induction y as [|v y IH]; intros [|x t] H; try discriminate; [unfold ysum, tsum; cbn; ring|].
  cbn [map]. rewrite ysum_cons, tsum_cons, IH by (cbn in H; lia). ring.
Qed.
(* lsft_fast with exact sums, one frequency: agrees whatever the number of frequencies *)
Lemma even_fast sgn y t0 N f : (0 < N)%nat -> length y = n -> f = INR k / (INR n * dt) ->
  fast_one sgn (length y) N (rlsum (minus_mean y)) t0
    (f, (points (fun v x => v * sin (2 * PI * (1 * f) * x)) (minus_mean y) (even t0 dt n), points (fun v x => v * cos (2 * PI * (1 * f) * x)) (minus_mean y) (even t0 dt n)),
     ((points (fun v x => v * sin (2 * PI * (2 * f) * x)) (map (fun _ => 1 / INR (length y)) y) (even t0 dt n), points (fun v x => v * cos (2 * PI * (2 * f) * x)) (map (fun _ => 1 / INR (length y)) y) (even t0 dt n)),
      (points (fun v x => v * sin (2 * PI * (2 * f) * x)) (map (fun _ => 1) y) (even t0 dt n), points (fun v x => v * cos (2 * PI * (2 * f) * x)) (map (fun _ => 1) y) (even t0 dt n)))) =
  slow_at sgn y (even t0 dt n) f.
Proof.
  intros HN L F. pose proof n_ne as NN.
  rewrite !(points_ysum (fun x => sin (2 * PI * (2 * f) * x))), !(points_ysum (fun x => cos (2 * PI * (2 * f) * x))), !ysum_const by (now rewrite even_len).
  destruct (even_flat t0) as [C S]. unfold Cw in C. unfold Sw in S.
  rewrite (tsum_ext (fun x => cos (2 * PI * (2 * f) * x)) (fun x => cos (2 * w * x))) by (intros x _; f_equal; rewrite F; unfold w; ring).
  rewrite (tsum_ext (fun x => sin (2 * PI * (2 * f) * x)) (fun x => sin (2 * w * x))) by (intros x _; f_equal; rewrite F; unfold w; ring).
  rewrite C, S, !Rmult_0_r. unfold fast_one. rewrite angle_zero.
  assert (P : 0 < INR N) by now apply lt_0_INR.
  destruct (Req_EM_T f 0) as [Z|_].
  { exfalso. rewrite F in Z. unfold Rdiv in Z. apply Rmult_integral in Z. destruct Z as [Z|Z]; [revert Z; apply not_0_INR; lia|]. revert Z. apply Rinv_neq_0_compat. apply Rmult_integral_contrapositive. auto. }
  set (ch := points (fun v x => v * cos _) _ _). set (sh := points (fun v x => v * sin _) _ _).
  assert (ER : ch = sumr y (even t0 dt n) w 0).
  { unfold ch, sumr. rewrite (points_ysum (fun x => cos (2 * PI * (1 * f) * x))). apply ysum_ext. intros x _. f_equal. rewrite F. unfold w. ring. }
  assert (EI : sh = sumi y (even t0 dt n) w 0).
  { unfold sh, sumi. rewrite (points_ysum (fun x => sin (2 * PI * (1 * f) * x))). apply ysum_ext. intros x _. f_equal. rewrite F. unfold w. ring. }
  rewrite F, even_form by exact L. fold w. rewrite <- ER, <- EI. replace (1 / 2 * 0) with 0 by ring. rewrite cos_0, sin_0. unfold over_sqrt.
  match goal with |- context[Rlt_dec 0 ?x] => destruct (Rlt_dec 0 x) as [_|X]; [|lra] end.
  match goal with |- context[Rlt_dec 0 ?x] => destruct (Rlt_dec 0 x) as [_|X]; [|lra] end.
  cbn [both omul]. f_equal.
  assert (QN : sqrt (1 / 2 * INR N) = sqrt (1 / 2) * sqrt (INR N)) by (apply sqrt_mult; lra).
  assert (Q1 : sqrt (1 / 2) <> 0) by (apply Rgt_not_eq, sqrt_lt_R0; lra). assert (Q2 : sqrt (INR N) <> 0) by (apply Rgt_not_eq, sqrt_lt_R0; lra).
  f_equal.
  - replace (1 / 2 * (INR N + 0 * cos (2 * 0) + 0 * sin (2 * 0))) with (1 / 2 * INR N) by ring.
    replace (1 / 2 * (INR N - 0 * cos (2 * 0) - 0 * sin (2 * 0))) with (1 / 2 * INR N) by ring. rewrite QN.
    apply cx_eq; unfold re, im; cbn [fst snd]; field; auto.
  - unfold unit_phase. fold w; replace (- (0 - w * t0)) with (w * t0) by ring. reflexivity.
Qed.
End Even.
