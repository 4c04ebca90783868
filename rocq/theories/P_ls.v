(* P_ls.v: proofs about the Lomb-Scargle transforms. *)
From Verif Require Import Np M_utils Cplx M_fourier M_norm M_ls S_fourier S_ls P_pcolor2 P_dft.
From Coq Require Import Reals List Arith ZArith Lra Lia.
Import ListNotations.
Open Scope R_scope.

(* ---- sums ---- *)
Lemma tsum_cons f x t : tsum f (x :: t) = f x + tsum f t.
Proof. reflexivity. Qed.
Lemma ysum_cons f v y x t : ysum f (v :: y) (x :: t) = v * f x + ysum f y t.
Proof. reflexivity. Qed.
Lemma tsum_ext f g t : (forall x, In x t -> f x = g x) -> tsum f t = tsum g t.
Proof. induction t as [|x t IH]; intros H; [reflexivity|]. rewrite !tsum_cons, (H x), IH; auto; [intros; apply H; now right|now left]. Qed.
Lemma ysum_ext f g y t : (forall x, In x t -> f x = g x) -> ysum f y t = ysum g y t.
Proof.
  revert y. induction t as [|x t IH]; intros [|v y] H; try reflexivity.
  rewrite !ysum_cons, (H x), IH; auto; [intros; apply H; now right|now left].
Qed.
Lemma tsum_lin a b f g t : tsum (fun x => a * f x + b * g x) t = a * tsum f t + b * tsum g t.
Proof. induction t as [|x t IH]; [unfold tsum; cbn; ring|]. rewrite !tsum_cons, IH. ring. Qed.
Lemma ysum_lin a b f g y t : ysum (fun x => a * f x + b * g x) y t = a * ysum f y t + b * ysum g y t.
Proof.
  revert y. induction t as [|x t IH]; intros [|v y]; try (unfold ysum; cbn; ring). rewrite !ysum_cons, IH. ring.
Qed.
Lemma tsum_1 t : tsum (fun _ => 1) t = INR (length t).
Proof. induction t as [|x t IH]; [reflexivity|]. rewrite tsum_cons, IH. cbn [length]. rewrite S_INR. ring. Qed.
Lemma tsum_shift f s t : tsum f (map (fun x => x + s) t) = tsum (fun x => f (x + s)) t.
Proof. unfold tsum. now rewrite map_map. Qed.
Lemma ysum_shift f s y t : ysum f y (map (fun x => x + s) t) = ysum (fun x => f (x + s)) y t.
Proof. revert y. induction t as [|x t IH]; intros [|v y]; try reflexivity. cbn [map]. now rewrite !ysum_cons, IH. Qed.
Lemma ysum_scale a f y t : ysum f (map (fun v => a * v) y) t = a * ysum f y t.
Proof. revert y. induction t as [|x t IH]; intros [|v y]; try (unfold ysum; cbn; ring). cbn [map]. rewrite !ysum_cons, IH. ring. Qed.
Lemma tsum_pos f t : (forall x, 0 <= f x) -> 0 <= tsum f t.
Proof. intros H. induction t as [|x t IH]; [unfold tsum; cbn; lra|]. rewrite tsum_cons. specialize (H x). lra. Qed.

(* ---- the phase ---- *)
Definition Cw (w : R) t := tsum (fun x => cos (2 * w * x)) t.
Definition Sw (w : R) t := tsum (fun x => sin (2 * w * x)) t.
Definition tau (w : R) t := 1 / 2 * angle (Cw w t, Sw w t).
Lemma angle_zero : angle (0, 0) = 0.
Proof. unfold angle, re, im. cbn. repeat destruct Rlt_dec; try lra. Qed.
Lemma tau_polar w t : exists r, 0 <= r /\ Cw w t = r * cos (2 * tau w t) /\ Sw w t = r * sin (2 * tau w t).
Proof.
  unfold tau. replace (2 * (1 / 2 * angle (Cw w t, Sw w t))) with (angle (Cw w t, Sw w t)) by field.
  destruct (Req_dec (Cw w t) 0) as [A|A]; [destruct (Req_dec (Sw w t) 0) as [B|B]|].
  - exists 0. rewrite A, B. split; [lra|]. split; ring.
  - destruct (angle_exact (Cw w t) (Sw w t)) as (r & R0 & E1 & E2); [auto|]. exists r. split; [lra|]. auto.
  - destruct (angle_exact (Cw w t) (Sw w t)) as (r & R0 & E1 & E2); [auto|]. exists r. split; [lra|]. auto.
Qed.
Lemma cos2_sum w phi t : tsum (fun x => cos (w * x - phi) * cos (w * x - phi)) t
  = 1 / 2 * (INR (length t) + Cw w t * cos (2 * phi) + Sw w t * sin (2 * phi)).
Proof.
  unfold Cw, Sw. induction t as [|x t IH]; [unfold tsum; cbn; lra|].
  rewrite !tsum_cons, IH. cbn [length]. rewrite S_INR.
  assert (E : cos (w * x - phi) * cos (w * x - phi) = 1 / 2 * (1 + cos (2 * w * x) * cos (2 * phi) + sin (2 * w * x) * sin (2 * phi))).
  { assert (D : cos (2 * w * x) * cos (2 * phi) + sin (2 * w * x) * sin (2 * phi) = cos (2 * (w * x - phi))).
    { replace (2 * (w * x - phi)) with (2 * w * x - 2 * phi) by ring. rewrite cos_minus. ring. }
    rewrite (cos_2a_cos (w * x - phi)) in D. lra. }
  rewrite E. ring.
Qed.
Lemma sin2_sum w phi t : tsum (fun x => sin (w * x - phi) * sin (w * x - phi)) t
  = 1 / 2 * (INR (length t) - Cw w t * cos (2 * phi) - Sw w t * sin (2 * phi)).
Proof.
  pose proof (cos2_sum w phi t) as C.
  assert (E : tsum (fun x => cos (w * x - phi) * cos (w * x - phi)) t + tsum (fun x => sin (w * x - phi) * sin (w * x - phi)) t = INR (length t)).
  { rewrite <- tsum_1. replace (tsum (fun _ => 1) t) with (tsum (fun x => 1 * (cos (w * x - phi) * cos (w * x - phi)) + 1 * (sin (w * x - phi) * sin (w * x - phi))) t).
    - rewrite tsum_lin. ring.
    - apply tsum_ext. intros x _. pose proof (sin2_cos2 (w * x - phi)) as H. unfold Rsqr in H. lra. }
  lra.
Qed.
Lemma cross_sum w phi t : tsum (fun x => sin (w * x - phi) * cos (w * x - phi)) t = 1 / 2 * (Sw w t * cos (2 * phi) - Cw w t * sin (2 * phi)).
Proof.
  unfold Cw, Sw. induction t as [|x t IH]; [unfold tsum; cbn; lra|]. rewrite !tsum_cons, IH.
  assert (E : sin (w * x - phi) * cos (w * x - phi) = 1 / 2 * (sin (2 * w * x) * cos (2 * phi) - cos (2 * w * x) * sin (2 * phi))).
  { assert (D : sin (2 * w * x) * cos (2 * phi) - cos (2 * w * x) * sin (2 * phi) = sin (2 * (w * x - phi))).
    { replace (2 * (w * x - phi)) with (2 * w * x - 2 * phi) by ring. rewrite sin_minus. ring. }
    rewrite (sin_2a (w * x - phi)) in D. lra. }
  rewrite E. ring.
Qed.
Lemma tau_good w t : tsum (fun x => sin (w * x - tau w t) * cos (w * x - tau w t)) t = 0.
Proof. rewrite cross_sum. destruct (tau_polar w t) as (r & _ & -> & ->). ring. Qed.
(* shifting the times *)
Lemma shift_C w s t : Cw w (map (fun x => x + s) t) = cos (2 * w * s) * Cw w t + - sin (2 * w * s) * Sw w t.
Proof.
  unfold Cw, Sw. rewrite tsum_shift, <- tsum_lin. apply tsum_ext. intros x _.
  replace (2 * w * (x + s)) with (2 * w * s + 2 * w * x) by ring. rewrite cos_plus. ring.
Qed.
Lemma shift_S w s t : Sw w (map (fun x => x + s) t) = sin (2 * w * s) * Cw w t + cos (2 * w * s) * Sw w t.
Proof.
  unfold Cw, Sw. rewrite tsum_shift, <- tsum_lin. apply tsum_ext. intros x _.
  replace (2 * w * (x + s)) with (2 * w * s + 2 * w * x) by ring. rewrite sin_plus. ring.
Qed.
Lemma tau_shift w s t : Cw w t <> 0 \/ Sw w t <> 0 ->
  exists e, (e = 1 \/ e = -1) /\ forall x, cos (w * (x + s) - tau w (map (fun x => x + s) t)) = e * cos (w * x - tau w t) /\
    sin (w * (x + s) - tau w (map (fun x => x + s) t)) = e * sin (w * x - tau w t).
Proof.
  intros NZ. set (t' := map (fun x => x + s) t).
  destruct (tau_polar w t) as (r & R0 & C & S). destruct (tau_polar w t') as (r' & R0' & C' & S').
  pose proof (shift_C w s t) as EC. pose proof (shift_S w s t) as ES. fold t' in EC, ES.
  set (a := tau w t) in *. set (b := tau w t') in *.
  assert (N : Cw w t' ^ 2 + Sw w t' ^ 2 = Cw w t ^ 2 + Sw w t ^ 2).
  { rewrite EC, ES. pose proof (sin2_cos2 (2 * w * s)) as H. unfold Rsqr in H. 
    transitivity ((sin (2 * w * s) * sin (2 * w * s) + cos (2 * w * s) * cos (2 * w * s)) * (Cw w t ^ 2 + Sw w t ^ 2)); [ring|rewrite H; ring]. }
  assert (NR : r' ^ 2 = r ^ 2).
  { pose proof (sin2_cos2 (2 * a)) as H1. pose proof (sin2_cos2 (2 * b)) as H2. unfold Rsqr in H1, H2.
    transitivity (r' ^ 2 * (sin (2 * b) * sin (2 * b) + cos (2 * b) * cos (2 * b))); [rewrite H2; ring|].
    transitivity (Cw w t' ^ 2 + Sw w t' ^ 2); [rewrite C', S'; ring|]. rewrite N, C, S.
    transitivity (r ^ 2 * (sin (2 * a) * sin (2 * a) + cos (2 * a) * cos (2 * a))); [ring|rewrite H1; ring]. }
  assert (RR : r' = r) by nra.
  assert (RP : 0 < r). { destruct (Req_dec r 0) as [Z|Z]; [|lra]. exfalso. rewrite Z in C, S. destruct NZ; lra. }
  set (d := b - a - w * s).
  assert (D : cos (2 * d) = 1).
  { assert (X : r * cos (2 * b) = r * cos (2 * a + 2 * w * s)) by (transitivity (r' * cos (2 * b)); [now rewrite RR|rewrite <- C', EC, C, S; replace (2 * a + 2 * w * s) with (2 * a + (2 * w * s)) by ring; rewrite cos_plus; ring]).
    assert (Y : r * sin (2 * b) = r * sin (2 * a + 2 * w * s)) by (transitivity (r' * sin (2 * b)); [now rewrite RR|rewrite <- S', ES, C, S; replace (2 * a + 2 * w * s) with (2 * a + (2 * w * s)) by ring; rewrite sin_plus; ring]).
    apply Rmult_eq_reg_l in X; [|lra]. apply Rmult_eq_reg_l in Y; [|lra].
    unfold d. replace (2 * (b - a - w * s)) with (2 * b - (2 * a + 2 * w * s)) by ring. rewrite cos_minus, X, Y.
    pose proof (sin2_cos2 (2 * a + 2 * w * s)) as H. unfold Rsqr in H. lra. }
  rewrite cos_2a_cos in D. assert (SD : sin d = 0). { pose proof (sin2_cos2 d) as H. unfold Rsqr in H. nra. }
  exists (cos d). split.
  - assert ((cos d - 1) * (cos d + 1) = 0) as H by lra. apply Rmult_integral in H. destruct H; [left|right]; lra.
  - intros x. replace (w * (x + s) - b) with ((w * x - a) - d) by (unfold d; ring).
    rewrite (cos_minus (w * x - a) d), (sin_minus (w * x - a) d), SD. split; ring.
Qed.

(* ---- the transform ---- *)
Definition sumr (y t : list R) (w phi : R) := ysum (fun x => cos (w * x - phi)) (minus_mean y) t.
Definition sumi (y t : list R) (w phi : R) := ysum (fun x => sin (w * x - phi)) (minus_mean y) t.
Definition sc (t : list R) (w phi : R) := tsum (fun x => cos (w * x - phi) * cos (w * x - phi)) t.
Definition ss (t : list R) (w phi : R) := tsum (fun x => sin (w * x - phi) * sin (w * x - phi)) t.
Lemma slow_form sgn y t f : f <> 0 -> let w := f * 2 * PI in let phi := tau w t in
  slow_at sgn y t f = omul (both (over_sqrt (sqrt (1 / 2 * INR (length y)) * sumr y t w phi) (sc t w phi))
    (over_sqrt (sqrt (1 / 2 * INR (length y)) * rsign sgn * sumi y t w phi) (ss t w phi))) (unit_phase (phi - w * nth 0 t 0)).
Proof.
  intros F w phi. unfold slow_at. fold w. destruct (Req_EM_T w 0) as [E|_]; [|reflexivity].
  exfalso. unfold w in E. pose proof PI_RGT_0. apply Rmult_integral in E. destruct E; [|lra]. apply F. lra.
Qed.
Lemma unit_norm p : cnorm2 (unit_phase p) = 1.
Proof. unfold unit_phase, cnorm2, re, im. cbn. pose proof (sin2_cos2 (- p)) as H. unfold Rsqr in H. lra. Qed.
Lemma cnorm2_mul a b : cnorm2 (cmul a b) = cnorm2 a * cnorm2 b.
Proof. unfold cnorm2, cmul, re, im. cbn. ring. Qed.
Lemma rsign_pos s : 0 < s -> rsign s = 1.
Proof. intros H. unfold rsign. destruct (Rlt_dec 0 s); lra. Qed.
Lemma rsign_neg s : s < 0 -> rsign s = -1.
Proof. intros H. unfold rsign. destruct (Rlt_dec 0 s); [lra|]. destruct (Rlt_dec s 0); lra. Qed.
Lemma rsign_sq s : s <> 0 -> rsign s * rsign s = 1.
Proof. intros H. destruct (Rdichotomy _ _ H); [rewrite rsign_neg by lra|rewrite rsign_pos by lra]; ring. Qed.
Lemma slow_some sgn y t f z : f <> 0 -> slow_at sgn y t f = Some z -> let w := f * 2 * PI in let phi := tau w t in
  0 < sc t w phi /\ 0 < ss t w phi /\
  z = cmul (sqrt (1 / 2 * INR (length y)) * sumr y t w phi / sqrt (sc t w phi),
            sqrt (1 / 2 * INR (length y)) * rsign sgn * sumi y t w phi / sqrt (ss t w phi)) (unit_phase (phi - w * nth 0 t 0)).
Proof.
  intros F H w phi. rewrite slow_form in H by exact F. fold w in H. fold phi in H. revert H. unfold over_sqrt.
  destruct (Rlt_dec 0 (sc t w phi)) as [A|A]; [|discriminate]. destruct (Rlt_dec 0 (ss t w phi)) as [B|B]; [|discriminate].
  cbn [both omul]. intros H. repeat split; auto. congruence.
Qed.
Lemma slow_defined sgn y t f : f <> 0 -> let w := f * 2 * PI in let phi := tau w t in 0 < sc t w phi -> 0 < ss t w phi ->
  slow_at sgn y t f = Some (cmul (sqrt (1 / 2 * INR (length y)) * sumr y t w phi / sqrt (sc t w phi),
            sqrt (1 / 2 * INR (length y)) * rsign sgn * sumi y t w phi / sqrt (ss t w phi)) (unit_phase (phi - w * nth 0 t 0))).
Proof.
  intros F w phi A B. rewrite slow_form by exact F. fold w. fold phi. unfold over_sqrt.
  destruct (Rlt_dec 0 (sc t w phi)); [|contradiction]. destruct (Rlt_dec 0 (ss t w phi)); [|contradiction]. reflexivity.
Qed.
Lemma sqrt_part n a s : 0 < s -> 0 <= n -> (sqrt n * a / sqrt s) * (sqrt n * a / sqrt s) = n * (a ^ 2 / s).
Proof.
  intros S N. assert (Q : sqrt s * sqrt s = s) by (apply sqrt_sqrt; lra). assert (0 < sqrt s) by now apply sqrt_lt_R0.
  transitivity ((sqrt n * sqrt n) * (a * a) / (sqrt s * sqrt s)); [field; lra|]. rewrite Q, sqrt_sqrt by lra. field. lra.
Qed.
Lemma slow_power sgn y t f z : f <> 0 -> sgn <> 0 -> slow_at sgn y t f = Some z -> let w := f * 2 * PI in let phi := tau w t in
  cnorm2 z = INR (length y) / 2 * (sumr y t w phi ^ 2 / sc t w phi + sumi y t w phi ^ 2 / ss t w phi).
Proof.
  intros F G H w phi. destruct (slow_some _ _ _ _ _ F H) as (A & B & ->). fold w in A, B |- *. fold phi in A, B |- *.
  rewrite cnorm2_mul, unit_norm. unfold cnorm2, re, im. cbn [fst snd].
  assert (N : 0 <= 1 / 2 * INR (length y)) by (pose proof (pos_INR (length y)); lra).
  rewrite (sqrt_part _ _ _ A N).
  replace (sqrt (1 / 2 * INR (length y)) * rsign sgn * sumi y t w phi) with (sqrt (1 / 2 * INR (length y)) * (rsign sgn * sumi y t w phi)) by ring.
  rewrite (sqrt_part _ _ _ B N). replace ((rsign sgn * sumi y t w phi) ^ 2) with ((rsign sgn * rsign sgn) * sumi y t w phi ^ 2) by ring.
  rewrite rsign_sq by exact G. field. lra.
Qed.
(* the sums of the specification *)
Lemma ysum_points f y t m : ysum f (map (fun v => v - m) y) t = points (fun v x => (v - m) * f x) y t.
Proof. revert t. induction y as [|v y IH]; intros [|x t]; try reflexivity. cbn [map points]. now rewrite ysum_cons, IH. Qed.
Lemma tsum_points f y t : length y = length t -> tsum f t = points (fun _ x => f x) y t.
Proof.
  revert t. induction y as [|v y IH]; intros [|x t] H; try reflexivity; try discriminate.
  cbn [points]. rewrite tsum_cons, (IH t) by (cbn in H; lia). reflexivity.
Qed.
Lemma points_ext f g y t : (forall v x, f v x = g v x) -> points f y t = points g y t.
Proof. intros H. revert t. induction y as [|v y IH]; intros [|x t]; try reflexivity. cbn. now rewrite H, IH. Qed.
Lemma sumr_spec y t w phi : sumr y t w phi = over_cos y t w phi.
Proof. unfold sumr, over_cos, minus_mean. apply (ysum_points (fun x => cos (w * x - phi))). Qed.
Lemma sumi_spec y t w phi : sumi y t w phi = over_sin y t w phi.
Proof. unfold sumi, over_sin, minus_mean. apply (ysum_points (fun x => sin (w * x - phi))). Qed.
Lemma sc_spec y t w phi : length y = length t -> sc t w phi = square_cos y t w phi.
Proof. intros L. unfold sc, square_cos. rewrite (tsum_points _ y t L). apply points_ext. intros. ring. Qed.
Lemma ss_spec y t w phi : length y = length t -> ss t w phi = square_sin y t w phi.
Proof. intros L. unfold ss, square_sin. rewrite (tsum_points _ y t L). apply points_ext. intros. ring. Qed.
(* the squared modulus is the Lomb-Scargle periodogram, with the phase of Scargle *)
Theorem slow_periodogram sgn y t f z : length y = length t -> f <> 0 -> sgn <> 0 -> slow_at sgn y t f = Some z ->
  exists phi, good_phase y t (2 * PI * f) phi /\ 0 < square_cos y t (2 * PI * f) phi /\ 0 < square_sin y t (2 * PI * f) phi /\
    cnorm2 z = INR (length y) / 2 * periodogram y t (2 * PI * f) phi.
Proof.
  intros L F G H. assert (W : f * 2 * PI = 2 * PI * f) by ring. exists (tau (f * 2 * PI) t). rewrite <- W.
  destruct (slow_some _ _ _ _ _ F H) as (A & B & _). split; [|split; [|split]].
  - unfold good_phase. rewrite <- (tau_good (f * 2 * PI) t) at 1. symmetry. apply (tsum_points (fun x => sin (f * 2 * PI * x - tau (f * 2 * PI) t) * cos (f * 2 * PI * x - tau (f * 2 * PI) t)) y t L).
  - now rewrite <- sc_spec.
  - now rewrite <- ss_spec.
  - rewrite (slow_power _ _ _ _ _ F G H). unfold periodogram. now rewrite sumr_spec, sumi_spec, (sc_spec y), (ss_spec y).
Qed.
(* defined unless all points have the same phase, or opposite ones *)
Lemma half_sums t w : let phi := tau w t in sc t w phi + ss t w phi = INR (length t) /\ ss t w phi <= sc t w phi /\ 0 <= ss t w phi.
Proof.
  intros phi. unfold sc, ss. rewrite cos2_sum, sin2_sum. destruct (tau_polar w t) as (r & R0 & C & S). fold phi in C, S.
  pose proof (sin2_cos2 (2 * phi)) as H. unfold Rsqr in H.
  assert (K : Cw w t * cos (2 * phi) + Sw w t * sin (2 * phi) = r).
  { rewrite C, S. transitivity (r * (sin (2 * phi) * sin (2 * phi) + cos (2 * phi) * cos (2 * phi))); [ring|rewrite H; ring]. }
  split; [lra|]. split; [lra|]. rewrite <- sin2_sum. apply tsum_pos. intros x. apply Rle_0_sqr.
Qed.
Lemma zero_sum f t : (forall x, 0 <= f x) -> tsum f t = 0 -> forall x, In x t -> f x = 0.
Proof.
  intros P. induction t as [|y t IH]; intros H x I; [contradiction|]. rewrite tsum_cons in H. pose proof (P y). pose proof (tsum_pos f t P).
  destruct I as [<-|I]; [lra|]. apply IH; [lra|exact I].
Qed.
Theorem slow_undefined sgn y t f : t <> [] -> f <> 0 ->
  slow_at sgn y t f = None <-> exists phi, forall x, In x t -> sin (2 * PI * f * x - phi) = 0.
Proof.
  intros T F. assert (W : 2 * PI * f = f * 2 * PI) by ring. rewrite W. set (w := f * 2 * PI).
  pose proof (half_sums t w) as (A & B & C). assert (N : 0 < INR (length t)) by (destruct t; [congruence|]; apply lt_0_INR; cbn; lia).
  split.
  - intros H. destruct (Req_dec (ss t w (tau w t)) 0) as [Z|Z].
    + exists (tau w t). intros x I. unfold ss in Z. pose proof (zero_sum _ _ (fun x => Rle_0_sqr (sin (w * x - tau w t))) Z x I) as K.
      apply Rmult_integral in K. now destruct K.
    + exfalso. rewrite (slow_defined sgn y t f F) in H; fold w; try discriminate; lra.
  - intros (phi & H). destruct (slow_at sgn y t f) as [z|] eqn:E; [|reflexivity]. exfalso.
    destruct (slow_some _ _ _ _ _ F E) as (_ & K & _). fold w in K.
    assert (Z : ss t w phi = 0). { unfold ss. clear - H. induction t as [|x t IH]; [reflexivity|]. rewrite tsum_cons, IH, (H x (or_introl eq_refl)); [ring|]. intros; apply H; now right. }
    assert (M : ss t w (tau w t) <= ss t w phi); [|lra].
    unfold ss. rewrite !sin2_sum. destruct (tau_polar w t) as (r & R0 & -> & ->). set (a := tau w t).
    pose proof (sin2_cos2 (2 * a)) as H1. unfold Rsqr in H1.
    assert (X : r * cos (2 * a) * cos (2 * a) + r * sin (2 * a) * sin (2 * a) = r).
    { transitivity (r * (sin (2 * a) * sin (2 * a) + cos (2 * a) * cos (2 * a))); [ring|rewrite H1; ring]. }
    assert (Y : r * cos (2 * a) * cos (2 * phi) + r * sin (2 * a) * sin (2 * phi) <= r).
    { replace (r * cos (2 * a) * cos (2 * phi) + r * sin (2 * a) * sin (2 * phi)) with (r * cos (2 * a - 2 * phi)) by (rewrite cos_minus; ring).
      pose proof (COS_bound (2 * a - 2 * phi)). nra. }
    lra.
Qed.
(* the power does not depend on the origin of the times *)
Lemma shift_sums w s t y e phi phi' : (forall x, cos (w * (x + s) - phi') = e * cos (w * x - phi) /\ sin (w * (x + s) - phi') = e * sin (w * x - phi)) ->
  let t' := map (fun x => x + s) t in
  sumr y t' w phi' = e * sumr y t w phi /\ sumi y t' w phi' = e * sumi y t w phi /\ sc t' w phi' = e * e * sc t w phi /\ ss t' w phi' = e * e * ss t w phi.
Proof.
  intros H t'. unfold sumr, sumi, sc, ss, t'. rewrite !ysum_shift, !tsum_shift. repeat split.
  - rewrite (ysum_ext _ (fun x => e * cos (w * x - phi) + 0 * 0)) by (intros x _; destruct (H x) as [-> _]; ring).
    rewrite (ysum_lin e 0 (fun x => cos (w * x - phi)) (fun _ => 0)). ring.
  - rewrite (ysum_ext _ (fun x => e * sin (w * x - phi) + 0 * 0)) by (intros x _; destruct (H x) as [_ ->]; ring).
    rewrite (ysum_lin e 0 (fun x => sin (w * x - phi)) (fun _ => 0)). ring.
  - rewrite (tsum_ext _ (fun x => (e * e) * (cos (w * x - phi) * cos (w * x - phi)) + 0 * 0)) by (intros x _; destruct (H x) as [-> _]; ring).
    rewrite (tsum_lin (e * e) 0 (fun x => cos (w * x - phi) * cos (w * x - phi)) (fun _ => 0)). ring.
  - rewrite (tsum_ext _ (fun x => (e * e) * (sin (w * x - phi) * sin (w * x - phi)) + 0 * 0)) by (intros x _; destruct (H x) as [_ ->]; ring).
    rewrite (tsum_lin (e * e) 0 (fun x => sin (w * x - phi) * sin (w * x - phi)) (fun _ => 0)). ring.
Qed.
Lemma flat_sums t w : Cw w t = 0 -> Sw w t = 0 -> tau w t = 0 /\ sc t w 0 = INR (length t) / 2 /\ ss t w 0 = INR (length t) / 2.
Proof.
  intros C S. unfold tau. rewrite C, S, angle_zero. split; [ring|]. unfold sc, ss. rewrite cos2_sum, sin2_sum, C, S. split; field.
Qed.
Lemma rotate_sums w s y t : let t' := map (fun x => x + s) t in
  sumr y t' w 0 = cos (w * s) * sumr y t w 0 + - sin (w * s) * sumi y t w 0 /\
  sumi y t' w 0 = sin (w * s) * sumr y t w 0 + cos (w * s) * sumi y t w 0.
Proof.
  intros t'. unfold sumr, sumi, t'. rewrite !ysum_shift, <- !ysum_lin. split; apply ysum_ext; intros x _.
  - replace (w * (x + s) - 0) with (w * s + (w * x - 0)) by ring. rewrite cos_plus. ring.
  - replace (w * (x + s) - 0) with (w * s + (w * x - 0)) by ring. rewrite sin_plus. ring.
Qed.
Theorem slow_shift sgn y t f s z : length y = length t -> f <> 0 -> sgn <> 0 -> slow_at sgn y t f = Some z ->
  exists z', slow_at sgn y (map (fun x => x + s) t) f = Some z' /\ cnorm2 z' = cnorm2 z.
Proof.
  intros L F G H. set (t' := map (fun x => x + s) t). set (w := f * 2 * PI).
  assert (LT : length t' = length t) by (unfold t'; apply map_length).
  pose proof (slow_power _ _ _ _ _ F G H) as P. destruct (slow_some _ _ _ _ _ F H) as (A & B & _). fold w in A, B, P.
  enough (K : 0 < sc t' w (tau w t') /\ 0 < ss t' w (tau w t') /\
     sumr y t' w (tau w t') ^ 2 / sc t' w (tau w t') + sumi y t' w (tau w t') ^ 2 / ss t' w (tau w t') =
     sumr y t w (tau w t) ^ 2 / sc t w (tau w t) + sumi y t w (tau w t) ^ 2 / ss t w (tau w t)).
  { destruct K as (A' & B' & K). eexists. split; [apply (slow_defined sgn y t' f F A' B')|].
    rewrite (slow_power sgn y t' f _ F G (slow_defined sgn y t' f F A' B')). fold w. now rewrite K, P. }
  destruct (Req_dec (Cw w t) 0) as [C0|C0]; [destruct (Req_dec (Sw w t) 0) as [S0|S0]|].
  - assert (C' : Cw w t' = 0) by (unfold t'; rewrite shift_C, C0, S0; ring).
    assert (S' : Sw w t' = 0) by (unfold t'; rewrite shift_S, C0, S0; ring).
    destruct (flat_sums _ _ C0 S0) as (T & E1 & E2). destruct (flat_sums _ _ C' S') as (T' & E1' & E2').
    rewrite T, E1 in A. rewrite T, T', E1, E2, E1', E2', LT. repeat split; try exact A.
    destruct (rotate_sums w s y t) as [X Y]. fold t' in X, Y. rewrite X, Y. pose proof (sin2_cos2 (w * s)) as U. unfold Rsqr in U.
    transitivity ((sin (w * s) * sin (w * s) + cos (w * s) * cos (w * s)) * (sumr y t w 0 ^ 2 + sumi y t w 0 ^ 2) / (INR (length t) / 2)); [field; lra|].
    rewrite U. field. lra.
  - destruct (tau_shift w s t (or_intror S0)) as (e & E & X). fold t' in X.
    destruct (shift_sums w s t y e (tau w t) (tau w t') X) as (X1 & X2 & X3 & X4). fold t' in X1, X2, X3, X4.
    assert (EE : e * e = 1) by (destruct E; subst; ring). rewrite X1, X2, X3, X4, EE.
    split; [lra|]. split; [lra|]. replace ((e * sumr y t w (tau w t)) ^ 2) with (e * e * sumr y t w (tau w t) ^ 2) by ring.
    replace ((e * sumi y t w (tau w t)) ^ 2) with (e * e * sumi y t w (tau w t) ^ 2) by ring. rewrite EE. field. lra.
  - destruct (tau_shift w s t (or_introl C0)) as (e & E & X). fold t' in X.
    destruct (shift_sums w s t y e (tau w t) (tau w t') X) as (X1 & X2 & X3 & X4). fold t' in X1, X2, X3, X4.
    assert (EE : e * e = 1) by (destruct E; subst; ring). rewrite X1, X2, X3, X4, EE.
    split; [lra|]. split; [lra|]. replace ((e * sumr y t w (tau w t)) ^ 2) with (e * e * sumr y t w (tau w t) ^ 2) by ring.
    replace ((e * sumi y t w (tau w t)) ^ 2) with (e * e * sumi y t w (tau w t) ^ 2) by ring. rewrite EE. field. lra.
Qed.
