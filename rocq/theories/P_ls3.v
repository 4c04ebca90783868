(* P_ls3.v: lists of frequencies, lsft_fast, cross spectra. *)
From Verif Require Import Np M_utils Cplx M_fourier M_norm M_ls S_fourier S_ls P_pcolor2 P_lag P_timmer P_norm P_dft P_seg_cut P_helpers Lib P_ls P_ls2.
From Coq Require Import QArith Qreals Reals List Arith ZArith Lra Lia.
Import ListNotations.
Open Scope R_scope.

Lemma nonneg_all l : (forall f, In f l -> 0 <= f) -> nonneg_freqs l = l.
Proof.
  induction l as [|f l IH]; intros H; [reflexivity|]. unfold nonneg_freqs in *. cbn [filter]. destruct (Rle_dec 0 f) as [_|N]; [|exfalso; apply N, H; now left].
  now rewrite IH by (intros; apply H; now right).
Qed.
Theorem slow_list sgn y t freqs : t <> [] -> length y = length t -> (forall f, In f freqs -> 0 <= f) -> lsft_slow sgn y t freqs = Ok (map (slow_at sgn y t) freqs).
Proof. intros T L F. unfold lsft_slow. rewrite L, Nat.eqb_refl, nonneg_all by exact F. now destruct t. Qed.
Theorem slow_list_neg sgn y t freqs l : t <> [] -> lsft_slow sgn y t freqs = Ok l ->
  length l = length (filter (fun f => if Rle_dec 0 f then true else false) freqs) /\ length y = length t.
Proof.
  intros T. unfold lsft_slow. destruct (Nat.eqb (length y) (length t)) eqn:E; [|discriminate]. destruct t; [congruence|].
  intros H. assert (l = map (slow_at sgn y (r :: t)) (nonneg_freqs freqs)) as -> by congruence. rewrite map_length. split; [reflexivity|]. now apply Nat.eqb_eq.
Qed.
Lemma combine_nth_map {A B} (l : list A) (l' : list B) i a b : nth_error l i = Some a -> nth_error l' i = Some b -> nth_error (combine l l') i = Some (a, b).
Proof.
  revert l l'. induction i as [|i IH]; intros [|x l] [|y l'] H1 H2; try discriminate; cbn in *; [congruence|]. now apply IH.
Qed.
Lemma nth_seq_map {A} (f : nat -> A) n i : (i < n)%nat -> nth_error (map f (seq 0 n)) i = Some (f i).
Proof. intros H. rewrite nth_error_map, (nth_error_nth' _ 0%nat) by (now rewrite seq_length). now rewrite seq_nth. Qed.
(* the list lsft_fast returns with exact sums *)
Definition fast_exact (sgn : R) (y t : list R) (N : nat) (t0 f : R) : option cx :=
  fast_one sgn (length y) N (rlsum (minus_mean y)) t0
    (f, (points (fun v x => v * sin (2 * PI * (1 * f) * x)) (minus_mean y) t, points (fun v x => v * cos (2 * PI * (1 * f) * x)) (minus_mean y) t),
     ((points (fun v x => v * sin (2 * PI * (2 * f) * x)) (map (fun _ => 1 / INR (length y)) y) t, points (fun v x => v * cos (2 * PI * (2 * f) * x)) (map (fun _ => 1 / INR (length y)) y) t),
      (points (fun v x => v * sin (2 * PI * (2 * f) * x)) (map (fun _ => 1) y) t, points (fun v x => v * cos (2 * PI * (2 * f) * x)) (map (fun _ => 1) y) t))).
Lemma fast_list sgn y t t0 ts f0 df N : t = t0 :: ts -> (2 <= N)%nat -> 0 <= f0 -> 0 <= df ->
  exists l, lsft_fast exact_trig sgn y t (map (fun j => f0 + INR j * df) (seq 0 N)) = Ok l /\ length l = N /\
    forall i, (i < N)%nat -> nth_error l i = Some (fast_exact sgn y t N t0 (f0 + INR i * df)).
Proof.
  intros T HN F0 DF. set (freqs := map (fun j => f0 + INR j * df) (seq 0 N)).
  assert (NF : nonneg_freqs freqs = freqs). { apply nonneg_all. intros f I. apply in_map_iff in I. destruct I as (j & <- & _). pose proof (pos_INR j). nra. }
  assert (LF : length freqs = N) by (unfold freqs; now rewrite map_length, seq_length).
  unfold lsft_fast. rewrite NF. destruct freqs as [|g0 [|g1 gs]] eqn:E; [cbn in LF; lia|cbn in LF; lia|]. rewrite <- E in *.
  assert (G0 : g0 = f0 /\ g1 = f0 + df).
  { unfold freqs in E. destruct N as [|[|N]]; [lia|lia|]. cbn [seq map] in E. injection E as <- <- _. cbn [INR]. split; ring. }
  destruct G0 as [-> ->]. replace (f0 + df - f0) with df by ring. rewrite T. eexists. split; [reflexivity|]. rewrite <- T.
  set (L := combine (combine freqs _) _). assert (N1 : forall i, (i < N)%nat -> nth_error L i = Some
    (f0 + INR i * df, (points (fun v x => v * sin (2 * PI * (1 * (f0 + INR i * df)) * x)) (minus_mean y) t, points (fun v x => v * cos (2 * PI * (1 * (f0 + INR i * df)) * x)) (minus_mean y) t),
     ((points (fun v x => v * sin (2 * PI * (2 * (f0 + INR i * df)) * x)) (map (fun _ => 1 / INR (length y)) y) t, points (fun v x => v * cos (2 * PI * (2 * (f0 + INR i * df)) * x)) (map (fun _ => 1 / INR (length y)) y) t),
      (points (fun v x => v * sin (2 * PI * (2 * (f0 + INR i * df)) * x)) (map (fun _ => 1) y) t, points (fun v x => v * cos (2 * PI * (2 * (f0 + INR i * df)) * x)) (map (fun _ => 1) y) t)))).
  { intros i Hi. unfold L. rewrite LF. unfold pairs, exact_trig. cbn [fst snd].
    repeat apply combine_nth_map; try (now apply nth_seq_map with (f := fun j => f0 + INR j * df));
    match goal with |- nth_error (map ?f (seq 0 N)) i = _ => exact (nth_seq_map f N i Hi) end. }
  split.
  - rewrite map_length. unfold L. rewrite !combine_length. unfold pairs, exact_trig. cbn [fst snd]. rewrite !combine_length, !map_length, !seq_length, LF. lia.
  - intros i Hi. rewrite nth_error_map, N1 by exact Hi. cbn [option_map]. rewrite LF. reflexivity.
Qed.
Theorem fast_even sgn y t0 dt f0 df N n : length y = n -> (2 <= N)%nat -> 0 <= f0 -> 0 <= df -> dt <> 0 -> (0 < n)%nat ->
  exists l, lsft_fast exact_trig sgn y (even t0 dt n) (map (fun j => f0 + INR j * df) (seq 0 N)) = Ok l /\ length l = N /\
    forall i k, (i < N)%nat -> (0 < k < n)%nat -> (2 * k <> n)%nat -> f0 + INR i * df = INR k / (INR n * dt) ->
      nth_error l i = Some (slow_at sgn y (even t0 dt n) (INR k / (INR n * dt))).
Proof.
  intros L HN F0 DF D P. assert (T : exists ts, even t0 dt n = t0 :: ts).
  { destruct n; [lia|]. unfold even. cbn [seq map]. eexists. f_equal. cbn. ring. }
  destruct T as (ts & T). destruct (fast_list sgn y (even t0 dt n) t0 ts f0 df N T HN F0 DF) as (l & E & LL & H). exists l. split; [exact E|]. split; [exact LL|].
  intros i k Hi K K2 F. rewrite (H i Hi). f_equal. rewrite F. unfold fast_exact. apply (even_fast n k dt K K2 D); [lia|exact L|reflexivity].
Qed.
(* ---- witnesses ---- *)
Lemma cos_3half : cos (2 * PI * (1 / 4)) = 0.
Proof. replace (2 * PI * (1 / 4)) with (PI / 2) by field. apply cos_PI2. Qed.
Definition w_t : list R := [0; 1 / 4; 1 / 2].
Definition w_y : list R := [1; 0; -1].
Lemma w_mean : minus_mean w_y = w_y.
Proof. unfold minus_mean, w_y, rlsum. cbn [map length fold_right INR]. repeat f_equal; field. Qed.
Lemma sq2 : sqrt 2 * sqrt 2 = 2.
Proof. apply sqrt_sqrt. lra. Qed.
Lemma w_slow : exists z, slow_at 1 w_y w_t 1 = Some z /\ cnorm2 z = 3.
Proof.
  assert (C : Cw (1 * 2 * PI) w_t = 1 /\ Sw (1 * 2 * PI) w_t = 0).
  { unfold Cw, Sw, w_t, tsum. cbn [map rlsum fold_right].
    replace (2 * (1 * 2 * PI) * 0) with 0 by ring. replace (2 * (1 * 2 * PI) * (1 / 4)) with PI by field. replace (2 * (1 * 2 * PI) * (1 / 2)) with (2 * PI) by field.
    rewrite cos_0, sin_0, cos_PI, sin_PI, cos_2PI, sin_2PI. split; ring. }
  destruct C as [C S]. assert (T : tau (1 * 2 * PI) w_t = 0).
  { unfold tau. rewrite C, S. replace (1, 0) with (1 * cos 0, 1 * sin 0) by (rewrite cos_0, sin_0; f_equal; ring). rewrite angle_polar; [ring|lra|pose proof PI_RGT_0; lra]. }
  assert (SC : sc w_t (1 * 2 * PI) 0 = 2) by (unfold sc; rewrite cos2_sum, C, S, Rmult_0_r, cos_0; cbn; field).
  assert (SS : ss w_t (1 * 2 * PI) 0 = 1) by (unfold ss; rewrite sin2_sum, C, S, Rmult_0_r, cos_0; cbn; field).
  assert (RS : sumr w_y w_t (1 * 2 * PI) 0 = 2 /\ sumi w_y w_t (1 * 2 * PI) 0 = 0).
  { unfold sumr, sumi. rewrite w_mean. unfold w_y, w_t, ysum. cbn [combine map rlsum fold_right fst snd].
    replace (1 * 2 * PI * 0 - 0) with 0 by ring. replace (1 * 2 * PI * (1 / 2) - 0) with PI by field. rewrite cos_0, sin_0, cos_PI, sin_PI. split; ring. }
  eexists. split; [apply slow_defined; rewrite ?T, ?SC, ?SS; lra|].
  rewrite (slow_power 1 w_y w_t 1 _ ltac:(lra) ltac:(lra) (slow_defined 1 w_y w_t 1 ltac:(lra) ltac:(rewrite T, SC; lra) ltac:(rewrite T, SS; lra))).
  rewrite T, SC, SS. destruct RS as [-> ->]. cbn [length w_y INR]. field.
Qed.
Lemma w_fast N : (0 < N)%nat -> exists z, fast_exact 1 w_y w_t N 0 1 = Some z /\ cnorm2 z = 4.
Proof.
  intros HN. assert (P : 0 < INR N) by now apply lt_0_INR. unfold fast_exact. rewrite w_mean. unfold w_y, w_t. cbn [map points length rlsum fold_right INR].
  replace (2 * PI * (1 * 1) * 0) with 0 by ring. replace (2 * PI * (1 * 1) * (1 / 4)) with (PI / 2) by field. replace (2 * PI * (1 * 1) * (1 / 2)) with PI by field.
  replace (2 * PI * (2 * 1) * 0) with 0 by ring. replace (2 * PI * (2 * 1) * (1 / 4)) with PI by field. replace (2 * PI * (2 * 1) * (1 / 2)) with (2 * PI) by field.
  rewrite cos_0, sin_0, cos_PI, sin_PI, cos_2PI, sin_2PI, cos_PI2, sin_PI2.
  unfold fast_one. destruct (Req_EM_T 1 0) as [X|_]; [lra|].
  match goal with |- context[angle ?z] => assert (A : angle z = PI / 2) end.
  { match goal with |- angle (?a, ?b) = _ => replace a with (1 / 3 * cos (PI / 2)) by (rewrite cos_PI2; field); replace b with (1 / 3 * sin (PI / 2)) by (rewrite sin_PI2; field) end.
    apply angle_polar; [lra|]. pose proof PI_RGT_0. lra. }
  rewrite A. replace (1 / 2 * (PI / 2)) with (PI / 4) by field. replace (2 * (PI / 4)) with (PI / 2) by field. rewrite cos_PI2, sin_PI2, cos_PI4, sin_PI4.
  unfold over_sqrt. match goal with |- context[Rlt_dec 0 ?x] => replace x with (1 / 2 * INR N) by field; destruct (Rlt_dec 0 (1 / 2 * INR N)) as [_|Y]; [|lra] end.
  match goal with |- context[Rlt_dec 0 ?x] => replace x with (1 / 2 * INR N) by field; destruct (Rlt_dec 0 (1 / 2 * INR N)) as [_|Y]; [|lra] end.
  cbn [both omul]. eexists. split; [reflexivity|]. rewrite cnorm2_mul, unit_norm.
  assert (QN : sqrt (1 / 2 * INR N) = sqrt (1 / 2) * sqrt (INR N)) by (apply sqrt_mult; lra). rewrite QN.
  assert (Q1 : sqrt (1 / 2) <> 0) by (apply Rgt_not_eq, sqrt_lt_R0; lra). assert (Q2 : sqrt (INR N) <> 0) by (apply Rgt_not_eq, sqrt_lt_R0; lra).
  assert (Q3 : sqrt 2 <> 0) by (apply Rgt_not_eq, sqrt_lt_R0; lra). rewrite rsign_pos by lra.
  unfold cnorm2, re, im. cbn [fst snd]. transitivity (8 / (sqrt 2 * sqrt 2)); [field; auto|]. rewrite sq2. field.
Qed.
Lemma w_fast_refuted : exists sgn y t freqs l1 l2 a b, lsft_fast exact_trig sgn y t freqs = Ok l1 /\ lsft_slow sgn y t freqs = Ok l2 /\
  length freqs = length t /\ nth_error l1 0 = Some (Some a) /\ nth_error l2 0 = Some (Some b) /\ cnorm2 a <> cnorm2 b.
Proof.
  destruct (fast_list 1 w_y w_t 0 [1 / 4; 1 / 2] 1 1 3 eq_refl ltac:(lia) ltac:(lra) ltac:(lra)) as (l & E & L & H).
  destruct (w_fast 3 ltac:(lia)) as (a & A1 & A2). destruct w_slow as (b & B1 & B2).
  assert (F : forall f, In f (map (fun j => 1 + INR j * 1) (seq 0 3)) -> 0 <= f) by (intros f I; apply in_map_iff in I; destruct I as (j & <- & _); pose proof (pos_INR j); lra).
  exists 1, w_y, w_t, (map (fun j => 1 + INR j * 1) (seq 0 3)), l. do 3 eexists. split; [exact E|]. split; [apply slow_list; [discriminate|reflexivity|exact F]|]. split; [reflexivity|]. split; [|split].
  - rewrite (H 0%nat) by lia. cbn [INR]. replace (1 + 0 * 1) with 1 by ring. rewrite A1. reflexivity.
  - cbn [seq map nth_error INR]. replace (1 + 0 * 1) with 1 by ring. rewrite B1. reflexivity.
  - rewrite A2, B2. lra.
Qed.
(* the number of frequencies changes the result at one of them *)
Definition v_t : list R := [0; 1 / 8].
Definition v_y : list R := [1; -1].
Lemma v_mean : minus_mean v_y = v_y.
Proof. unfold minus_mean, v_y, rlsum. cbn [map length fold_right INR]. repeat f_equal; field. Qed.
Lemma sqrt2_bounds : 1 < sqrt 2 < 3 / 2.
Proof. pose proof sq2. pose proof (sqrt_pos 2). split; nra. Qed.
Lemma v_fast N : (2 <= N)%nat -> exists z, fast_exact 1 v_y v_t N 0 1 = Some z /\ cnorm2 z = INR N * (2 - sqrt 2) / (INR N - sqrt 2).
Proof.
  intros HN. assert (P : 2 <= INR N) by (change 2 with (INR 2); now apply le_INR). pose proof sqrt2_bounds as SB.
  unfold fast_exact. rewrite v_mean. unfold v_y, v_t. cbn [map points length rlsum fold_right INR].
  replace (2 * PI * (1 * 1) * 0) with 0 by ring. replace (2 * PI * (1 * 1) * (1 / 8)) with (PI / 4) by field.
  replace (2 * PI * (2 * 1) * 0) with 0 by ring. replace (2 * PI * (2 * 1) * (1 / 8)) with (PI / 2) by field.
  rewrite cos_0, sin_0, cos_PI2, sin_PI2.
  unfold fast_one. destruct (Req_EM_T 1 0) as [X|_]; [lra|].
  match goal with |- context[angle ?z] => assert (A : angle z = PI / 4) end.
  { match goal with |- angle (?a, ?b) = _ => replace a with (sqrt 2 / 2 * cos (PI / 4)); [replace b with (sqrt 2 / 2 * sin (PI / 4))|] end.
    - apply angle_polar; [lra|]. pose proof PI_RGT_0. lra.
    - rewrite sin_PI4. pose proof sq2. field. lra.
    - rewrite cos_PI4. pose proof sq2. field. lra. }
  rewrite A. set (h := 1 / 2 * (PI / 4)). assert (H2 : PI / 4 = 2 * h) by (unfold h; field).
  assert (CC : cos (2 * h) = sqrt 2 / 2). { rewrite <- H2, cos_PI4. pose proof sq2 as Q. apply Rmult_eq_reg_r with (sqrt 2); [|lra]. field_simplify; [|lra]. change (sqrt 2 ^ 2) with (sqrt 2 * (sqrt 2 * 1)). rewrite Rmult_1_r, Q. field. }
  assert (CS : sin (2 * h) = sqrt 2 / 2). { rewrite <- H2, sin_PI4, <- cos_PI4, H2. exact CC. }
  assert (S2 : sin h * sin h = (2 - sqrt 2) / 4). { pose proof (cos_2a_sin h) as K. rewrite CC in K. lra. }
  rewrite H2. rewrite CC, CS.
  assert (KC : cos (2 * h) * cos h + sin (2 * h) * sin h = cos h) by (rewrite <- cos_minus; f_equal; ring).
  assert (KS : sin (2 * h) * cos h - cos (2 * h) * sin h = sin h) by (rewrite <- sin_minus; f_equal; ring). rewrite CC, CS in KC, KS.
  unfold over_sqrt. match goal with |- context[Rlt_dec 0 ?x] => replace x with (1 / 2 * (INR N + sqrt 2)) by field; destruct (Rlt_dec 0 (1 / 2 * (INR N + sqrt 2))) as [_|Y]; [|lra] end.
  match goal with |- context[Rlt_dec 0 ?x] => replace x with (1 / 2 * (INR N - sqrt 2)) by field; destruct (Rlt_dec 0 (1 / 2 * (INR N - sqrt 2))) as [_|Y]; [|lra] end.
  cbn [both omul]. eexists. split; [reflexivity|]. rewrite cnorm2_mul, unit_norm. rewrite rsign_pos by lra.
  unfold cnorm2, re, im. cbn [fst snd].
  match goal with |- (?a / ?q * (?a / ?q) + ?b / ?r * (?b / ?r)) * 1 = _ => assert (ZA : a = 0); [|assert (ZB : b = - 2 * sin h * (sqrt (1 / 2) * sqrt (INR N)))] end.
  - match goal with |- _ * ?x = 0 => replace x with 0; [ring|] end. lra.
  - match goal with |- _ * ?x = _ => replace x with (- 2 * sin h); [ring|] end. lra.
  - rewrite ZA, ZB. assert (Q : sqrt (1 / 2 * (INR N - sqrt 2)) * sqrt (1 / 2 * (INR N - sqrt 2)) = 1 / 2 * (INR N - sqrt 2)) by (apply sqrt_sqrt; lra).
    assert (Q0 : 0 < sqrt (1 / 2 * (INR N - sqrt 2))) by (apply sqrt_lt_R0; lra). assert (Q1 : 0 < sqrt (1 / 2 * (INR N + sqrt 2))) by (apply sqrt_lt_R0; lra).
    assert (H1 : sqrt (1 / 2) * sqrt (1 / 2) = 1 / 2) by (apply sqrt_sqrt; lra). assert (HNN : sqrt (INR N) * sqrt (INR N) = INR N) by (apply sqrt_sqrt; lra).
    transitivity (4 * (sin h * sin h) * ((sqrt (1 / 2) * sqrt (1 / 2)) * (sqrt (INR N) * sqrt (INR N))) / (sqrt (1 / 2 * (INR N - sqrt 2)) * sqrt (1 / 2 * (INR N - sqrt 2)))); [field; lra|].
    rewrite Q, H1, HNN, S2. field. lra.
Qed.
Lemma v_fast_refuted : exists sgn y t freqs more l1 l2 a b, lsft_fast exact_trig sgn y t freqs = Ok l1 /\ lsft_fast exact_trig sgn y t (freqs ++ more) = Ok l2 /\
  nth_error l1 0 = Some (Some a) /\ nth_error l2 0 = Some (Some b) /\ cnorm2 a <> cnorm2 b.
Proof.
  destruct (fast_list 1 v_y v_t 0 [1 / 8] 1 1 2 eq_refl ltac:(lia) ltac:(lra) ltac:(lra)) as (l & E & L & H).
  destruct (fast_list 1 v_y v_t 0 [1 / 8] 1 1 3 eq_refl ltac:(lia) ltac:(lra) ltac:(lra)) as (l' & E' & L' & H').
  destruct (v_fast 2 ltac:(lia)) as (a & A1 & A2). destruct (v_fast 3 ltac:(lia)) as (b & B1 & B2).
  exists 1, v_y, v_t, (map (fun j => 1 + INR j * 1) (seq 0 2)), [1 + INR 2 * 1], l, l'. do 2 eexists. split; [exact E|]. split; [exact E'|]. split; [|split].
  - rewrite (H 0%nat) by lia. cbn [INR]. replace (1 + 0 * 1) with 1 by ring. rewrite A1. reflexivity.
  - rewrite (H' 0%nat) by lia. cbn [INR]. replace (1 + 0 * 1) with 1 by ring. rewrite B1. reflexivity.
  - rewrite A2, B2. cbn [INR]. pose proof sqrt2_bounds as SB. pose proof sq2 as Q. intros C.
    assert (C' : (1 + 1) * (2 - sqrt 2) * (1 + 1 + 1 - sqrt 2) = (1 + 1 + 1) * (2 - sqrt 2) * (1 + 1 - sqrt 2)).
    { apply Rmult_eq_reg_r with (/ ((1 + 1 - sqrt 2) * (1 + 1 + 1 - sqrt 2))); [|apply Rinv_neq_0_compat, Rmult_integral_contrapositive; lra].
      transitivity ((1 + 1) * (2 - sqrt 2) / (1 + 1 - sqrt 2)); [field; lra|]. rewrite C. field. lra. }
    nra.
Qed.
