(* T_window.v: property theorems about windows, excess variance and small helpers (C94, C95, C96). *)
From Coq Require Import Reals.
From Verif Require Import Np Lib M_utils M_window S_window P_window M_exvar S_exvar P_exvar.
From Coq Require Import Lra Lia.
Open Scope R_scope.

(* ---------- C94: windows ---------- *)
Theorem C94_length : forall N w l,
  create_window N w = Ok l -> length l = Z.to_nat (Z.abs N).
Proof. exact window_length. Qed.
Print Assumptions C94_length.
Theorem C94_available : forall N w,
  w <> WOther -> exists l, create_window N w = Ok l.
Proof. exact window_total. Qed.
Print Assumptions C94_available.
Theorem C94_negative : forall N w,
  create_window (- N) w = create_window N w.
Proof. exact window_negative. Qed.
Print Assumptions C94_negative.
Theorem C94_unknown_error : forall N,
  create_window N WOther = Err ValueError.
Proof. exact window_unknown. Qed.
Print Assumptions C94_unknown_error.
Theorem C94_cosine_windows : forall N w a,
  (2 <= N)%nat -> cosine_coefficients w = Some a ->
  exists l, create_window (Z.of_nat N) w = Ok l /\ window_is l N (cosine_sum a N).
Proof. exact cosine_windows. Qed.
Print Assumptions C94_cosine_windows.
Theorem C94_welch : forall N,
  (2 <= N)%nat -> exists l, create_window (Z.of_nat N) WWelch = Ok l /\
  window_is l N (fun n => 1 - (2 * INR n / INR (N - 1) - 1) ^ 2).
Proof. exact welch_window. Qed.
Print Assumptions C94_welch.
Theorem C94_symmetric_partial : forall N w l,
  (2 <= N)%nat -> w <> WOther -> (N mod 2 = 1)%nat \/ (w <> WTriangular /\ w <> WParzen) ->
  create_window (Z.of_nat N) w = Ok l -> exists v, window_is l N v /\ symmetric N v.
Proof. exact window_symmetric. Qed.
Print Assumptions C94_symmetric_partial.
Theorem C94_range_partial : forall N w l,
  (2 <= N)%nat -> w <> WFlatTop -> w <> WOther -> create_window (Z.of_nat N) w = Ok l ->
  exists v, window_is l N v /\ forall n, (n < N)%nat -> 0 <= v n <= 1.
Proof. exact window_range. Qed.
Print Assumptions C94_range_partial.
Theorem C94_centre : forall h w l,
  (1 <= h)%nat -> w <> WBlackmann -> w <> WFlatTop -> w <> WOther ->
  create_window (Z.of_nat (2 * h + 1)) w = Ok l -> nth_error l h = Some (Some 1).
Proof. exact window_centre. Qed.
Print Assumptions C94_centre.
Theorem C94_ends : forall N w l,
  (2 <= N)%nat -> create_window (Z.of_nat N) w = Ok l ->
  (w = WHanning \/ w = WWelch -> nth_error l 0 = Some (Some 0) /\ nth_error l (N - 1) = Some (Some 0)) /\
  (w = WHamming -> nth_error l 0 = Some (Some (8 / 100)) /\ nth_error l (N - 1) = Some (Some (8 / 100))).
Proof. exact window_ends. Qed.
Print Assumptions C94_ends.
Theorem C94_parzen_partial : forall N p,
  (2 <= N)%nat -> ((N + 2) / 2 = 2 * p + 1)%nat -> exists l, create_window (Z.of_nat N) WParzen = Ok l /\
  window_is l N (fun n => parzen (INR (2 * p)) (INR n - INR (2 * p))).
Proof. exact parzen_exact. Qed.
Print Assumptions C94_parzen_partial.
Theorem C94_one_point_error : forall w,
  w <> WUniform -> w <> WTriangular -> w <> WOther -> create_window 1 w = Ok [None].
Proof. exact window_one_point. Qed.
Print Assumptions C94_one_point_error.
Theorem C94_triangular_refuted : 
  exists N l v, create_window (Z.of_nat N) WTriangular = Ok l /\ window_is l N v /\ ~ symmetric N v.
Proof. exact triangular_even_refuted. Qed.
Print Assumptions C94_triangular_refuted.
Theorem C94_parzen_symmetric_refuted : 
  exists N l v, create_window (Z.of_nat N) WParzen = Ok l /\ window_is l N v /\ ~ symmetric N v.
Proof. exact parzen_even_refuted. Qed.
Print Assumptions C94_parzen_symmetric_refuted.
Theorem C94_parzen_formula_refuted : 
  exists N l v, create_window (Z.of_nat N) WParzen = Ok l /\ window_is l N v /\ (N = 7)%nat /\
  ~ v 1%nat = parzen 3 (-2).
Proof. exact parzen_formula_refuted. Qed.
Print Assumptions C94_parzen_formula_refuted.
Theorem C94_flat_top_refuted : 
  exists N l v n, create_window (Z.of_nat N) WFlatTop = Ok l /\ window_is l N v /\ (n < N)%nat /\ 4 < v n.
Proof. exact flat_top_range_refuted. Qed.
Print Assumptions C94_flat_top_refuted.

Example C94_nonvacuous : exists l, create_window (-5) WParzen = Ok l /\ length l = 5%nat /\ nth_error l 2 = Some (Some 1) /\
  ((5 + 2) / 2 = 2 * 1 + 1)%nat /\ parzen 2 1 = 1 / 4.
Proof.
  destruct (window_total (-5) WParzen) as [l E]; [discriminate|]. exists l. split; [exact E|]. split; [exact (window_length _ _ _ E)|].
  split. { rewrite (window_negative 5) in E. exact (window_centre 2 WParzen l ltac:(lia) ltac:(discriminate) ltac:(discriminate) ltac:(discriminate) E). }
  split; [reflexivity|]. unfold parzen. rewrite Rabs_R1. destruct (Rle_dec 1 (2 / 2)); lra.
Qed.

(* ---------- C95: excess variance ---------- *)
Theorem C95_excess : forall x e,
  x <> [] -> average x <> 0 -> 0 <= excess x e ->
  let f := sqrt (excess x e / average x ^ 2) in
  excess_variance x e XFvar = Some (Some f, if Req_EM_T (excess x e) 0 then None else Some (fractional_error x e f)) /\
  excess_variance x e XNormXs = Some (Some (excess x e / average x ^ 2), Some (normalized_error x e f)) /\
  excess_variance x e XNone = Some (Some (excess x e), Some (average x ^ 2 * normalized_error x e f)).
Proof. exact exvar_main. Qed.
Print Assumptions C95_excess.
Theorem C95_no_excess : forall x e,
  x <> [] -> average x <> 0 -> excess x e < 0 ->
  excess_variance x e XFvar = Some (None, None) /\
  excess_variance x e XNormXs = Some (Some (excess x e / average x ^ 2), None) /\
  excess_variance x e XNone = Some (Some (excess x e), None).
Proof. exact exvar_negative. Qed.
Print Assumptions C95_no_excess.
Theorem C95_zero_mean : forall x e,
  x <> [] -> average x = 0 ->
  excess_variance x e XFvar = Some (None, None) /\ excess_variance x e XNormXs = Some (None, None) /\ excess_variance x e XNone = Some (Some (excess x e), None).
Proof. exact exvar_zero_mean. Qed.
Print Assumptions C95_zero_mean.
Theorem C95_units : forall c x e n,
  0 < c -> x <> [] -> n <> XNone -> excess_variance (map (Rmult c) x) (map (Rmult c) e) n = excess_variance x e n.
Proof. exact exvar_scale. Qed.
Print Assumptions C95_units.
Theorem C95_unknown_error : forall x e,
  excess_variance x e XOther = None.
Proof. exact exvar_unknown. Qed.
Print Assumptions C95_unknown_error.

Example C95_nonvacuous : [1; 3] <> [] /\ average [1; 3] = 2 /\ excess [1; 3] [1 / 2; 1 / 2] = 3 / 4.
Proof. split; [discriminate|]. unfold excess, average. simpl. split; field. Qed.

(* ---------- C96: small helpers ---------- *)
Theorem C96_standard_error : forall x,
  (2 <= length x)%nat -> standard_error x (average x) = Some (error_of_mean x).
Proof. exact standard_error_main. Qed.
Print Assumptions C96_standard_error.
Theorem C96_standard_error_single : forall x m,
  standard_error [x] m = None.
Proof. exact standard_error_single. Qed.
Print Assumptions C96_standard_error_single.
Theorem C96_poisson_errors : forall conf counts,
  Forall (fun c => (0 <= c)%Z) counts ->
  poisson_symmetrical_errors conf counts = Ok (map (fun c => (Rabs (fst (conf c) - IZR c) + Rabs (snd (conf c) - IZR c)) / 2) counts).
Proof. exact poisson_errors_main. Qed.
Print Assumptions C96_poisson_errors.
Theorem C96_poisson_negative_error : forall conf counts c,
  In c counts -> (c < 0)%Z -> poisson_symmetrical_errors conf counts = Err ValueError.
Proof. exact poisson_errors_negative. Qed.
Print Assumptions C96_poisson_negative_error.
Theorem C96_heaviside_partial : forall x,
  (0 < x -> heaviside x = 1) /\ (x < 0 -> heaviside x = 0).
Proof. exact heaviside_main. Qed.
Print Assumptions C96_heaviside_partial.
Theorem C96_heaviside_refuted : 
  exists x, ~ 0 < x /\ heaviside x = 1.
Proof. exact heaviside_refuted. Qed.
Print Assumptions C96_heaviside_refuted.
Theorem C96_all_finite : forall A (l : list (option A)),
  isallfinite l = true <-> forall v, In v l -> v <> None.
Proof. exact @isallfinite_iff. Qed.
Print Assumptions C96_all_finite.
Theorem C96_iterables_partial : forall l0 l1,
  length l0 = length l1 ->
  iterables_close l0 l1 = true <-> Forall2 (fun a b => (Qabs.Qabs (a - b) <= (1 # 100000000) + (1 # 100000) * Qabs.Qabs b)%Q) l0 l1.
Proof. exact iterables_close_iff. Qed.
Print Assumptions C96_iterables_partial.
Theorem C96_iterables_refuted : 
  exists l0 l1, length l0 <> length l1 /\ iterables_close l0 l1 = true.
Proof. exact iterables_close_refuted. Qed.
Print Assumptions C96_iterables_refuted.

Example C96_nonvacuous : Forall (fun c => (0 <= c)%Z) [3; 0; 3]%Z /\
  poisson_symmetrical_errors (fun c => (IZR c - 1, IZR c + 2)) [3; 0; 3]%Z = Ok [3 / 2; 3 / 2; 3 / 2].
Proof.
  assert (H : Forall (fun c => (0 <= c)%Z) [3; 0; 3]%Z) by (repeat constructor; lia). split; [exact H|].
  rewrite poisson_errors_main by exact H. simpl. 
  assert (E : forall z, (Rabs (IZR z - 1 - IZR z) + Rabs (IZR z + 2 - IZR z)) / 2 = 3 / 2).
  { intros z. replace (IZR z - 1 - IZR z) with (-1) by ring. replace (IZR z + 2 - IZR z) with 2 by ring. rewrite Rabs_left, Rabs_right by lra. field. }
  rewrite !E. reflexivity.
Qed.

