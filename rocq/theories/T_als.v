(* T_als.v: theorems about the asymmetric least squares baseline, utils.py and lightcurve.py. *)
From Verif Require Import Np Cplx M_gti M_seg M_base M_als S_als P_als P_als2 P_als3.
From Coq Require Import Reals List Arith Bool QArith Lia Lra.
Import ListNotations.
Open Scope R_scope.

(* ---------- C191: the curve ---------- *)
Theorem C191_first : forall solve lam p y, exact_solver solve -> 0 < lam -> (2 <= length y)%nat ->
  exists z, als solve lam p y 1 = Ok z /\ best_curve lam (repeat 1 (length y)) y z.
Proof. intros solve lam p y. exact (als_first solve lam p y). Qed.
Print Assumptions C191_first.
Theorem C191_next : forall solve lam p y n z, exact_solver solve -> 0 < lam -> 0 < p < 1 ->
  als solve lam p y (S n) = Ok z -> length z = length y -> two_off y z ->
  exists z' w, als solve lam p y (S (S n)) = Ok z' /\ asymmetric p y z w /\ best_curve lam w y z'.
Proof. intros solve lam p y n z Hs Hl Hp. exact (als_next solve lam p y Hs Hl Hp n z). Qed.
Print Assumptions C191_next.
Theorem C191_unique : forall lam w y z z',
  best_curve lam w y z -> best_curve lam w y z' -> z = z'.
Proof. exact best_unique. Qed.
Print Assumptions C191_unique.
Theorem C191_some_minimum : forall lam w y z v,
  0 <= lam -> length w = length y -> (forall k, (k < length y)%nat -> 0 <= nth k w 0) ->
  solution (length y) (als_matrix (length y) lam w) (map (fun c => fst c * snd c) (combine w y)) z -> cost lam w y z <= cost lam w y v.
Proof. exact solution_good. Qed.
Print Assumptions C191_some_minimum.
Theorem C191_regular : forall n lam w,
  0 < lam -> supported n w -> regular n (als_matrix n lam w).
Proof. exact als_regular. Qed.
Print Assumptions C191_regular.
Theorem C191_normal_equations : forall lam w y z,
  length w = length y ->
  solution (length y) (als_matrix (length y) lam w) (map (fun c => fst c * snd c) (combine w y)) z ->
  rs (length y) (fun i => nth i w 0 * (nth i y 0 - nth i z 0)) = 0 /\ rs (length y) (fun i => nth i w 0 * (nth i y 0 - nth i z 0) * INR i) = 0.
Proof. exact balanced. Qed.
Print Assumptions C191_normal_equations.
Theorem C191_balanced : forall solve lam w y z,
  exact_solver solve -> 0 < lam -> length w = length y -> supported (length y) w -> best_curve lam w y z ->
  rs (length y) (fun i => nth i w 0 * (nth i y 0 - nth i z 0)) = 0 /\ rs (length y) (fun i => nth i w 0 * (nth i y 0 - nth i z 0) * INR i) = 0.
Proof. exact best_balanced. Qed.
Print Assumptions C191_balanced.
Theorem C191_stretched : forall solve lam p c a b y n,
  exact_solver solve -> 0 < lam -> 0 < p < 1 -> 0 < c -> (2 <= length y)%nat -> moving solve lam p y n ->
  exists z, als solve lam p y (S n) = Ok z /\ als solve lam p (stretched c a b y) (S n) = Ok (stretched c a b z).
Proof. exact als_affine. Qed.
Print Assumptions C191_stretched.
Theorem C191_upside_down : forall solve lam p c a b y n,
  exact_solver solve -> 0 < lam -> 0 < p < 1 -> c < 0 -> (2 <= length y)%nat -> moving solve lam p y n ->
  exists z, als solve lam p y (S n) = Ok z /\ als solve lam (1 - p) (stretched c a b y) (S n) = Ok (stretched c a b z).
Proof. exact als_flip. Qed.
Print Assumptions C191_upside_down.
Theorem C191_line : forall solve lam p a b n,
  exact_solver solve -> 0 < lam -> (2 <= n)%nat -> als solve lam p (straight a b n) 1 = Ok (straight a b n).
Proof. exact als_line. Qed.
Print Assumptions C191_line.
Theorem C191_singular : forall solve lam p a b n,
  exact_solver solve -> 0 < lam -> (2 <= n)%nat -> exists z, als solve lam p (straight a b n) 1 = Ok z /\
  als solve lam p (straight a b n) 2 = Ok (solve n (als_matrix n lam (repeat 0 n)) (repeat 0 n)) /\
  (forall w, asymmetric p (straight a b n) z w -> w = repeat 0 n) /\ ~ regular n (als_matrix n lam (repeat 0 n)) /\
  (forall c d, solution n (als_matrix n lam (repeat 0 n)) (repeat 0 n) (straight c d n)).
Proof. exact exact_fit. Qed.
Print Assumptions C191_singular.
Theorem C191_short_error : forall solve lam p y niter,
  (length y < 2)%nat -> als solve lam p y niter = Err ValueError.
Proof. exact als_short. Qed.
Print Assumptions C191_short_error.
Theorem C191_no_turns_error : forall solve lam p y,
  (2 <= length y)%nat -> als solve lam p y 0 = Err UnboundLocalError.
Proof. exact als_no_turns. Qed.
Print Assumptions C191_no_turns_error.
(* a straight line is met in all points: the next system has no weights, is singular, and the next curve is whatever the solver gives *)
Theorem C191_exact_refuted : exists lam p y z, 0 < lam /\ 0 < p < 1 /\ (2 <= length y)%nat /\
  (forall solve, exact_solver solve -> als solve lam p y 1 = Ok z) /\
  forall w, asymmetric p y z w -> ~ regular (length y) (als_matrix (length y) lam w) /\
    exists z1 z2, z1 <> z2 /\ solution (length y) (als_matrix (length y) lam w) (map (fun c => fst c * snd c) (combine w y)) z1 /\
      solution (length y) (als_matrix (length y) lam w) (map (fun c => fst c * snd c) (combine w y)) z2.
Proof.
  exists 100, (1 / 1000), (straight 10 0 4), (straight 10 0 4). split; [lra|]. split; [lra|]. split; [rewrite straight_len; lia|].
  split; [intros solve Hs; apply als_line; [exact Hs|lra|lia]|]. intros w A.
  assert (W : w = repeat 0 4) by (rewrite (asymmetric_unique _ _ _ _ _ A (weights_asymmetric (1 / 1000) _ _ eq_refl)), line_weights, straight_len; reflexivity). subst w. rewrite straight_len.
  assert (B : map (fun c : R * R => fst c * snd c) (combine (repeat 0 4) (straight 10 0 4)) = repeat 0 4) by (cbn; repeat f_equal; ring). rewrite B.
  split.
  - intro G. pose proof (G (straight 1 0 4) (straight_len _ _ _) (fun i Hi => zero_weights_singular 4 100 1 0 i Hi) 0%nat ltac:(lia)) as Z. rewrite straight_nth in Z by lia. simpl in Z. lra.
  - exists (straight 0 0 4), (straight 1 0 4). split.
    + intro E. apply (f_equal (fun l => nth 0 l 0)) in E. rewrite !straight_nth in E by lia. simpl in E. lra.
    + split; (split; [apply straight_len|intros i Hi; rewrite nth_repeat; apply zero_weights_singular, Hi]).
Qed.
Print Assumptions C191_exact_refuted.
(* three points: the curve of the first turn, two points away from it *)
Example C191_nonvacuous : best_curve 1 (repeat 1 3) [0; 7; 0] [2; 3; 2] /\ two_off [0; 7; 0] [2; 3; 2] /\ asymmetric (1 / 4) [0; 7; 0] [2; 3; 2] [3 / 4; 1 / 4; 3 / 4].
Proof.
  split; [|split].
  - apply solution_best; [lra|reflexivity|apply (ones_supported 3); lia|]. split; [reflexivity|]. intros i Hi. simpl length in *.
    rewrite product_als by exact Hi. destruct i as [|[|[|i]]]; [| | |lia]; cbn; unfold curv, at0, rs, second; cbn; ring.
  - exists 0%nat, 1%nat. simpl. repeat split; try lia; lra.
  - split; [reflexivity|]. intros i Hi. simpl in Hi. destruct i as [|[|[|i]]]; [| | |lia]; cbn; repeat split; intros; lra.
Qed.

(* ---------- C192: offsets ---------- *)
Theorem C192_parts : forall solve mad fit y lam p niter oc z ys bl,
  als solve lam p y niter = Ok z -> length z = length y ->
  baseline_als solve mad fit y (Some lam) (Some p) niter oc = Ok (ys, bl) ->
  length ys = length y /\ length bl = length y /\ (forall i, (i < length y)%nat -> nth i ys 0 + nth i bl 0 = nth i y 0) /\
  exists offset, (oc = false -> offset = 0) /\ forall i, (i < length y)%nat -> nth i bl 0 = nth i z 0 + offset.
Proof. exact baseline_sum. Qed.
Print Assumptions C192_parts.
Theorem C192_centred : forall solve mad fit y lam p niter z,
  constant_fit fit -> als solve lam p y niter = Ok z -> length z = length y -> (2 <= length y)%nat ->
  exists offset ys bl, baseline_als solve mad fit y (Some lam) (Some p) niter true = Ok (ys, bl) /\
    (forall i, (i < length y)%nat -> nth i ys 0 = nth i y 0 - nth i z 0 - offset) /\
    rlsum (map (fun v => v - offset) (offset_points mad (map (fun c => fst c - snd c) (combine y z)))) = 0.
Proof. exact offset_centred. Qed.
Print Assumptions C192_centred.
Theorem C192_mean : forall fit l,
  constant_fit fit -> l <> [] -> rlsum (map (fun v => v - fit l) l) = 0.
Proof. exact fit_mean. Qed.
Print Assumptions C192_mean.
Theorem C192_points : forall mad r,
  (10 <= length (filter (fun v => if Rlt_dec (Rabs v) (10 * mad r) then true else false) r))%nat ->
  forall v, In v (offset_points mad r) <-> In v r /\ Rabs v < 10 * mad r.
Proof. exact points_many. Qed.
Print Assumptions C192_points.
Theorem C192_few : forall mad r,
  (length (filter (fun v => if Rlt_dec (Rabs v) (10 * mad r) then true else false) r) < 10)%nat -> offset_points mad r = r.
Proof. exact points_few. Qed.
Print Assumptions C192_few.
Theorem C192_defaults : forall solve mad fit y niter oc,
  baseline_als solve mad fit y None None niter oc = baseline_als solve mad fit y (Some 100000000000) (Some (1 / 1000)) niter oc.
Proof. exact baseline_defaults. Qed.
Print Assumptions C192_defaults.
Example C192_nonvacuous : exists fit, constant_fit fit /\ fit [1; 3; 8] = 4.
Proof.
  exists (fun l => rlsum l / INR (length l)). split.
  - intros l c N. rewrite !rlsum_squares. assert (P : 0 < INR (length l)) by (apply (lt_INR 0); destruct l; [congruence|simpl; lia]).
    set (n := INR (length l)) in *. set (s := rlsum l) in *.
    assert (K : 0 <= n * (c - s / n) ^ 2) by (apply Rmult_le_pos; [lra|apply pow2_ge_0]).
    replace (n * (c - s / n) ^ 2) with (n * c ^ 2 - 2 * c * s + s ^ 2 / n) in K by (field; lra).
    replace (2 * (s / n) * s) with (2 * s ^ 2 / n) by (field; lra). replace (n * (s / n) ^ 2) with (s ^ 2 / n) by (field; lra). lra.
  - unfold rlsum. cbn. lra.
Qed.

(* ---------- C193: light curves ---------- *)
Theorem C193_outside : forall numba solve mad fit times counts dt lam p niter oc gti b i,
  lc_baseline numba solve mad fit times counts dt gti lam p niter oc = Ok b ->
  length b = length times /\
  ((forall g m, In g gti -> create_gti_mask numba times [g] (0, 0)%Q 0%Q (Some dt) gti_eps = Ok m -> nth i (fst m) false = false) -> nth i b 0 = 0).
Proof. intros numba solve mad fit times counts dt lam p niter oc. apply lc_outside. Qed.
Print Assumptions C193_outside.
Theorem C193_inside : forall numba solve mad fit times counts dt lam p niter oc gti1 g gti2 b,
  lc_baseline numba solve mad fit times counts dt (gti1 ++ g :: gti2) lam p niter oc = Ok b -> length counts = length times ->
  exists m r, create_gti_mask numba times [g] (0, 0)%Q 0%Q (Some dt) gti_eps = Ok m /\
    baseline_als solve mad fit (select counts (fst m)) (Some lam) (Some p) niter oc = Ok r /\
    (length (snd r) = length (select counts (fst m)) ->
     (forall g' m', In g' gti2 -> create_gti_mask numba times [g'] (0, 0)%Q 0%Q (Some dt) gti_eps = Ok m' -> apart (fst m) (fst m')) ->
     select b (fst m) = snd r).
Proof. intros numba solve mad fit times counts dt lam p niter oc. apply lc_inside. Qed.
Print Assumptions C193_inside.
Theorem C193_short_error : forall numba solve mad fit times counts dt lam p niter oc gti1 g gti2 m,
  create_gti_mask numba times [g] (0, 0)%Q 0%Q (Some dt) gti_eps = Ok m -> (length (select counts (fst m)) < 2)%nat ->
  exists e, lc_baseline numba solve mad fit times counts dt (gti1 ++ g :: gti2) lam p niter oc = Err e.
Proof. intros numba solve mad fit times counts dt lam p niter oc. apply lc_short. Qed.
Print Assumptions C193_short_error.
Theorem C193_short_refuted : forall solve mad fit,
  exists times counts gti m1 m2 n1 n2, create_gti_mask true times [nth 0 gti (0, 0)%Q] (0, 0)%Q 0%Q (Some 1%Q) gti_eps = Ok (m1, n1) /\
  create_gti_mask true times [nth 1 gti (0, 0)%Q] (0, 0)%Q 0%Q (Some 1%Q) gti_eps = Ok (m2, n2) /\ m1 = [true; true; true; false; false] /\ m2 = [false; false; false; false; true] /\ length gti = 2%nat /\
  length counts = length times /\ lc_baseline true solve mad fit times counts 1%Q gti 100 (1 / 1000) 10 false = Err ValueError.
Proof. exact short_witness. Qed.
Print Assumptions C193_short_refuted.
Example C193_nonvacuous : exists m n, create_gti_mask true [1 # 2; 3 # 2; 5 # 2; 7 # 2]%Q [(0, 2)%Q] (0, 0)%Q 0%Q (Some 1%Q) gti_eps = Ok (m, n) /\
  forall solve mad fit, lc_baseline true solve mad fit [1 # 2; 3 # 2; 5 # 2; 7 # 2]%Q [1; 2; 9; 9] 1%Q [(0, 2)%Q] 100 (1 / 1000) 1 false =
    Ok (put [0; 0; 0; 0] m (map (fun v => v + 0) (solve 2%nat (als_matrix 2 100 [1; 1]) [1 * 1; 1 * 2]))).
Proof.
  do 2 eexists. split; [vm_compute; reflexivity|]. intros solve mad fit. unfold lc_baseline. cbn [baseline_loop]. unfold baseline_one, bind.
  match goal with |- context [create_gti_mask true ?t ?g ?s ?q ?d ?e] => let v := eval vm_compute in (create_gti_mask true t g s q d e) in replace (create_gti_mask true t g s q d e) with v by (vm_compute; reflexivity) end.
  reflexivity.
Qed.

