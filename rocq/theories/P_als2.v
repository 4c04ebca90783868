(* P_als2.v: straight lines, changes of scale, offsets and light curves. *)
From Verif Require Import Np Cplx M_gti M_seg M_base M_als S_als P_als.
From Coq Require Import Reals List Arith Bool QArith Lia Lra.
Import ListNotations.
Open Scope R_scope.

Lemma stretched_len c a b l : length (stretched c a b l) = length l.
Proof. unfold stretched. rewrite map_length, combine_length, seq_length. lia. Qed.
Lemma stretched_nth c a b l i : (i < length l)%nat -> nth i (stretched c a b l) 0 = c * nth i l 0 + (a + b * INR i).
Proof.
  intro H. unfold stretched. rewrite (nth_indep _ 0 ((fun p => c * snd p + (a + b * INR (fst p))) (0%nat, 0))) by (rewrite map_length, combine_length, seq_length; lia).
  rewrite (map_nth (fun p => c * snd p + (a + b * INR (fst p)))), combine_nth by apply seq_length. rewrite seq_nth by exact H. reflexivity.
Qed.
Lemma stretched_back c a b l : c <> 0 -> stretched c a b (stretched (/ c) (- a / c) (- b / c) l) = l.
Proof.
  intro C. apply (nth_ext _ _ 0 0); [rewrite !stretched_len; reflexivity|]. intros i Hi. rewrite !stretched_len in Hi.
  rewrite !stretched_nth by (rewrite ?stretched_len; exact Hi). field. exact C.
Qed.

Lemma cost_stretched lam w y v c a b : length v = length y -> cost lam w (stretched c a b y) (stretched c a b v) = c ^ 2 * cost lam w y v.
Proof.
  intro H. unfold cost. rewrite stretched_len, Rmult_plus_distr_l. f_equal.
  - rewrite <- rs_scal_l. apply rs_ext. intros i Hi. rewrite !stretched_nth by lia. ring.
  - rewrite <- Rmult_assoc, (Rmult_comm (c ^ 2)), Rmult_assoc. f_equal. rewrite <- rs_scal_l. apply rs_ext. intros k Hk.
    unfold curvature. rewrite !stretched_nth by lia. rewrite !plus_INR. change (INR 1) with 1. change (INR 2) with 2. ring.
Qed.
Lemma best_stretched lam w y z c a b : c <> 0 -> best_curve lam w y z -> best_curve lam w (stretched c a b y) (stretched c a b z).
Proof.
  intros C [L B]. split; [rewrite !stretched_len; exact L|]. rewrite stretched_len. intros v Hv D.
  rewrite <- (stretched_back c a b v C). rewrite !cost_stretched by (rewrite ?stretched_len; lia).
  apply Rmult_lt_compat_l; [apply Rlt_0_sqr in C; unfold Rsqr in C; simpl; lra|].
  apply B; [rewrite stretched_len; exact Hv|]. intro E. apply D. rewrite <- E. symmetry. apply stretched_back, C.
Qed.
Lemma asym_up p y z w c a b : 0 < c -> length z = length y -> asymmetric p y z w -> asymmetric p (stretched c a b y) (stretched c a b z) w.
Proof.
  intros C Hz [L A]. split; [rewrite stretched_len; exact L|]. rewrite stretched_len. intros i Hi. rewrite !stretched_nth by lia.
  destruct (A i Hi) as (A1 & A2 & A3). repeat split; intro H; [apply A1|apply A2|apply A3].
  - apply (Rmult_lt_reg_l c); lra.
  - apply (Rmult_lt_reg_l c); lra.
  - apply (Rmult_eq_reg_l c); lra.
Qed.
Lemma asym_down p y z w c a b : c < 0 -> length z = length y -> asymmetric p y z w -> asymmetric (1 - p) (stretched c a b y) (stretched c a b z) w.
Proof.
  intros C Hz [L A]. split; [rewrite stretched_len; exact L|]. rewrite stretched_len. intros i Hi. rewrite !stretched_nth by lia.
  destruct (A i Hi) as (A1 & A2 & A3). repeat split; intro H; [rewrite A2|rewrite A1|rewrite A3]; try lra.
  - apply (Rmult_lt_reg_l (- c)); lra.
  - apply (Rmult_lt_reg_l (- c)); lra.
  - apply (Rmult_eq_reg_l c); lra.
Qed.
Lemma two_off_stretched y z c a b : c <> 0 -> length z = length y -> two_off y z -> two_off (stretched c a b y) (stretched c a b z).
Proof.
  intros C Hz (i & j & I & J & Ni & Nj). exists i, j. rewrite stretched_len. split; [exact I|]. split; [exact J|].
  rewrite !stretched_nth by lia. split; intro E; [apply Ni|apply Nj]; apply (Rmult_eq_reg_l c); lra.
Qed.

(* the data never meet the curve of a turn before the last in all points but one *)
Definition moving solve lam p y n := forall m z, (1 <= m <= n)%nat -> als solve lam p y m = Ok z -> two_off y z.

Section E.
Variables (solve : solver) (lam p q c a b : R) (y : list R).
Hypothesis (Hs : exact_solver solve) (Hl : 0 < lam) (Hp : 0 < p < 1) (Hq : 0 < q < 1) (Hc : c <> 0).
Hypothesis Hw : forall z w, length z = length y -> asymmetric p y z w -> asymmetric q (stretched c a b y) (stretched c a b z) w.

Lemma als_stretched n : (2 <= length y)%nat -> moving solve lam p y n ->
  exists z, als solve lam p y (S n) = Ok z /\ als solve lam q (stretched c a b y) (S n) = Ok (stretched c a b z) /\ length z = length y.
Proof.
  intro L. induction n as [|n IH]; intro M.
  - destruct (als_first solve lam p y Hs Hl L) as (z & E & B).
    destruct (als_first solve lam q (stretched c a b y) Hs Hl) as (z' & E' & B'); [rewrite stretched_len; exact L|].
    exists z. split; [exact E|]. split; [|apply B]. rewrite E'. f_equal. rewrite stretched_len in B'.
    apply (best_unique _ _ _ _ _ B'). apply best_stretched; assumption.
  - destruct IH as (z & E & E' & Lz); [intros m z Hm; apply M; lia|].
    assert (T : two_off y z) by (apply (M (S n)); [lia|exact E]).
    destruct (als_next solve lam p y Hs Hl Hp n z E Lz T) as (z1 & w1 & F & A & B).
    destruct (als_next solve lam q (stretched c a b y) Hs Hl Hq n _ E') as (z2 & w2 & F' & A' & B');
      [rewrite !stretched_len; exact Lz|apply two_off_stretched; assumption|].
    exists z1. split; [exact F|]. split; [|apply B]. rewrite F'. f_equal.
    rewrite <- (asymmetric_unique _ _ _ _ _ (Hw z w1 Lz A) A') in B'.
    apply (best_unique _ _ _ _ _ B'). apply best_stretched; assumption.
Qed.
End E.

Lemma als_affine solve lam p c a b y n : exact_solver solve -> 0 < lam -> 0 < p < 1 -> 0 < c -> (2 <= length y)%nat -> moving solve lam p y n ->
  exists z, als solve lam p y (S n) = Ok z /\ als solve lam p (stretched c a b y) (S n) = Ok (stretched c a b z).
Proof.
  intros Hs Hl Hp Hc L M. destruct (als_stretched solve lam p p c a b y Hs Hl Hp Hp ltac:(lra) (fun z w Hz => asym_up p y z w c a b Hc Hz) n L M) as (z & E & E' & _). eauto.
Qed.
Lemma als_flip solve lam p c a b y n : exact_solver solve -> 0 < lam -> 0 < p < 1 -> c < 0 -> (2 <= length y)%nat -> moving solve lam p y n ->
  exists z, als solve lam p y (S n) = Ok z /\ als solve lam (1 - p) (stretched c a b y) (S n) = Ok (stretched c a b z).
Proof.
  intros Hs Hl Hp Hc L M. destruct (als_stretched solve lam p (1 - p) c a b y Hs Hl Hp ltac:(lra) ltac:(lra) (fun z w Hz => asym_down p y z w c a b Hc Hz) n L M) as (z & E & E' & _). eauto.
Qed.

(* straight lines *)
Lemma straight_len a b n : length (straight a b n) = n.
Proof. unfold straight. rewrite map_length, seq_length. reflexivity. Qed.
Lemma straight_nth a b n i : (i < n)%nat -> nth i (straight a b n) 0 = a + b * INR i.
Proof.
  intro H. unfold straight. rewrite (nth_indep _ 0 ((fun i => a + b * INR i) 0%nat)) by (rewrite map_length, seq_length; exact H).
  rewrite (map_nth (fun i => a + b * INR i)), seq_nth by exact H. reflexivity.
Qed.
Lemma als_line solve lam p a b n : exact_solver solve -> 0 < lam -> (2 <= n)%nat -> als solve lam p (straight a b n) 1 = Ok (straight a b n).
Proof.
  intros Hs Hl H. destruct (als_first solve lam p (straight a b n) Hs Hl) as (z & E & [L B]); [rewrite straight_len; exact H|]. rewrite E. f_equal.
  destruct (list_eq_dec Req_EM_T (straight a b n) z) as [->|N]; [reflexivity|]. exfalso.
  pose proof (B (straight a b n) eq_refl N) as C. rewrite straight_len in *.
  assert (Z : cost lam (repeat 1 n) (straight a b n) (straight a b n) = 0).
  { unfold cost. rewrite straight_len. rewrite !rs_zero; [ring| |].
    - intros k Hk. unfold curvature. rewrite !straight_nth by lia. rewrite !plus_INR. change (INR 1) with 1. change (INR 2) with 2. ring.
    - intros k Hk. ring. }
  rewrite Z in C. unfold cost in C.
  assert (0 <= rs (length (straight a b n)) (fun i => nth i (repeat 1 n) 0 * (nth i (straight a b n) 0 - nth i z 0) ^ 2)).
  { rewrite straight_len. apply rs_nonneg. intros i Hi. rewrite ones_nth by exact Hi. rewrite Rmult_1_l. apply pow2_ge_0. }
  assert (0 <= lam * rs (length (straight a b n) - 2) (fun k => curvature z k ^ 2)).
  { apply Rmult_le_pos; [lra|]. apply rs_nonneg. intros. apply pow2_ge_0. }
  lra.
Qed.
(* the next system: no weight, every straight line is mapped to zero *)
Lemma line_weights p y : als_weights p y y = repeat 0 (length y).
Proof.
  apply (nth_ext _ _ 0 0); [rewrite weights_len, repeat_length; reflexivity|]. intros i Hi. rewrite weights_len in Hi by reflexivity.
  rewrite weights_nth by (reflexivity || exact Hi). rewrite nth_repeat. apply weight_cases. reflexivity.
Qed.
Lemma zero_weights_singular n lam a b i : (i < n)%nat -> product n (als_matrix n lam (repeat 0 n)) (straight a b n) i = 0.
Proof.
  intro H. rewrite product_als by exact H. rewrite nth_repeat. rewrite rs_zero; [ring|]. intros k Hk. unfold curv, at0. rewrite !straight_nth by lia.
  rewrite !plus_INR. change (INR 1) with 1. change (INR 2) with 2. ring.
Qed.
Lemma exact_fit solve lam p a b n : exact_solver solve -> 0 < lam -> (2 <= n)%nat -> exists z, als solve lam p (straight a b n) 1 = Ok z /\
  als solve lam p (straight a b n) 2 = Ok (solve n (als_matrix n lam (repeat 0 n)) (repeat 0 n)) /\
  (forall w, asymmetric p (straight a b n) z w -> w = repeat 0 n) /\ ~ regular n (als_matrix n lam (repeat 0 n)) /\
  (forall c d, solution n (als_matrix n lam (repeat 0 n)) (repeat 0 n) (straight c d n)).
Proof.
  intros Hs Hl H. exists (straight a b n). pose proof (als_line solve lam p a b n Hs Hl H) as E. split; [exact E|].
  split; [|split; [|split]].
  - unfold als in *. rewrite straight_len in *. destruct (Nat.ltb n 2); [discriminate|]. cbn [Nat.eqb] in *. f_equal.
    assert (E' : als_loop solve lam p (straight a b n) (repeat 1 n) [] 1 = straight a b n) by (injection E as E0; exact E0).
    rewrite (loop_next solve lam p (straight a b n) (repeat 1 n) [] 0), E', line_weights, straight_len. f_equal.
    apply (nth_ext _ _ 0 0); [rewrite map_length, combine_length, repeat_length, straight_len; lia|]. intros i _.
    rewrite nth_prod by (rewrite repeat_length, straight_len; reflexivity). rewrite nth_repeat. ring.
  - intros w A. rewrite (asymmetric_unique _ _ _ _ _ A (weights_asymmetric p _ _ eq_refl)), line_weights, straight_len. reflexivity.
  - intro Rg. pose proof (Rg (straight 1 0 n) (straight_len _ _ _) (fun i Hi => zero_weights_singular n lam 1 0 i Hi) 0%nat ltac:(lia)) as Z.
    rewrite straight_nth in Z by lia. simpl in Z. lra.
  - intros c d. split; [apply straight_len|]. intros i Hi. rewrite nth_repeat. apply zero_weights_singular, Hi.
Qed.

(* offsets *)
Lemma rlsum_nonneg l : (forall x, In x l -> 0 <= x) -> 0 <= rlsum l.
Proof. induction l; simpl; intro H; [lra|]. pose proof (H a (or_introl eq_refl)). pose proof (IHl (fun x Hx => H x (or_intror Hx))). unfold rlsum in *. simpl in *. lra. Qed.
Lemma rlsum_shift l c : rlsum (map (fun v => v - c) l) = rlsum l - INR (length l) * c.
Proof. induction l as [|x l IH]; [unfold rlsum; simpl; ring|]. change (x - c + rlsum (map (fun v => v - c) l) = x + rlsum l - INR (S (length l)) * c). rewrite IH, S_INR. ring. Qed.
Lemma rlsum_squares l c : rlsum (map (fun v => (v - c) ^ 2) l) = rlsum (map (fun v => v ^ 2) l) - 2 * c * rlsum l + INR (length l) * c ^ 2.
Proof. induction l as [|x l IH]; [unfold rlsum; simpl; ring|]. change ((x - c) ^ 2 + rlsum (map (fun v => (v - c) ^ 2) l) = x ^ 2 + rlsum (map (fun v => v ^ 2) l) - 2 * c * (x + rlsum l) + INR (S (length l)) * c ^ 2). rewrite IH, S_INR. ring. Qed.
Lemma fit_mean fit l : constant_fit fit -> l <> [] -> rlsum (map (fun v => v - fit l) l) = 0.
Proof.
  intros F N. pose proof (F l (rlsum l / INR (length l)) N) as H. rewrite !rlsum_squares in H. rewrite rlsum_shift.
  assert (P : 0 < INR (length l)) by (apply (lt_INR 0); destruct l; [congruence|simpl; lia]).
  set (n := INR (length l)) in *. set (s := rlsum l) in *. set (f := fit l) in *.
  assert (K : n * (f - s / n) ^ 2 <= 0).
  { replace (n * (f - s / n) ^ 2) with ((- 2 * f * s + n * f ^ 2) - (- 2 * (s / n) * s + n * (s / n) ^ 2)) by (field; lra). lra. }
  assert (Z : (f - s / n) ^ 2 = 0).
  { pose proof (pow2_ge_0 (f - s / n)). assert (n * (f - s / n) ^ 2 = 0) as Q by (apply Rle_antisym; [exact K|apply Rmult_le_pos; lra]). apply Rmult_integral in Q. destruct Q; lra. }
  destruct (Req_dec (f - s / n) 0) as [E|E]; [|apply (pow_nonzero _ 2) in E; contradiction].
  replace f with (s / n) by lra. field. lra.
Qed.

Lemma baseline_parts solve mad fit y lam p niter oc z : als solve lam p y niter = Ok z ->
  exists offset, baseline_als solve mad fit y (Some lam) (Some p) niter oc = Ok (map (fun v => v - offset) (map (fun c => fst c - snd c) (combine y z)), map (fun v => v + offset) z) /\
    (oc = false -> offset = 0) /\ (oc = true -> offset = fit (offset_points mad (map (fun c => fst c - snd c) (combine y z)))).
Proof.
  intro E. unfold baseline_als, bind. rewrite E. eexists. split; [reflexivity|]. split; intros ->; reflexivity.
Qed.
Lemma nth_diff y z i : length y = length z -> (i < length y)%nat -> nth i (map (fun c => fst c - snd c) (combine y z)) 0 = nth i y 0 - nth i z 0.
Proof.
  intros H Hi. transitivity ((fun c : R * R => fst c - snd c) (nth i (combine y z) (0, 0))).
  - rewrite <- (map_nth (fun c : R * R => fst c - snd c)). cbn [fst snd]. rewrite Rminus_0_r. reflexivity.
  - rewrite combine_nth by exact H. reflexivity.
Qed.
Lemma nth_map0 (f : R -> R) l i : (i < length l)%nat -> nth i (map f l) 0 = f (nth i l 0).
Proof. intro H. rewrite (nth_indep _ 0 (f 0)) by (rewrite map_length; exact H). apply map_nth. Qed.
Lemma baseline_sum solve mad fit y lam p niter oc z ys bl : als solve lam p y niter = Ok z -> length z = length y ->
  baseline_als solve mad fit y (Some lam) (Some p) niter oc = Ok (ys, bl) ->
  length ys = length y /\ length bl = length y /\ (forall i, (i < length y)%nat -> nth i ys 0 + nth i bl 0 = nth i y 0) /\
  exists offset, (oc = false -> offset = 0) /\ forall i, (i < length y)%nat -> nth i bl 0 = nth i z 0 + offset.
Proof.
  intros E L H. destruct (baseline_parts solve mad fit y lam p niter oc z E) as (o & Eo & O & _). rewrite Eo in H. injection H as <- <-.
  split; [rewrite !map_length, combine_length; lia|]. split; [rewrite map_length; exact L|]. split.
  - intros i Hi. rewrite (nth_map0 (fun v => v - o)) by (rewrite map_length, combine_length; lia). rewrite nth_diff by lia. rewrite (nth_map0 (fun v => v + o)) by lia. ring.
  - exists o. split; [exact O|]. intros i Hi. apply (nth_map0 (fun v => v + o)). lia.
Qed.
(* which points give the offset *)
Lemma points_many mad r : (10 <= length (filter (fun v => if Rlt_dec (Rabs v) (10 * mad r) then true else false) r))%nat ->
  forall v, In v (offset_points mad r) <-> In v r /\ Rabs v < 10 * mad r.
Proof.
  intros H v. unfold offset_points. replace (Nat.ltb _ 10) with false by (symmetry; apply Nat.ltb_ge; exact H).
  rewrite filter_In. destruct (Rlt_dec (Rabs v) (10 * mad r)); intuition discriminate.
Qed.
Lemma points_few mad r : (length (filter (fun v => if Rlt_dec (Rabs v) (10 * mad r) then true else false) r) < 10)%nat -> offset_points mad r = r.
Proof. intros H. unfold offset_points. apply Nat.ltb_lt in H. rewrite H. reflexivity. Qed.
Lemma points_nonempty mad r : r <> [] -> offset_points mad r <> [].
Proof. intro H. unfold offset_points. match goal with |- (if Nat.ltb (length ?l) 10 then _ else _) <> _ => destruct (Nat.ltb_spec (length l) 10); [exact H|]; intro E; rewrite E in *; simpl in *; lia end. Qed.
Lemma offset_centred solve mad fit y lam p niter z : constant_fit fit -> als solve lam p y niter = Ok z -> length z = length y -> (2 <= length y)%nat ->
  exists offset ys bl, baseline_als solve mad fit y (Some lam) (Some p) niter true = Ok (ys, bl) /\
    (forall i, (i < length y)%nat -> nth i ys 0 = nth i y 0 - nth i z 0 - offset) /\
    rlsum (map (fun v => v - offset) (offset_points mad (map (fun c => fst c - snd c) (combine y z)))) = 0.
Proof.
  intros F E L N. destruct (baseline_parts solve mad fit y lam p niter true z E) as (o & Eo & _ & O).
  exists o. eexists. eexists. split; [exact Eo|]. split.
  - intros i Hi. rewrite (nth_map0 (fun v => v - o)) by (rewrite map_length, combine_length; lia). rewrite nth_diff by lia. reflexivity.
  - specialize (O eq_refl). subst o. apply fit_mean; [exact F|]. apply points_nonempty. destruct y as [|y0 y]; [simpl in N; lia|]. destruct z; [discriminate|]. discriminate.
Qed.
Lemma baseline_defaults solve mad fit y niter oc : baseline_als solve mad fit y None None niter oc = baseline_als solve mad fit y (Some 100000000000) (Some (1 / 1000)) niter oc.
Proof. reflexivity. Qed.
Lemma als_short solve lam p y niter : (length y < 2)%nat -> als solve lam p y niter = Err ValueError.
Proof. intro H. unfold als. apply Nat.ltb_lt in H. rewrite H. reflexivity. Qed.
Lemma als_no_turns solve lam p y : (2 <= length y)%nat -> als solve lam p y 0 = Err UnboundLocalError.
Proof. intro H. unfold als. replace (Nat.ltb (length y) 2) with false by (symmetry; apply Nat.ltb_ge; lia). reflexivity. Qed.
