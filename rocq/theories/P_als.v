(* P_als.v: proofs about the asymmetric least squares baseline. *)
From Verif Require Import Np Cplx M_gti M_seg M_base M_als S_als.
From Coq Require Import Reals List Arith Bool QArith Lia Lra.
Import ListNotations.
Open Scope R_scope.

Definition curv (f : nat -> R) (k : nat) : R := f k - 2 * f (k + 1)%nat + f (k + 2)%nat.
Definition at0 (z : list R) (i : nat) : R := nth i z 0.

Lemma second_sum n k f : (k + 2 < n)%nat -> rs n (fun j => second j k * f j) = curv f k.
Proof.
  intro H. rewrite (rs_ext n _ (fun j => (if Nat.eqb j k then f j else 0) + (if Nat.eqb j (k + 1) then -2 * f j else 0) + (if Nat.eqb j (k + 2) then f j else 0))).
  - rewrite !rs_plus. rewrite (rs_delta n k (fun j => if Nat.eqb j k then f j else 0)), (rs_delta n (k + 1) (fun j => if Nat.eqb j (k + 1) then -2 * f j else 0)), (rs_delta n (k + 2) (fun j => if Nat.eqb j (k + 2) then f j else 0)); try lia.
    + rewrite !Nat.eqb_refl. unfold curv. ring.
    + intros i _ D. apply Nat.eqb_neq in D. rewrite D. reflexivity.
    + intros i _ D. apply Nat.eqb_neq in D. rewrite D. reflexivity.
    + intros i _ D. apply Nat.eqb_neq in D. rewrite D. reflexivity.
  - intros i _. unfold second. destruct (Nat.eqb_spec i k), (Nat.eqb_spec i (k + 1)), (Nat.eqb_spec i (k + 2)); try lia; ring.
Qed.

Lemma product_als n lam w z i : (i < n)%nat ->
  product n (als_matrix n lam w) z i = nth i w 0 * nth i z 0 + lam * rs (n - 2) (fun k => second i k * curv (at0 z) k).
Proof.
  intro H. unfold product, als_matrix.
  rewrite (rs_ext n _ (fun j => (if Nat.eqb i j then nth i w 0 * nth j z 0 else 0) + lam * rs (n - 2) (fun k => second i k * (second j k * nth j z 0)))).
  - rewrite rs_plus. f_equal.
    + rewrite (rs_delta n i); [rewrite Nat.eqb_refl; reflexivity|exact H|]. intros j _ D. destruct (Nat.eqb_spec i j); [lia|reflexivity].
    + rewrite rs_scal_l. f_equal. rewrite rs_swap. apply rs_ext. intros k Hk.
      rewrite rs_scal_l. f_equal. apply (second_sum n k (at0 z)). lia.
  - intros j _. rewrite Rmult_plus_distr_r, Rmult_assoc, <- rs_scal. f_equal.
    + destruct (Nat.eqb i j); ring.
    + f_equal. apply rs_ext. intros k _. ring.
Qed.

(* the quadratic form of the matrix *)
Lemma form n lam w z x : rs n (fun i => x i * product n (als_matrix n lam w) z i) =
  rs n (fun i => nth i w 0 * x i * nth i z 0) + lam * rs (n - 2) (fun k => curv x k * curv (at0 z) k).
Proof.
  rewrite (rs_ext n _ (fun i => nth i w 0 * x i * nth i z 0 + lam * rs (n - 2) (fun k => (second i k * x i) * curv (at0 z) k))).
  - rewrite rs_plus. f_equal. rewrite rs_scal_l. f_equal. rewrite rs_swap. apply rs_ext. intros k Hk.
    rewrite rs_scal. f_equal. apply second_sum. lia.
  - intros i Hi. rewrite product_als by exact Hi. rewrite Rmult_plus_distr_l. f_equal; [ring|].
    rewrite (Rmult_comm (x i)), Rmult_assoc. f_equal. rewrite <- rs_scal. apply rs_ext. intros k _. ring.
Qed.

Lemma rs_zero_each n f : (forall i, (i < n)%nat -> 0 <= f i) -> rs n f = 0 -> forall i, (i < n)%nat -> f i = 0.
Proof.
  induction n; intros P E i Hi; [lia|]. rewrite rs_S in E.
  assert (A : 0 <= rs n f) by (apply rs_nonneg; intros; apply P; lia).
  assert (B : 0 <= f n) by (apply P; lia).
  destruct (Nat.eq_dec i n) as [->|D]; [lra|]. apply IHn; [intros; apply P; lia|lra|lia].
Qed.

(* a curve without curvature is a straight line *)
Lemma flat n f : (forall k, (k < n - 2)%nat -> curv f k = 0) -> forall i, (i < n)%nat -> f i = f O + (f 1%nat - f O) * INR i.
Proof.
  intros C i. induction i as [i IH] using lt_wf_ind. intro Hi.
  destruct i as [|[|i]]; [simpl; ring|simpl; ring|].
  pose proof (C i ltac:(lia)) as E. unfold curv in E. replace (i + 1)%nat with (S i) in E by lia. replace (i + 2)%nat with (S (S i)) in E by lia.
  rewrite (IH i), (IH (S i)) in E by lia. rewrite !S_INR in *. lra.
Qed.

Lemma form_zero n lam w f i j : 0 < lam -> (forall k, (k < n)%nat -> 0 <= nth k w 0) -> (i < j)%nat -> (j < n)%nat -> 0 < nth i w 0 -> 0 < nth j w 0 ->
  rs n (fun k => nth k w 0 * f k ^ 2) + lam * rs (n - 2) (fun k => curv f k ^ 2) <= 0 -> forall k, (k < n)%nat -> f k = 0.
Proof.
  intros L W I J Pi Pj E.
  assert (A : 0 <= rs n (fun k => nth k w 0 * f k ^ 2)) by (apply rs_nonneg; intros k Hk; apply Rmult_le_pos; [apply W, Hk|apply pow2_ge_0]).
  assert (B : 0 <= rs (n - 2) (fun k => curv f k ^ 2)) by (apply rs_nonneg; intros; apply pow2_ge_0).
  assert (LB : 0 <= lam * rs (n - 2) (fun k => curv f k ^ 2)) by (apply Rmult_le_pos; lra).
  assert (A0 : rs n (fun k => nth k w 0 * f k ^ 2) = 0) by lra.
  assert (B0 : rs (n - 2) (fun k => curv f k ^ 2) = 0).
  { assert (lam * rs (n - 2) (fun k => curv f k ^ 2) = 0) as Z by lra. apply Rmult_integral in Z. destruct Z; lra. }
  assert (C : forall k, (k < n - 2)%nat -> curv f k = 0).
  { intros k Hk. pose proof (rs_zero_each _ _ (fun i _ => pow2_ge_0 (curv f i)) B0 k Hk) as Z. cbv beta in Z.
    destruct (Req_dec (curv f k) 0) as [|D]; [assumption|]. exfalso. apply (pow_nonzero _ 2) in D. lra. }
  assert (Z : forall k, (k < n)%nat -> 0 < nth k w 0 -> f k = 0).
  { intros k Hk P. pose proof (rs_zero_each _ _ (fun i Hi => Rmult_le_pos _ _ (W i Hi) (pow2_ge_0 (f i))) A0 k Hk) as Z. cbv beta in Z.
    apply Rmult_integral in Z. destruct Z as [Z|Z]; [lra|]. destruct (Req_dec (f k) 0) as [|D]; [assumption|]. exfalso. apply (pow_nonzero _ 2) in D. lra. }
  pose proof (flat n f C) as F.
  pose proof (Z i ltac:(lia) Pi) as Zi. pose proof (Z j J Pj) as Zj. rewrite (F i) in Zi by lia. rewrite (F j) in Zj by lia.
  assert (IJ : INR i < INR j) by (apply lt_INR, I).
  assert (S0 : f 1%nat - f O = 0).
  { assert ((f 1%nat - f O) * (INR j - INR i) = 0) as Q by lra. apply Rmult_integral in Q. destruct Q; lra. }
  intros k Hk. rewrite (F k Hk), S0 in *. lra.
Qed.


Lemma als_regular n lam w : 0 < lam -> supported n w -> regular n (als_matrix n lam w).
Proof.
  intros L [W (i & j & I & J & Pi & Pj)] z Hz E k Hk.
  apply (form_zero n lam w (at0 z) i j L W I J Pi Pj); [|exact Hk].
  pose proof (form n lam w z (at0 z)) as F. rewrite (rs_zero n (fun i => at0 z i * _)) in F.
  - apply Req_le. eapply eq_trans; [|symmetry; exact F]. f_equal; [apply rs_ext; intros m _; unfold at0; ring|].
    f_equal. apply rs_ext. intros m _. ring.
  - intros m Hm. rewrite E by exact Hm. ring.
Qed.

Lemma nth_prod w y i : length w = length y -> nth i (map (fun c => fst c * snd c) (combine w y)) 0 = nth i w 0 * nth i y 0.
Proof.
  intro H. transitivity ((fun c : R * R => fst c * snd c) (nth i (combine w y) (0, 0))).
  - rewrite <- (map_nth (fun c : R * R => fst c * snd c)). cbn [fst snd]. rewrite Rmult_0_l. reflexivity.
  - rewrite combine_nth by exact H. reflexivity.
Qed.

(* orthogonality of the residuals *)
Lemma normal n lam w y z x : length w = n -> length y = n -> solution n (als_matrix n lam w) (map (fun c => fst c * snd c) (combine w y)) z ->
  rs n (fun i => nth i w 0 * x i * (nth i y 0 - nth i z 0)) = lam * rs (n - 2) (fun k => curv x k * curv (at0 z) k).
Proof.
  intros Hw Hy [Hz E]. pose proof (form n lam w z x) as F.
  rewrite (rs_ext n _ (fun i => nth i w 0 * x i * nth i y 0)) in F.
  - rewrite (rs_ext n _ (fun i => nth i w 0 * x i * nth i y 0 - nth i w 0 * x i * nth i z 0)) by (intros; ring).
    rewrite rs_minus, F. ring.
  - intros i Hi. rewrite E by exact Hi. rewrite nth_prod by congruence. ring.
Qed.

Lemma cost_diff lam w y z v : length w = length y -> solution (length y) (als_matrix (length y) lam w) (map (fun c => fst c * snd c) (combine w y)) z ->
  cost lam w y v = cost lam w y z + (rs (length y) (fun i => nth i w 0 * (nth i v 0 - nth i z 0) ^ 2) + lam * rs (length y - 2) (fun k => curv (fun i => nth i v 0 - nth i z 0) k ^ 2)).
Proof.
  intros Hw Sol. set (n := length y) in *.
  pose proof (normal n lam w y z (fun i => nth i v 0 - nth i z 0) Hw eq_refl Sol) as O.
  unfold cost. fold n.
  rewrite (rs_ext n (fun i => nth i w 0 * (nth i y 0 - nth i v 0) ^ 2) (fun i => nth i w 0 * (nth i y 0 - nth i z 0) ^ 2 +
    (nth i w 0 * (nth i v 0 - nth i z 0) ^ 2 - 2 * (nth i w 0 * (nth i v 0 - nth i z 0) * (nth i y 0 - nth i z 0))))) by (intros; ring).
  rewrite rs_plus, rs_minus, rs_scal_l, O.
  rewrite (rs_ext (n - 2) (fun k => curvature v k ^ 2) (fun k => curvature z k ^ 2 + (curv (fun i => nth i v 0 - nth i z 0) k ^ 2 +
    2 * (curv (fun i => nth i v 0 - nth i z 0) k * curv (at0 z) k)))) by (intros; unfold curvature, curv, at0; ring).
  rewrite !rs_plus, rs_scal_l. ring.
Qed.

Lemma solution_best lam w y z : 0 < lam -> length w = length y -> supported (length y) w ->
  solution (length y) (als_matrix (length y) lam w) (map (fun c => fst c * snd c) (combine w y)) z -> best_curve lam w y z.
Proof.
  intros L Hw [W (i & j & I & J & Pi & Pj)] Sol. split; [apply Sol|]. intros v Hv D.
  rewrite (cost_diff lam w y z v Hw Sol).
  match goal with |- _ < _ + ?t => destruct (Rle_lt_dec t 0) as [Z|Z]; [|lra] end.
  exfalso. apply D. apply (nth_ext _ _ 0 0); [destruct Sol; congruence|]. intros k Hk. rewrite Hv in Hk.
  pose proof (form_zero (length y) lam w (fun i => nth i v 0 - nth i z 0) i j L W I J Pi Pj Z k Hk). cbv beta in *. lra.
Qed.

(* without assumptions on the support the solution is still one of the best *)
Lemma solution_good lam w y z v : 0 <= lam -> length w = length y -> (forall k, (k < length y)%nat -> 0 <= nth k w 0) ->
  solution (length y) (als_matrix (length y) lam w) (map (fun c => fst c * snd c) (combine w y)) z -> cost lam w y z <= cost lam w y v.
Proof.
  intros L Hw W Sol. rewrite (cost_diff lam w y z v Hw Sol).
  assert (0 <= rs (length y) (fun i => nth i w 0 * (nth i v 0 - nth i z 0) ^ 2)) by (apply rs_nonneg; intros; apply Rmult_le_pos; [apply W; assumption|apply pow2_ge_0]).
  assert (0 <= lam * rs (length y - 2) (fun k => curv (fun i => nth i v 0 - nth i z 0) k ^ 2)) by (apply Rmult_le_pos; [exact L|apply rs_nonneg; intros; apply pow2_ge_0]).
  lra.
Qed.

Lemma best_unique lam w y z z' : best_curve lam w y z -> best_curve lam w y z' -> z = z'.
Proof.
  intros [A B] [C D]. destruct (list_eq_dec Req_EM_T z z') as [|N]; [assumption|].
  pose proof (B z' C (fun e => N (eq_sym e))). pose proof (D z A N). lra.
Qed.

(* the weights *)
Lemma weights_len p y z : length z = length y -> length (als_weights p y z) = length y.
Proof. intro H. unfold als_weights. rewrite map_length, combine_length. lia. Qed.
Lemma weights_nth p y z i : length z = length y -> (i < length y)%nat -> nth i (als_weights p y z) 0 = als_weight p (nth i y 0) (nth i z 0).
Proof.
  intros H Hi. unfold als_weights. rewrite (nth_indep _ 0 (als_weight p (fst (0, 0)) (snd (0, 0)))).
  - rewrite (map_nth (fun c => als_weight p (fst c) (snd c))), combine_nth by congruence. reflexivity.
  - rewrite map_length, combine_length. lia.
Qed.
Lemma weight_cases p a b : (b < a -> als_weight p a b = p) /\ (a < b -> als_weight p a b = 1 - p) /\ (a = b -> als_weight p a b = 0).
Proof. unfold als_weight. destruct (Rlt_dec b a), (Rlt_dec a b); repeat split; intros; try lra. Qed.
Lemma weights_asymmetric p y z : length z = length y -> asymmetric p y z (als_weights p y z).
Proof. intro H. split; [apply weights_len, H|]. intros i Hi. rewrite (weights_nth p y z i H Hi). apply weight_cases. Qed.
Lemma asymmetric_unique p y z w w' : asymmetric p y z w -> asymmetric p y z w' -> w = w'.
Proof.
  intros [A B] [C D]. apply (nth_ext _ _ 0 0); [congruence|]. intros i Hi. rewrite A in Hi.
  destruct (B i Hi) as (B1 & B2 & B3), (D i Hi) as (D1 & D2 & D3).
  destruct (Rtotal_order (nth i y 0) (nth i z 0)) as [H|[H|H]]; [rewrite B2, D2|rewrite B3, D3|rewrite B1, D1]; auto.
Qed.
Lemma asymmetric_supported p y z w : 0 < p < 1 -> asymmetric p y z w -> two_off y z -> supported (length y) w.
Proof.
  intros P [A B] (i & j & I & J & Ni & Nj).
  assert (G : forall k, (k < length y)%nat -> 0 <= nth k w 0 /\ (nth k y 0 <> nth k z 0 -> 0 < nth k w 0)).
  { intros k Hk. destruct (B k Hk) as (B1 & B2 & B3). destruct (Rtotal_order (nth k y 0) (nth k z 0)) as [H|[H|H]];
      [rewrite B2 by assumption|rewrite B3 by assumption|rewrite B1 by assumption]; split; try lra; intros; lra. }
  split; [intros k Hk; apply G, Hk|]. exists i, j. repeat split; auto; apply G; auto; lia.
Qed.

Lemma ones_nth n i : (i < n)%nat -> nth i (repeat 1 n) 0 = 1.
Proof. revert i. induction n; intros [|i] H; simpl; auto; try lia. apply IHn. lia. Qed.
Lemma ones_supported n : (2 <= n)%nat -> supported n (repeat 1 n).
Proof.
  intro H. split; [intros; rewrite ones_nth by assumption; lra|]. exists 0%nat, 1%nat. rewrite !ones_nth by lia. repeat split; lia || lra.
Qed.

Section A.
Variables (solve : solver) (lam p : R) (y : list R).
Hypothesis (Hs : exact_solver solve) (Hl : 0 < lam) (Hp : 0 < p < 1).

Let one w := solve (length y) (als_matrix (length y) lam w) (map (fun c => fst c * snd c) (combine w y)).
Lemma one_solution w : length w = length y -> supported (length y) w -> solution (length y) (als_matrix (length y) lam w) (map (fun c => fst c * snd c) (combine w y)) (one w).
Proof. intros W S. apply Hs; [rewrite map_length, combine_length; lia|]. apply als_regular; assumption. Qed.

Lemma loop_app n : forall w z m, als_loop solve lam p y w z (n + S m) = als_loop solve lam p y (als_weights p y (als_loop solve lam p y w z (S n))) (als_loop solve lam p y w z (S n)) m.
Proof. induction n; intros w z m; [reflexivity|]. cbn [als_loop Nat.add]. rewrite IHn. reflexivity. Qed.
Lemma loop_next w z n : als_loop solve lam p y w z (S (S n)) = one (als_weights p y (als_loop solve lam p y w z (S n))).
Proof. replace (S (S n)) with (n + 2)%nat by lia. rewrite loop_app. reflexivity. Qed.

Lemma als_first : (2 <= length y)%nat -> exists z, als solve lam p y 1 = Ok z /\ best_curve lam (repeat 1 (length y)) y z.
Proof.
  intro H. unfold als. replace (Nat.ltb (length y) 2) with false by (symmetry; apply Nat.ltb_ge; lia). cbn [Nat.eqb als_loop]. eexists. split; [reflexivity|].
  apply solution_best; [exact Hl|apply repeat_length|apply ones_supported, H|].
  apply one_solution; [apply repeat_length|apply ones_supported, H].
Qed.

Lemma als_next n z : als solve lam p y (S n) = Ok z -> length z = length y -> two_off y z ->
  exists z' w, als solve lam p y (S (S n)) = Ok z' /\ asymmetric p y z w /\ best_curve lam w y z'.
Proof.
  unfold als. destruct (Nat.ltb (length y) 2); [discriminate|]. cbn [Nat.eqb]. intros E Hz T.
  assert (E' : als_loop solve lam p y (repeat 1 (length y)) [] (S n) = z) by (injection E as E0; exact E0). clear E. rename E' into E.
  exists (one (als_weights p y z)), (als_weights p y z). split; [rewrite loop_next, E; reflexivity|].
  pose proof (weights_asymmetric p y z Hz) as A. split; [exact A|].
  pose proof (asymmetric_supported p y z _ Hp A T) as S0.
  apply solution_best; [exact Hl|apply weights_len, Hz|exact S0|]. apply one_solution; [apply weights_len, Hz|exact S0].
Qed.
End A.

(* the residuals have no weighted sum and no weighted slope *)
Lemma best_solution solve lam w y z : exact_solver solve -> 0 < lam -> length w = length y -> supported (length y) w -> best_curve lam w y z ->
  solution (length y) (als_matrix (length y) lam w) (map (fun c => fst c * snd c) (combine w y)) z.
Proof.
  intros Hs L W S B. pose proof (one_solution solve lam y Hs L w W S) as O.
  rewrite (best_unique lam w y z _ B (solution_best lam w y _ L W S O)). exact O.
Qed.
Lemma balanced lam w y z : length w = length y ->
  solution (length y) (als_matrix (length y) lam w) (map (fun c => fst c * snd c) (combine w y)) z ->
  rs (length y) (fun i => nth i w 0 * (nth i y 0 - nth i z 0)) = 0 /\ rs (length y) (fun i => nth i w 0 * (nth i y 0 - nth i z 0) * INR i) = 0.
Proof.
  intros W Sol. pose proof (normal (length y) lam w y z (fun _ => 1) W eq_refl Sol) as A.
  pose proof (normal (length y) lam w y z INR W eq_refl Sol) as B.
  rewrite (rs_zero (length y - 2)) in A; [rewrite (rs_zero (length y - 2)) in B|].
  - split; [rewrite (rs_ext _ _ (fun i => nth i w 0 * 1 * (nth i y 0 - nth i z 0))) by (intros; ring); lra|].
    rewrite (rs_ext _ _ (fun i => nth i w 0 * INR i * (nth i y 0 - nth i z 0))) by (intros; ring). lra.
  - intros k _. unfold curv. rewrite !plus_INR. change (INR 1) with 1. change (INR 2) with 2. ring.
  - intros k _. unfold curv. ring.
Qed.
Lemma best_balanced solve lam w y z : exact_solver solve -> 0 < lam -> length w = length y -> supported (length y) w -> best_curve lam w y z ->
  rs (length y) (fun i => nth i w 0 * (nth i y 0 - nth i z 0)) = 0 /\ rs (length y) (fun i => nth i w 0 * (nth i y 0 - nth i z 0) * INR i) = 0.
Proof. intros Hs L W Sp B. apply (balanced lam w y z W). apply (best_solution solve); assumption. Qed.
