(* P_gp.v: proofs about gpmodeling.py. *)
From Verif Require Import Np Cplx M_gp S_gp.
From Coq Require Import Reals List Arith Bool String Permutation Lia Lra.
Import ListNotations.
Open Scope R_scope.

(* ---- covariances ---- *)
Section Quadratic.
Variable K : nat -> nat -> R.
Hypothesis sym : forall i j, K i j = K j i.
Hypothesis diag : forall i, K i i = 1.
Definition form (n : nat) (x : nat -> R) : R := rs n (fun i => rs n (fun j => x i * x j * K i j)).
Lemma form_S n x : form (S n) x = form n x + 2 * x n * rs n (fun i => x i * K i n) + x n * x n.
Proof.
  unfold form. rewrite rs_S. rewrite (rs_ext n _ (fun i => rs n (fun j => x i * x j * K i j) + x i * K i n * x n)) by (intros i Hi; rewrite rs_S; ring).
  rewrite rs_plus, rs_scal, rs_S, diag. rewrite (rs_ext n (fun j => x n * x j * K n j) (fun j => x j * K j n * x n)) by (intros j Hj; rewrite (sym n j); ring). rewrite rs_scal. ring.
Qed.
Lemma form_ext n x y : (forall i, (i < n)%nat -> x i = y i) -> form n x = form n y.
Proof. intros H. unfold form. apply rs_ext. intros i Hi. apply rs_ext. intros j Hj. now rewrite !H. Qed.
Lemma markov N (r : nat -> R) : (forall m, (S m < N)%nat -> 0 <= r m <= 1 /\ forall i, (i <= m)%nat -> K i (S m) = r m * K i m) ->
  forall n, (n <= N)%nat -> forall x, 0 <= form n x.
Proof.
  intros H. induction n as [|n IH]; intros Hn x; [unfold form; rewrite rs_0; lra|]. destruct n as [|m].
  - rewrite form_S. rewrite rs_0. unfold form. rewrite rs_0. nra.
  - destruct (H m ltac:(lia)) as [Hr HK]. set (y := x (S m)). set (x' := fun i => if Nat.eqb i m then x m + r m * y else x i).
    assert (I := IH ltac:(lia) x'). rewrite form_S in I. rewrite form_S, form_S. fold y.
    rewrite (form_ext m x' x) in I by (intros i Hi; unfold x'; destruct (Nat.eqb_spec i m); [lia|reflexivity]).
    rewrite (rs_ext m (fun i => x' i * K i m) (fun i => x i * K i m)) in I by (intros i Hi; unfold x'; destruct (Nat.eqb_spec i m); [lia|reflexivity]).
    replace (x' m) with (x m + r m * y) in I by (unfold x'; now rewrite Nat.eqb_refl).
    rewrite rs_S. rewrite (rs_ext m (fun i => x i * K i (S m)) (fun i => x i * K i m * r m)) by (intros i Hi; rewrite (HK i) by lia; ring). rewrite rs_scal, (HK m) by lia. rewrite diag.
    set (s := rs m (fun i => x i * K i m)) in *. set (q := form m x) in *. assert (0 <= (1 - r m * r m) * (y * y)) by (apply Rmult_le_pos; nra). nra.
Qed.
End Quadratic.
Lemma exp_form n t c : 0 <= c -> ordered n t -> forall x, 0 <= rs n (fun i => rs n (fun j => x i * x j * exp (- c * Rabs (t i - t j)))).
Proof.
  intros C O x. apply (markov (fun i j => exp (- c * Rabs (t i - t j)))) with (N := n) (r := fun m => exp (- c * (t (S m) - t m))); [| | |lia].
  - intros i j. now rewrite Rabs_minus_sym.
  - intros i. replace (t i - t i) with 0 by ring. rewrite Rabs_R0, Rmult_0_r. apply exp_0.
  - intros m Hm. pose proof (O m (S m) ltac:(lia)) as L. split.
    + split; [left; apply exp_pos|]. rewrite <- exp_0. destruct (Rle_lt_or_eq_dec 0 (c * (t (S m) - t m))) as [P|P]; [apply Rmult_le_pos; lra| |].
      * left. apply exp_increasing. lra.
      * right. f_equal. lra.
    + intros i Hi. pose proof (O i m ltac:(lia)) as L1. rewrite <- exp_plus. f_equal. rewrite !Rabs_left1 by lra. ring.
Qed.
Lemma covariance_ext k k' n t : (forall l, k l = k' l) -> covariance k n t -> covariance k' n t.
Proof. intros E H x. specialize (H x). erewrite rs_ext; [exact H|]. intros i _. apply rs_ext. intros j _. now rewrite E. Qed.
Lemma covariance_plus k k' n t : covariance k n t -> covariance k' n t -> covariance (fun l => k l + k' l) n t.
Proof.
  intros A B x. specialize (A x). specialize (B x). rewrite (rs_ext n _ (fun i => rs n (fun j => x i * x j * k (t i - t j)) + rs n (fun j => x i * x j * k' (t i - t j)))).
  - rewrite rs_plus. lra.
  - intros i _. rewrite <- rs_plus. apply rs_ext. intros j _. ring.
Qed.
Lemma rn_covariance a c n t : 0 <= a -> 0 <= c -> ordered n t -> covariance (fun l => a * exp (- c * Rabs l)) n t.
Proof.
  intros A C O x. rewrite (rs_ext n _ (fun i => a * rs n (fun j => x i * x j * exp (- c * Rabs (t i - t j))))).
  - rewrite rs_scal_l. apply Rmult_le_pos; [exact A|]. now apply exp_form.
  - intros i _. rewrite <- rs_scal_l. apply rs_ext. intros j _. ring.
Qed.
Lemma qpo_covariance a c f n t : 0 <= a -> 0 <= c -> ordered n t -> covariance (fun l => a * exp (- c * Rabs l) * cos (2 * PI * f * l)) n t.
Proof.
  intros A C O x. set (d := 2 * PI * f).
  rewrite (rs_ext n _ (fun i => a * (rs n (fun j => (x i * cos (d * t i)) * (x j * cos (d * t j)) * exp (- c * Rabs (t i - t j))) + rs n (fun j => (x i * sin (d * t i)) * (x j * sin (d * t j)) * exp (- c * Rabs (t i - t j)))))).
  - rewrite rs_scal_l, rs_plus. apply Rmult_le_pos; [exact A|]. pose proof (exp_form n t c C O (fun i => x i * cos (d * t i))). pose proof (exp_form n t c C O (fun i => x i * sin (d * t i))). cbv beta in *. lra.
  - intros i _. rewrite <- rs_plus, <- rs_scal_l. apply rs_ext. intros j _. replace (d * (t i - t j)) with (d * t i - d * t j) by ring. rewrite cos_minus. ring.
Qed.
Lemma quasisep_value arn crn l : 0 <= arn -> 0 < crn -> quasisep_exp (1 / crn) (sqrt arn) l = arn * exp (- crn * Rabs l).
Proof. intros A C. unfold quasisep_exp. cbn [pow]. rewrite Rmult_1_r, sqrt_sqrt by exact A. f_equal. f_equal. field. lra. Qed.
Lemma celerite_value a c f l : celerite a 0 c (2 * PI * f) l = a * exp (- c * Rabs l) * cos (2 * PI * f * l).
Proof.
  unfold celerite. rewrite Rmult_0_l, Rplus_0_r. replace (cos (2 * PI * f * Rabs l)) with (cos (2 * PI * f * l)); [ring|].
  destruct (Rle_lt_dec 0 l) as [H|H]; [now rewrite Rabs_right by lra|]. rewrite Rabs_left by exact H. replace (2 * PI * f * - l) with (- (2 * PI * f * l)) by ring. now rewrite cos_neg.
Qed.
Lemma kernel_rn p arn crn : scalar "arn" p = Ok arn -> scalar "crn" p = Ok crn -> 0 <= arn -> 0 < crn ->
  exists k, get_kernel "RN" p = Ok k /\ (forall l, k l = arn * exp (- crn * Rabs l)) /\ forall n t, ordered n t -> covariance k n t.
Proof.
  intros A B PA PB. unfold get_kernel. cbn [String.eqb Ascii.eqb Bool.eqb]. rewrite A, B. cbn [bind]. eexists. split; [reflexivity|]. split; [intros; now apply quasisep_value|].
  intros n t O. apply (covariance_ext (fun l => arn * exp (- crn * Rabs l))); [intros; symmetry; now apply quasisep_value|]. apply rn_covariance; [exact PA|lra|exact O].
Qed.
Lemma kernel_qpo p a c f : scalar "aqpo" p = Ok a -> scalar "cqpo" p = Ok c -> scalar "freq" p = Ok f -> 0 <= a -> 0 <= c ->
  exists k, get_kernel "QPO" p = Ok k /\ (forall l, k l = a * exp (- c * Rabs l) * cos (2 * PI * f * l)) /\ forall n t, ordered n t -> covariance k n t.
Proof.
  intros A B D PA PB. unfold get_kernel. cbn [String.eqb Ascii.eqb Bool.eqb]. rewrite A, B, D. cbn [bind]. eexists. split; [reflexivity|]. split; [intros; apply celerite_value|].
  intros n t O. apply (covariance_ext (fun l => a * exp (- c * Rabs l) * cos (2 * PI * f * l))); [intros; symmetry; apply celerite_value|]. now apply qpo_covariance.
Qed.
Lemma kernel_both p arn crn a c f : scalar "arn" p = Ok arn -> scalar "crn" p = Ok crn -> scalar "aqpo" p = Ok a -> scalar "cqpo" p = Ok c -> scalar "freq" p = Ok f -> 0 <= arn -> 0 < crn -> 0 <= a -> 0 <= c ->
  exists k, get_kernel "QPO_plus_RN" p = Ok k /\ (forall l, k l = arn * exp (- crn * Rabs l) + a * exp (- c * Rabs l) * cos (2 * PI * f * l)) /\ forall n t, ordered n t -> covariance k n t.
Proof.
  intros A1 A2 A B D P1 P2 PA PB. unfold get_kernel. cbn [String.eqb Ascii.eqb Bool.eqb]. rewrite A1, A2, A, B, D. cbn [bind]. eexists. split; [reflexivity|]. split; [intros; now rewrite quasisep_value, celerite_value|].
  intros n t O. apply (covariance_ext (fun l => arn * exp (- crn * Rabs l) + a * exp (- c * Rabs l) * cos (2 * PI * f * l))); [intros; now rewrite quasisep_value, celerite_value|].
  apply covariance_plus; [apply rn_covariance; [exact P1|lra|exact O]|now apply qpo_covariance].
Qed.
Lemma kernel_other k p : k <> "RN"%string -> k <> "QPO"%string -> k <> "QPO_plus_RN"%string -> get_kernel k p = Err ValueError.
Proof. intros A B C. unfold get_kernel. apply String.eqb_neq in A, B, C. now rewrite A, B, C. Qed.

(* ---- flares ---- *)
Lemma exp_le_1 x : x <= 0 -> exp x <= 1.
Proof. intros [H|H]; rewrite <- exp_0; [left; now apply exp_increasing|right; now rewrite H]. Qed.
Lemma ratio_neg a b : 0 <= a -> 0 <= b -> - a / b <= 0.
Proof.
  intros A B. destruct B as [B|B]; [|rewrite <- B; unfold Rdiv; rewrite Rinv_0; lra]. unfold Rdiv. rewrite Ropp_mult_distr_l_reverse. assert (0 <= a * / b) by (apply Rmult_le_pos; [exact A|left; now apply Rinv_0_lt_compat]). lra.
Qed.
Lemma sq2 s : 0 <= 2 * s ^ 2.
Proof. cbn [pow]. nra. Qed.
Lemma shape_peak (A : R) (f : R -> R) t0 : 0 <= A -> f t0 = 1 -> (forall t, 0 < f t <= 1) -> peaks_at (fun t => A * f t) t0 A /\ forall t, 0 <= A * f t.
Proof. intros PA E H. split; [split; [rewrite E; ring|]|]; intros t; rewrite ?E; destruct (H t); nra. Qed.
Lemma gaussian_peak A t0 sig : 0 <= A -> peaks_at (gaussian A t0 sig) t0 A /\ forall t, 0 <= gaussian A t0 sig t.
Proof.
  intros PA. apply (shape_peak A (fun t => exp (- (t - t0) ^ 2 / (2 * sig ^ 2)))); [exact PA| |].
  - replace (- (t0 - t0) ^ 2 / (2 * sig ^ 2)) with 0 by (unfold Rdiv; ring). apply exp_0.
  - intros t. split; [apply exp_pos|]. apply exp_le_1, ratio_neg; [apply pow2_ge_0|apply sq2].
Qed.
Lemma exponential_peak A t0 sig : 0 <= A -> peaks_at (exponential A t0 sig) t0 A /\ forall t, 0 <= exponential A t0 sig t.
Proof.
  intros PA. apply (shape_peak A (fun t => exp (- Rabs (t - t0) / (2 * sig ^ 2)))); [exact PA| |].
  - replace (t0 - t0) with 0 by ring. rewrite Rabs_R0. replace (- 0 / (2 * sig ^ 2)) with 0 by (unfold Rdiv; ring). apply exp_0.
  - intros t. split; [apply exp_pos|]. apply exp_le_1, ratio_neg; [apply Rabs_pos|apply sq2].
Qed.
Lemma skew_gaussian_sides A t0 s1 s2 t : skew_gaussian A t0 s1 s2 t = gaussian A t0 (if Rlt_dec t0 t then s2 else s1) t.
Proof. unfold skew_gaussian, gaussian. destruct (Rlt_dec t0 t); reflexivity. Qed.
Lemma skew_exponential_sides A t0 s1 s2 t : skew_exponential A t0 s1 s2 t = exponential A t0 (if Rlt_dec t0 t then s2 else s1) t.
Proof.
  unfold skew_exponential, exponential. destruct (Rlt_dec t0 t) as [H|H]; [rewrite Rabs_right by lra; reflexivity|]. rewrite Rabs_left1 by lra. do 2 f_equal. f_equal. ring.
Qed.
Lemma skew_gaussian_peak A t0 s1 s2 : 0 <= A -> peaks_at (skew_gaussian A t0 s1 s2) t0 A /\ forall t, 0 <= skew_gaussian A t0 s1 s2 t.
Proof.
  intros PA. split; [split|].
  - rewrite skew_gaussian_sides. apply gaussian_peak, PA.
  - intros t. rewrite !skew_gaussian_sides. destruct (gaussian_peak A t0 (if Rlt_dec t0 t then s2 else s1) PA) as [[E L] _]. destruct (gaussian_peak A t0 (if Rlt_dec t0 t0 then s2 else s1) PA) as [[E' _] _]. rewrite E'. specialize (L t). rewrite E in L. exact L.
  - intros t. rewrite skew_gaussian_sides. apply gaussian_peak, PA.
Qed.
Lemma skew_exponential_peak A t0 s1 s2 : 0 <= A -> peaks_at (skew_exponential A t0 s1 s2) t0 A /\ forall t, 0 <= skew_exponential A t0 s1 s2 t.
Proof.
  intros PA. split; [split|].
  - rewrite skew_exponential_sides. apply exponential_peak, PA.
  - intros t. rewrite !skew_exponential_sides. destruct (exponential_peak A t0 (if Rlt_dec t0 t then s2 else s1) PA) as [[E L] _]. destruct (exponential_peak A t0 (if Rlt_dec t0 t0 then s2 else s1) PA) as [[E' _] _]. rewrite E'. specialize (L t). rewrite E in L. exact L.
  - intros t. rewrite skew_exponential_sides. apply exponential_peak, PA.
Qed.
Lemma fred_form A t0 phi delta t : t0 <> 0 -> t + delta <> 0 -> fred A t0 phi delta t = A * exp (- phi * ((t + delta - t0) * (t + delta - t0) / (t0 * (t + delta)))).
Proof. intros T D. unfold fred. rewrite Rmult_assoc, <- exp_plus. do 2 f_equal. field. split; assumption. Qed.
Lemma fred_peak A t0 phi delta t : 0 <= A -> 0 < t0 -> 0 <= phi -> 0 < t + delta -> 0 <= fred A t0 phi delta t <= A /\ fred A t0 phi delta (t0 - delta) = A.
Proof.
  intros PA T P D. split.
  - rewrite fred_form by lra. set (e := (t + delta - t0) * (t + delta - t0) / (t0 * (t + delta))). assert (0 <= e). { apply Rmult_le_pos; [apply Rle_0_sqr|]. left. apply Rinv_0_lt_compat. now apply Rmult_lt_0_compat. }
    assert (0 <= phi * e) by (apply Rmult_le_pos; assumption). pose proof (exp_le_1 (- phi * e) ltac:(lra)). pose proof (exp_pos (- phi * e)). split; [apply Rmult_le_pos; lra|]. nra.
  - rewrite fred_form by lra. replace (t0 - delta + delta - t0) with 0 by ring. replace (- phi * (0 * 0 / (t0 * (t0 - delta + delta)))) with 0 by (unfold Rdiv; ring). rewrite exp_0. ring.
Qed.
Lemma fred_only A t0 phi delta t : 0 < A -> 0 < t0 -> 0 < phi -> 0 < t + delta -> fred A t0 phi delta t = A -> t = t0 - delta.
Proof.
  intros PA T P D E. rewrite fred_form in E by lra. set (e := (t + delta - t0) * (t + delta - t0) / (t0 * (t + delta))) in E.
  assert (X : exp (- phi * e) = 1) by nra. rewrite <- exp_0 in X. apply exp_inv in X. assert (Z : e = 0) by nra. unfold e in Z. assert (Q : (t + delta - t0) * (t + delta - t0) = 0).
  { apply (Rmult_eq_reg_r (/ (t0 * (t + delta)))); [unfold Rdiv in Z; rewrite Z; ring|]. apply Rinv_neq_0_compat. nra. }
  nra.
Qed.
Lemma fred_before A t0 phi delta t : 0 < A -> 0 < t0 -> 0 <= phi -> t + delta < 0 -> A * exp (4 * phi) <= fred A t0 phi delta t.
Proof.
  intros PA T P D. rewrite fred_form by lra. apply Rmult_le_compat_l; [lra|]. set (u := t + delta) in *. assert (X : 4 <= - ((u - t0) * (u - t0) / (t0 * u))).
  { assert (Y : - ((u - t0) * (u - t0) / (t0 * u)) - 4 = (u + t0) * (u + t0) / (t0 * - u)) by (field; lra). assert (0 <= (u + t0) * (u + t0) / (t0 * - u)); [|lra]. apply Rmult_le_pos; [apply Rle_0_sqr|]. left. apply Rinv_0_lt_compat. nra. }
  set (e := (u - t0) * (u - t0) / (t0 * u)) in *. assert (Z : 4 * phi <= - phi * e) by nra. destruct Z as [Z|Z]; [left; now apply exp_increasing|right; now rewrite Z].
Qed.

(* ---- names and dictionaries ---- *)
Open Scope string_scope.
Definition named (params : list string) (args : list (list R)) : dict := map (fun p => entry (fst p) (snd p)) (combine params args).
Lemma dict_from params : forall d args, (List.length params <= List.length args)%nat -> param_dict_from d params args = Ok (rev (named params args) ++ d)%list.
Proof.
  induction params as [|n l IH]; intros d [|v args] H; cbn [List.length] in H; try lia; [reflexivity|reflexivity|]. cbn [param_dict_from]. rewrite IH by lia. unfold named. cbn [combine map rev fst snd]. now rewrite <- app_assoc.
Qed.
Lemma dict_short params : forall d args, (List.length args < List.length params)%nat -> param_dict_from d params args = Err IndexError.
Proof. induction params as [|n l IH]; intros d [|v args] H; cbn [List.length] in H; try lia; [reflexivity|]. cbn [param_dict_from]. apply IH. lia. Qed.
Lemma substring_all x : substring 0 (String.length x) x = x.
Proof. induction x as [|a x IH]; [reflexivity|]. cbn. now rewrite IH. Qed.
Lemma substring_0 x : substring 0 0 x = "".
Proof. now destruct x. Qed.
Lemma entry_log x v : entry ("log_" ++ x) v = (x, map exp v).
Proof.
  unfold entry. replace (substring 0 4 ("log_" ++ x)) with "log_" by (cbn; now rewrite substring_0). rewrite String.eqb_refl. f_equal. cbn. rewrite Nat.sub_0_r. apply substring_all.
Qed.
Lemma substring_prefix n : forall p, substring 0 (String.length p) n = p -> exists y, n = (p ++ y).
Proof.
  induction n as [|a n IH]; intros p H; [destruct p; [now exists ""|discriminate]|]. destruct p as [|b p]; [now exists (String a n)|]. cbn in H. injection H as -> H. destruct (IH p H) as [y ->]. now exists y.
Qed.
Lemma entry_plain n v : (forall y, n <> "log_" ++ y) -> entry n v = (n, v).
Proof. intros H. unfold entry. destruct (String.eqb_spec (substring 0 4 n) "log_") as [E|E]; [|reflexivity]. destruct (substring_prefix n "log_" E) as [y Y]. now destruct (H y). Qed.
Lemma lookup_in d k v : NoDup (map fst d) -> In (k, v) d -> lookup k d = Ok v.
Proof.
  induction d as [|[n w] d IH]; intros N I; [now destruct I|]. inversion N as [|? ? N1 N2]; subst. cbn [lookup]. destruct I as [E|I].
  - injection E as -> ->. now rewrite String.eqb_refl.
  - destruct (String.eqb_spec n k) as [->|]; [|now apply IH]. destruct N1. apply in_map_iff. now exists (k, v).
Qed.
Lemma lookup_out d k : ~ In k (map fst d) -> lookup k d = Err KeyError.
Proof. induction d as [|[n w] d IH]; intros N; [reflexivity|]. cbn in *. destruct (String.eqb_spec n k) as [->|]; [tauto|]. apply IH. tauto. Qed.
Lemma lookup_perm d d' : NoDup (map fst d) -> Permutation d d' -> forall k, lookup k d = lookup k d'.
Proof.
  intros N P k. assert (N' : NoDup (map fst d')) by (eapply Permutation_NoDup; [apply Permutation_map, P|exact N]).
  destruct (in_dec string_dec k (map fst d)) as [I|I].
  - apply in_map_iff in I. destruct I as ([k' v] & E & I). cbn in E. subst k'. rewrite (lookup_in d k v N I). symmetry. apply lookup_in; [exact N'|]. now apply (Permutation_in _ P).
  - rewrite lookup_out by exact I. symmetry. apply lookup_out. intros J. apply I. apply (Permutation_in _ (Permutation_sym (Permutation_map fst P))), J.
Qed.
Lemma dict_value params args name x v : List.length args = List.length params -> NoDup (map fst (named params args)) -> In (name, v) (combine params args) -> plain name x ->
  exists d, param_dict params args = Ok d /\ lookup x d = Ok (if string_dec name x then v else map exp v).
Proof.
  intros L N I P. exists (rev (named params args) ++ [])%list. split; [apply dict_from; lia|]. rewrite app_nil_r. apply lookup_in.
  - rewrite map_rev. now apply NoDup_rev.
  - apply -> in_rev. unfold named. apply in_map_iff. exists (name, v). split; [|exact I]. cbn [fst snd]. destruct P as [->|[-> P]].
    + rewrite entry_log. destruct (string_dec ("log_" ++ x) x) as [E|E]; [|reflexivity]. apply (f_equal String.length) in E. cbn in E. lia.
    + rewrite entry_plain by exact P. now destruct (string_dec x x).
Qed.
Lemma kernel_ext kt d d' : (forall k, lookup k d = lookup k d') -> get_kernel kt d = get_kernel kt d'.
Proof. intros H. unfold get_kernel, scalar. now rewrite !H. Qed.
Lemma mean_ext mt d d' t : (forall k, lookup k d = lookup k d') -> get_mean mt d t = get_mean mt d' t.
Proof. intros H. unfold get_mean, scalar. now rewrite !H. Qed.
Lemma means_ext mt d d' ts : (forall k, lookup k d = lookup k d') -> means mt d ts = means mt d' ts.
Proof. intros H. induction ts as [|t ts IH]; [reflexivity|]. cbn [means]. now rewrite (mean_ext mt d d' t H), IH. Qed.
Lemma named_perm ps args ps' args' : Permutation (combine ps args) (combine ps' args') -> Permutation (named ps args) (named ps' args').
Proof. apply Permutation_map. Qed.
Lemma likelihood_order logp ps args ps' args' kt mt ts cs : List.length args = List.length ps -> List.length args' = List.length ps' -> NoDup (map fst (named ps args)) -> Permutation (combine ps args) (combine ps' args') ->
  likelihood logp ps kt mt ts cs args = likelihood logp ps' kt mt ts cs args'.
Proof.
  intros L L' N P. unfold likelihood, param_dict. rewrite !dict_from by lia. cbn [bind]. rewrite !app_nil_r. apply named_perm in P.
  assert (Q : forall k, lookup k (rev (named ps args)) = lookup k (rev (named ps' args'))).
  { apply lookup_perm; [rewrite map_rev; now apply NoDup_rev|]. eapply Permutation_trans; [apply Permutation_sym, Permutation_rev|]. eapply Permutation_trans; [exact P|]. apply Permutation_rev. }
  now rewrite (kernel_ext kt _ _ Q), (means_ext mt _ _ ts Q).
Qed.
Lemma likelihood_short logp ps args kt mt ts cs : (List.length args < List.length ps)%nat -> likelihood logp ps kt mt ts cs args = Err IndexError.
Proof. intros H. unfold likelihood, param_dict. now rewrite dict_short. Qed.

(* the lists of names *)
Lemma kernel_params_ok kt ps : get_kernel_params kt = Ok ps -> In kt kernels.
Proof. unfold get_kernel_params, kernels. intros H. destruct (String.eqb_spec kt "RN") as [->|]; [now left|]. destruct (String.eqb_spec kt "QPO_plus_RN") as [->|]; [right; now left|]. destruct (String.eqb_spec kt "QPO") as [->|]; [right; right; now left|discriminate]. Qed.
Lemma mean_params_ok mt ps : get_mean_params mt = Ok ps -> In mt mean_names.
Proof.
  unfold get_mean_params, mean_names. intros H. destruct (String.eqb_spec mt "gaussian") as [->|]; [cbn; tauto|]. destruct (String.eqb_spec mt "exponential") as [->|]; [cbn; tauto|]. cbn [orb] in H.
  destruct (String.eqb_spec mt "constant") as [->|]; [cbn; tauto|]. destruct (String.eqb_spec mt "skew_gaussian") as [->|]; [cbn; tauto|]. destruct (String.eqb_spec mt "skew_exponential") as [->|]; [cbn; tauto|]. cbn [orb] in H.
  destruct (String.eqb_spec mt "fred") as [->|]; [cbn; tauto|discriminate].
Qed.
Lemma gp_params_ok kt mt ps : get_gp_params kt mt = Ok ps -> In kt kernels /\ In mt mean_names.
Proof. unfold get_gp_params. intros H. destruct (get_kernel_params kt) eqn:A; [|discriminate]. cbn [bind] in H. destruct (get_mean_params mt) eqn:B; [|discriminate]. split; [eapply kernel_params_ok, A|eapply mean_params_ok, B]. Qed.
Lemma gp_params_exist kt mt : In kt kernels -> In mt mean_names -> exists ps, get_gp_params kt mt = Ok ps.
Proof. unfold kernels, mean_names. cbn [In]. intros [<-|[<-|[<-|[]]]] [<-|[<-|[<-|[<-|[<-|[<-|[]]]]]]]; eexists; reflexivity. Qed.
Lemma gp_params_bad kt mt : ~ (In kt kernels /\ In mt mean_names) -> get_gp_params kt mt = Err ValueError.
Proof.
  intros H. destruct (get_gp_params kt mt) as [ps|e] eqn:E; [destruct (H (gp_params_ok kt mt ps E))|]. unfold get_gp_params in E. unfold get_kernel_params, get_mean_params in E.
  repeat match type of E with context [if ?b then _ else _] => destruct b end; cbn [bind] in E; try discriminate; exact E || (symmetry; exact E) || idtac.
Qed.
Lemma means_all mt d : (forall t, exists m, get_mean mt d t = Ok m) -> forall ts, exists ms, means mt d ts = Ok ms /\ List.length ms = List.length ts /\ forall i, (i < List.length ts)%nat -> get_mean mt d (nth i ts 0%R) = Ok (nth i ms 0%R).
Proof.
  intros H. induction ts as [|t ts IH]; [exists []; repeat split; intros i I; cbn in I; lia|]. cbn [means]. destruct (H t) as [m E]. rewrite E. cbn [bind]. destruct IH as (ms & E1 & L & V). rewrite E1. cbn [bind]. exists (m :: ms). split; [reflexivity|]. split; [cbn; now rewrite L|].
  intros [|i] I; [exact E|]. cbn. apply V. cbn in I. lia.
Qed.
Ltac unlist args L := repeat (destruct args as [|? args]; cbn [List.length] in L; try discriminate L; try lia).
Lemma gp_names kt mt ps args : get_gp_params kt mt = Ok ps -> List.length args = List.length ps -> NoDup (map fst (named ps args)) /\ NoDup ps.
Proof.
  intros H L. destruct (gp_params_ok kt mt ps H) as [K M]. unfold kernels, mean_names in *. cbn [In] in K, M.
  destruct K as [<-|[<-|[<-|[]]]], M as [<-|[<-|[<-|[<-|[<-|[<-|[]]]]]]]; cbn in H; injection H as <-; unlist args L; cbn;
    (split; repeat (constructor; [cbn; intuition congruence|]); constructor).
Qed.
Lemma likelihood_ok logp kt mt ps ts cs args : get_gp_params kt mt = Ok ps -> List.length args = List.length ps -> (forall v, In v args -> List.length v = 1%nat) ->
  exists l, likelihood logp ps kt mt ts cs args = Ok l.
Proof.
  intros H L V. unfold likelihood, param_dict. rewrite dict_from by lia. cbn [bind]. rewrite app_nil_r.
  assert (K : exists k, get_kernel kt (rev (named ps args)) = Ok k).
  2: assert (M : forall t, exists m, get_mean mt (rev (named ps args)) t = Ok m).
  3: { destruct K as [k ->]. cbn [bind]. destruct (means_all _ _ M ts) as (ms & -> & _). cbn [bind]. now eexists. }
  all: destruct (gp_params_ok kt mt ps H) as [KK MM]; unfold kernels, mean_names in *; cbn [In] in KK, MM;
    destruct KK as [<-|[<-|[<-|[]]]], MM as [<-|[<-|[<-|[<-|[<-|[<-|[]]]]]]]; cbn in H; injection H as <-; unlist args L;
    repeat match goal with x : list R |- _ => let h := fresh in assert (h := V x ltac:(cbn; tauto)); destruct x as [|? [|]]; try discriminate h; clear h end; cbn; intros; eexists; reflexivity.
Qed.

Lemma plain_fst n x v : plain n x -> fst (entry n v) = x.
Proof. intros [->|[-> P]]; [now rewrite entry_log|now rewrite entry_plain]. Qed.
Lemma names_distinct kt mt ps : get_gp_params kt mt = Ok ps -> NoDup ps /\ forall i j x, (i < List.length ps)%nat -> (j < List.length ps)%nat -> plain (nth i ps "") x -> plain (nth j ps "") x -> i = j.
Proof.
  intros H. set (args := map (fun _ => @nil R) ps). assert (L : List.length args = List.length ps) by (unfold args; apply map_length). destruct (gp_names kt mt ps args H L) as [N N']. split; [exact N'|]. intros i j x Hi Hj Pi Pj.
  assert (E : forall i, (i < List.length ps)%nat -> plain (nth i ps "") x -> nth i (map fst (named ps args)) "" = x).
  { intros k Hk P. unfold named. rewrite map_map. rewrite (nth_indep _ "" (fst (entry (fst ("", @nil R)) (snd ("", @nil R))))) by (rewrite map_length, combine_length; lia).
    rewrite (map_nth (fun p => fst (entry (fst p) (snd p)))). rewrite combine_nth by lia. apply plain_fst, P. }
  assert (LL : List.length (map fst (named ps args)) = List.length ps) by (unfold named; rewrite !map_length, combine_length; lia).
  apply (proj1 (NoDup_nth _ "") N); [lia|lia|]. now rewrite !E.
Qed.
Lemma gp_value_log kt mt ps args x v : get_gp_params kt mt = Ok ps -> List.length args = List.length ps -> In ("log_" ++ x, v) (combine ps args) ->
  exists d, param_dict ps args = Ok d /\ lookup x d = Ok (map exp v).
Proof.
  intros H L I. destruct (dict_value ps args _ x v L (proj1 (gp_names kt mt ps args H L)) I) as (d & A & B); [now left|]. exists d. split; [exact A|]. rewrite B. destruct (string_dec ("log_" ++ x) x) as [E|]; [|reflexivity]. apply (f_equal String.length) in E. cbn in E. lia.
Qed.
Lemma gp_value_plain kt mt ps args x v : get_gp_params kt mt = Ok ps -> List.length args = List.length ps -> In (x, v) (combine ps args) -> (forall y, x <> "log_" ++ y) ->
  exists d, param_dict ps args = Ok d /\ lookup x d = Ok v.
Proof.
  intros H L I P. destruct (dict_value ps args _ x v L (proj1 (gp_names kt mt ps args H L)) I) as (d & A & B); [now right|]. exists d. split; [exact A|]. rewrite B. now destruct (string_dec x x).
Qed.
Lemma gp_order logp kt mt ps args ps' args' ts cs : get_gp_params kt mt = Ok ps -> List.length args = List.length ps -> List.length args' = List.length ps' -> Permutation (combine ps args) (combine ps' args') ->
  likelihood logp ps kt mt ts cs args = likelihood logp ps' kt mt ts cs args'.
Proof. intros H L L' P. apply likelihood_order; [exact L|exact L'|apply (gp_names kt mt ps args H L)|exact P]. Qed.
Lemma likelihood_parts logp kt mt ps ts cs args d k : param_dict ps args = Ok d -> get_kernel kt d = Ok k -> (forall t, exists m, get_mean mt d t = Ok m) ->
  exists ms, likelihood logp ps kt mt ts cs args = Ok (logp k ts ms cs) /\ List.length ms = List.length ts /\ forall i, (i < List.length ts)%nat -> get_mean mt d (nth i ts 0%R) = Ok (nth i ms 0%R).
Proof. intros D K M. unfold likelihood. rewrite D. cbn [bind]. rewrite K. cbn [bind]. destruct (means_all mt d M ts) as (ms & E & L & V). rewrite E. exists ms. now repeat split. Qed.
Open Scope R_scope.
Lemma flares3_sum f a b c t : List.length b = List.length a -> List.length c = List.length a ->
  flares3 f a b c t = rs (List.length a) (fun i => f (nth i a 0) (nth i b 0) (nth i c 0) t).
Proof.
  intros B C. unfold flares3. rewrite rlsum_rs, map_length, !combine_length. replace (Nat.min (Nat.min _ _) _) with (List.length a) by lia. apply rs_ext. intros i Hi.
  rewrite (nth_indep _ 0 (f (fst (fst (0, 0, 0))) (snd (fst (0, 0, 0))) (snd (0, 0, 0)) t)) by (rewrite map_length, !combine_length; lia).
  rewrite (map_nth (fun p => f (fst (fst p)) (snd (fst p)) (snd p) t)). rewrite combine_nth by (rewrite combine_length; lia). rewrite combine_nth by lia. reflexivity.
Qed.
Lemma flares4_sum f a b c d t : List.length b = List.length a -> List.length c = List.length a -> List.length d = List.length a ->
  flares4 f a b c d t = rs (List.length a) (fun i => f (nth i a 0) (nth i b 0) (nth i c 0) (nth i d 0) t).
Proof.
  intros B C D. unfold flares4. rewrite rlsum_rs, map_length, !combine_length. replace (Nat.min (Nat.min (Nat.min _ _) _) _) with (List.length a) by lia. apply rs_ext. intros i Hi.
  rewrite (nth_indep _ 0 (f (fst (fst (fst (0, 0, 0, 0)))) (snd (fst (fst (0, 0, 0, 0)))) (snd (fst (0, 0, 0, 0))) (snd (0, 0, 0, 0)) t)) by (rewrite map_length, !combine_length; lia).
  rewrite (map_nth (fun p => f (fst (fst (fst p))) (snd (fst (fst p))) (snd (fst p)) (snd p) t)). rewrite combine_nth by (rewrite !combine_length; lia). rewrite combine_nth by (rewrite combine_length; lia). rewrite combine_nth by lia. reflexivity.
Qed.
Ltac three := intros A T U L1 L2 t; unfold get_mean; cbn [String.eqb Ascii.eqb Bool.eqb]; rewrite A, T, U; cbn [bind]; now rewrite flares3_sum.
Lemma mean_gaussian p a b c : lookup "A" p = Ok a -> lookup "t0" p = Ok b -> lookup "sig" p = Ok c -> List.length b = List.length a -> List.length c = List.length a ->
  forall t, get_mean "gaussian" p t = Ok (rs (List.length a) (fun i => nth i a 0 * exp (- (t - nth i b 0) ^ 2 / (2 * nth i c 0 ^ 2)))).
Proof. three. Qed.
Lemma mean_exponential p a b c : lookup "A" p = Ok a -> lookup "t0" p = Ok b -> lookup "sig" p = Ok c -> List.length b = List.length a -> List.length c = List.length a ->
  forall t, get_mean "exponential" p t = Ok (rs (List.length a) (fun i => nth i a 0 * exp (- Rabs (t - nth i b 0) / (2 * nth i c 0 ^ 2)))).
Proof. three. Qed.
Lemma mean_constant p a : lookup "A" p = Ok [a] -> forall t, get_mean "constant" p t = Ok a.
Proof. intros A t. unfold get_mean, scalar. cbn [String.eqb Ascii.eqb Bool.eqb]. rewrite A. cbn [bind]. now rewrite Rmult_1_r. Qed.
Ltac four := intros A T U V L1 L2 L3 t; unfold get_mean; cbn [String.eqb Ascii.eqb Bool.eqb]; rewrite A, T, U, V; cbn [bind]; now rewrite flares4_sum.
Lemma mean_skew_gaussian p a b c d : lookup "A" p = Ok a -> lookup "t0" p = Ok b -> lookup "sig1" p = Ok c -> lookup "sig2" p = Ok d -> List.length b = List.length a -> List.length c = List.length a -> List.length d = List.length a ->
  forall t, get_mean "skew_gaussian" p t = Ok (rs (List.length a) (fun i => nth i a 0 * (if Rlt_dec (nth i b 0) t then exp (- (t - nth i b 0) ^ 2 / (2 * nth i d 0 ^ 2)) else exp (- (t - nth i b 0) ^ 2 / (2 * nth i c 0 ^ 2))))).
Proof. four. Qed.
Lemma mean_skew_exponential p a b c d : lookup "A" p = Ok a -> lookup "t0" p = Ok b -> lookup "sig1" p = Ok c -> lookup "sig2" p = Ok d -> List.length b = List.length a -> List.length c = List.length a -> List.length d = List.length a ->
  forall t, get_mean "skew_exponential" p t = Ok (rs (List.length a) (fun i => nth i a 0 * (if Rlt_dec (nth i b 0) t then exp (- (t - nth i b 0) / (2 * nth i d 0 ^ 2)) else exp ((t - nth i b 0) / (2 * nth i c 0 ^ 2))))).
Proof. four. Qed.
Lemma mean_fred p a b c d : lookup "A" p = Ok a -> lookup "t0" p = Ok b -> lookup "phi" p = Ok c -> lookup "delta" p = Ok d -> List.length b = List.length a -> List.length c = List.length a -> List.length d = List.length a ->
  forall t, get_mean "fred" p t = Ok (rs (List.length a) (fun i => nth i a 0 * exp (- nth i c 0 * ((t + nth i d 0) / nth i b 0 + nth i b 0 / (t + nth i d 0))) * exp (2 * nth i c 0))).
Proof. four. Qed.
Lemma mean_other mt p t : ~ In mt mean_names -> get_mean mt p t = Err ValueError.
Proof.
  intros N. unfold get_mean. repeat match goal with |- context [String.eqb mt ?s] => destruct (String.eqb_spec mt s) as [->|_]; [exfalso; apply N; cbn; tauto|] end. reflexivity.
Qed.
Lemma skew_gaussian_same A t0 s t : skew_gaussian A t0 s s t = gaussian A t0 s t.
Proof. rewrite skew_gaussian_sides. now destruct (Rlt_dec t0 t). Qed.
Lemma skew_exponential_same A t0 s t : skew_exponential A t0 s s t = exponential A t0 s t.
Proof. rewrite skew_exponential_sides. now destruct (Rlt_dec t0 t). Qed.
Lemma fred_doc : exists A t0 phi delta t, 0 < A /\ 0 < t0 /\ 0 < phi /\ 0 < delta /\ 0 < t /\ fred A t0 phi delta t0 < fred A t0 phi delta t.
Proof.
  exists 1, 2, 1, 1, 1. repeat (split; [lra|]). rewrite !fred_form by lra. rewrite !Rmult_1_l. apply exp_increasing. lra.
Qed.
Lemma fred_grows : exists A t0 phi delta t, 0 < A /\ 0 < t0 /\ 0 < phi /\ t < t0 - delta /\ A < fred A t0 phi delta t.
Proof.
  exists 1, 1, 1, 0, (-1). repeat (split; [lra|]). rewrite fred_form by lra. rewrite Rmult_1_l, <- exp_0 at 1. apply exp_increasing. lra.
Qed.
