(* Cplx.v: complex numbers as pairs of reals, and finite sums.  Vocabulary only: it stands for
   Python/numpy complex arithmetic and np.sum, not for any stingray code. *)
From Coq Require Export Reals.
From Coq Require Import List Arith ZArith Lia Lra.
Export ListNotations.
Open Scope R_scope.

(* np.sum of a real array *)
Definition rlsum (l : list R) : R := fold_right Rplus 0 l.
(* sum_{i<n} f i *)
Definition rs (n : nat) (f : nat -> R) : R := rlsum (map f (seq 0 n)).

(* complex numbers *)
Notation cx := (R * R)%type.
Definition c0 : cx := (0, 0).
Definition c1 : cx := (1, 0).
Definition re (z : cx) : R := fst z.
Definition im (z : cx) : R := snd z.
Definition cadd (a b : cx) : cx := (re a + re b, im a + im b).
Definition copp (a : cx) : cx := (- re a, - im a).
Definition csub (a b : cx) : cx := cadd a (copp b).
Definition cmul (a b : cx) : cx := (re a * re b - im a * im b, re a * im b + im a * re b).
Definition cconj (a : cx) : cx := (re a, - im a).
(* product of a complex and a real number *)
Definition cscal (a : cx) (r : R) : cx := (re a * r, im a * r).
Definition rtoc (r : R) : cx := (r, 0).
(* |z|^2 *)
Definition cnorm2 (a : cx) : R := re a * re a + im a * im a.
(* np.abs *)
Definition cabs (a : cx) : R := sqrt (cnorm2 a).
(* np.sum of a complex array *)
Definition clsum (l : list cx) : cx := fold_right cadd c0 l.
Definition cs (n : nat) (f : nat -> cx) : cx := clsum (map f (seq 0 n)).

(* exp(2 i pi m / n) *)
Definition cis (n : nat) (m : Z) : cx :=
  (cos (2 * PI * IZR m / INR n), sin (2 * PI * IZR m / INR n)).

Lemma cx_eq (a b : cx) : re a = re b -> im a = im b -> a = b.
Proof. destruct a, b; cbn; congruence. Qed.

Lemma cx_ring : ring_theory c0 c1 cadd cmul csub copp (@eq cx).
Proof.
  constructor; intros; unfold csub, cadd, cmul, copp, c0, c1; apply cx_eq; cbn; try ring.
Qed.
Add Ring cxr : cx_ring.

(* ---- real sums ---- *)
Lemma rlsum_app l m : rlsum (l ++ m) = rlsum l + rlsum m.
Proof. unfold rlsum. induction l as [|a l IH]; cbn; [ring|]. rewrite IH. ring. Qed.
Lemma rs_S n f : rs (S n) f = rs n f + f n.
Proof. unfold rs. rewrite seq_S, map_app, rlsum_app. cbn. ring. Qed.
Lemma rs_0 f : rs 0 f = 0.
Proof. reflexivity. Qed.
Lemma rs_ext n f g : (forall i, (i < n)%nat -> f i = g i) -> rs n f = rs n g.
Proof.
  induction n as [|n IH]; intros H; [reflexivity|].
  rewrite !rs_S, IH, H; auto with arith.
Qed.
Lemma rs_plus n f g : rs n (fun i => f i + g i) = rs n f + rs n g.
Proof. induction n as [|n IH]; [rewrite !rs_0; ring|]. rewrite !rs_S, IH. ring. Qed.
Lemma rs_minus n f g : rs n (fun i => f i - g i) = rs n f - rs n g.
Proof. induction n as [|n IH]; [rewrite !rs_0; ring|]. rewrite !rs_S, IH. ring. Qed.
Lemma rs_scal n f r : rs n (fun i => f i * r) = rs n f * r.
Proof. induction n as [|n IH]; [rewrite !rs_0; ring|]. rewrite !rs_S, IH. ring. Qed.
Lemma rs_scal_l n f r : rs n (fun i => r * f i) = r * rs n f.
Proof. induction n as [|n IH]; [rewrite !rs_0; ring|]. rewrite !rs_S, IH. ring. Qed.
Lemma rs_const n r : rs n (fun _ => r) = INR n * r.
Proof. induction n as [|n IH]; [rewrite rs_0; cbn; ring|]. rewrite rs_S, IH, S_INR. ring. Qed.
Lemma rs_zero n f : (forall i, (i < n)%nat -> f i = 0) -> rs n f = 0.
Proof. intros H. rewrite (rs_ext n f (fun _ => 0)) by exact H. rewrite rs_const. ring. Qed.
Lemma rs_swap n m f : rs n (fun i => rs m (fun j => f i j)) = rs m (fun j => rs n (fun i => f i j)).
Proof.
  induction n as [|n IH].
  - rewrite rs_0. symmetry. apply rs_zero. intros. apply rs_0.
  - rewrite rs_S, IH, <- rs_plus. apply rs_ext. intros. now rewrite rs_S.
Qed.
Lemma rs_delta n k f : (k < n)%nat -> (forall i, (i < n)%nat -> i <> k -> f i = 0) -> rs n f = f k.
Proof.
  induction n as [|n IH]; intros Hk H; [lia|]. rewrite rs_S.
  destruct (Nat.eq_dec k n) as [->|N].
  - rewrite rs_zero; [ring|]. intros i Hi. apply H; lia.
  - rewrite IH; [|lia|intros; apply H; lia]. rewrite (H n); [ring|lia|lia].
Qed.
Lemma rs_add n m f : rs (n + m) f = rs n f + rs m (fun i => f (n + i)%nat).
Proof.
  induction m as [|m IH]; [rewrite Nat.add_0_r, rs_0; ring|].
  rewrite Nat.add_succ_r, !rs_S, IH. ring.
Qed.
Lemma rs_first n f : rs (S n) f = f O + rs n (fun i => f (S i)).
Proof. rewrite (rs_add 1 n f : rs (S n) f = _), (rs_S 0 f), rs_0. cbn [Nat.add]. ring. Qed.
Lemma rs_rev n f : rs n f = rs n (fun i => f (n - 1 - i)%nat).
Proof.
  induction n as [|n IH]; [reflexivity|].
  rewrite rs_S, rs_first, IH. replace (S n - 1 - 0)%nat with n by lia. rewrite Rplus_comm. f_equal.
  apply rs_ext. intros i Hi. f_equal. lia.
Qed.
Lemma rs_le n f g : (forall i, (i < n)%nat -> f i <= g i) -> rs n f <= rs n g.
Proof.
  induction n as [|n IH]; intros H; [rewrite !rs_0; lra|].
  rewrite !rs_S. pose proof (H n ltac:(lia)). assert (rs n f <= rs n g) by (apply IH; intros; apply H; lia). lra.
Qed.
Lemma rs_nonneg n f : (forall i, (i < n)%nat -> 0 <= f i) -> 0 <= rs n f.
Proof. intros H. rewrite <- (rs_zero n (fun _ => 0)) by reflexivity. now apply rs_le. Qed.
Lemma rs_mult n m f g : rs n f * rs m g = rs n (fun i => rs m (fun j => f i * g j)).
Proof.
  rewrite <- rs_scal. apply rs_ext. intros i _. now rewrite rs_scal_l.
Qed.
Lemma rlsum_rs l : rlsum l = rs (length l) (fun i => nth i l 0).
Proof.
  induction l as [|a l IH]; [reflexivity|]. cbn [length]. rewrite rs_first. cbn [nth].
  rewrite <- IH. reflexivity.
Qed.
Lemma rlsum_map {A} (f : A -> R) (g : A -> R) l : (forall a, In a l -> f a = g a) -> rlsum (map f l) = rlsum (map g l).
Proof. intros H. f_equal. now apply map_ext_in. Qed.
Lemma rlsum_map_plus {A} (f g : A -> R) l :
  rlsum (map (fun a => f a + g a) l) = rlsum (map f l) + rlsum (map g l).
Proof. unfold rlsum. induction l as [|a l IH]; cbn; [ring|]. rewrite IH. ring. Qed.
Lemma rlsum_map_scal {A} (f : A -> R) r l : rlsum (map (fun a => f a * r) l) = rlsum (map f l) * r.
Proof. unfold rlsum. induction l as [|a l IH]; cbn; [ring|]. rewrite IH. ring. Qed.

(* ---- complex sums ---- *)
Lemma clsum_app l m : clsum (l ++ m) = cadd (clsum l) (clsum m).
Proof. unfold clsum. induction l as [|a l IH]; cbn [app fold_right]; [ring|]. rewrite IH. ring. Qed.
Lemma cs_S n f : cs (S n) f = cadd (cs n f) (f n).
Proof. unfold cs. rewrite seq_S, map_app, clsum_app. cbn. f_equal. destruct (f n). apply cx_eq; cbn; ring. Qed.
Lemma cs_0 f : cs 0 f = c0.
Proof. reflexivity. Qed.
Lemma cs_ext n f g : (forall i, (i < n)%nat -> f i = g i) -> cs n f = cs n g.
Proof. induction n as [|n IH]; intros H; [reflexivity|]. rewrite !cs_S, IH, H; auto with arith. Qed.
Lemma cs_plus n f g : cs n (fun i => cadd (f i) (g i)) = cadd (cs n f) (cs n g).
Proof. induction n as [|n IH]; [rewrite !cs_0; ring|]. rewrite !cs_S, IH. ring. Qed.
Lemma cs_mul n f r : cs n (fun i => cmul (f i) r) = cmul (cs n f) r.
Proof. induction n as [|n IH]; [rewrite !cs_0; ring|]. rewrite !cs_S, IH. ring. Qed.
Lemma cs_mul_l n f r : cs n (fun i => cmul r (f i)) = cmul r (cs n f).
Proof. induction n as [|n IH]; [rewrite !cs_0; ring|]. rewrite !cs_S, IH. ring. Qed.
Lemma cs_zero n f : (forall i, (i < n)%nat -> f i = c0) -> cs n f = c0.
Proof.
  induction n as [|n IH]; intros H; [reflexivity|]. rewrite cs_S, IH, H by auto with arith. ring.
Qed.
Lemma cs_swap n m f : cs n (fun i => cs m (fun j => f i j)) = cs m (fun j => cs n (fun i => f i j)).
Proof.
  induction n as [|n IH].
  - rewrite cs_0. symmetry. apply cs_zero. intros. apply cs_0.
  - rewrite cs_S, IH, <- cs_plus. apply cs_ext. intros. now rewrite cs_S.
Qed.
Lemma cs_delta n k f : (k < n)%nat -> (forall i, (i < n)%nat -> i <> k -> f i = c0) -> cs n f = f k.
Proof.
  induction n as [|n IH]; intros Hk H; [lia|]. rewrite cs_S.
  destruct (Nat.eq_dec k n) as [->|N].
  - rewrite cs_zero; [ring|]. intros i Hi. apply H; lia.
  - rewrite IH; [|lia|intros; apply H; lia]. rewrite (H n); [ring|lia|lia].
Qed.
Lemma cs_add n m f : cs (n + m) f = cadd (cs n f) (cs m (fun i => f (n + i)%nat)).
Proof.
  induction m as [|m IH]; [rewrite Nat.add_0_r, cs_0; ring|].
  rewrite Nat.add_succ_r, !cs_S, IH. ring.
Qed.
Lemma re_cs n f : re (cs n f) = rs n (fun i => re (f i)).
Proof. induction n as [|n IH]; [reflexivity|]. rewrite cs_S, rs_S, <- IH. reflexivity. Qed.
Lemma im_cs n f : im (cs n f) = rs n (fun i => im (f i)).
Proof. induction n as [|n IH]; [reflexivity|]. rewrite cs_S, rs_S, <- IH. reflexivity. Qed.
Lemma conj_cs n f : cconj (cs n f) = cs n (fun i => cconj (f i)).
Proof.
  induction n as [|n IH]; [rewrite !cs_0; apply cx_eq; cbn; ring|]. rewrite !cs_S, <- IH.
  apply cx_eq; cbn; ring.
Qed.
Lemma conj_mul a b : cconj (cmul a b) = cmul (cconj a) (cconj b).
Proof. apply cx_eq; cbn; ring. Qed.
Lemma conj_conj a : cconj (cconj a) = a.
Proof. apply cx_eq; cbn; ring. Qed.
Lemma mul_conj a : cmul a (cconj a) = rtoc (cnorm2 a).
Proof. unfold cnorm2. apply cx_eq; cbn; ring. Qed.
Lemma cnorm2_mul a b : cnorm2 (cmul a b) = cnorm2 a * cnorm2 b.
Proof. unfold cnorm2. cbn. ring. Qed.
Lemma cnorm2_nonneg a : 0 <= cnorm2 a.
Proof. unfold cnorm2. nra. Qed.
Lemma cnorm2_zero a : cnorm2 a = 0 -> a = c0.
Proof. unfold cnorm2. intros H. apply cx_eq; cbn; nra. Qed.
Lemma cnorm2_conj a : cnorm2 (cconj a) = cnorm2 a.
Proof. unfold cnorm2. cbn. ring. Qed.
Lemma cmul_zero a b : cmul a b = c0 -> a <> c0 -> b = c0.
Proof.
  intros H N. apply cnorm2_zero. assert (E : cnorm2 a * cnorm2 b = 0).
  { rewrite <- cnorm2_mul, H. unfold cnorm2; cbn; ring. }
  destruct (Rmult_integral _ _ E) as [E1|E1]; [|exact E1]. now apply cnorm2_zero in E1.
Qed.
Lemma rs_nth_seq {A} (l : list A) d f : rlsum (map f l) = rs (length l) (fun i => f (nth i l d)).
Proof.
  rewrite rlsum_rs, map_length. apply rs_ext. intros i Hi.
  rewrite nth_indep with (d' := f d) by (rewrite map_length; exact Hi). now rewrite map_nth.
Qed.

(* ---- roots of unity ---- *)
Lemma cis_0 n : cis n 0 = c1.
Proof. unfold cis. replace (2 * PI * IZR 0 / INR n) with 0 by (unfold Rdiv; ring). now rewrite cos_0, sin_0. Qed.
Lemma cis_add n a b : cis n (a + b) = cmul (cis n a) (cis n b).
Proof.
  unfold cis. rewrite plus_IZR.
  replace (2 * PI * (IZR a + IZR b) / INR n) with (2 * PI * IZR a / INR n + 2 * PI * IZR b / INR n)
    by (unfold Rdiv; ring).
  rewrite cos_plus, sin_plus. apply cx_eq; cbn; ring.
Qed.
Lemma cis_conj n a : cconj (cis n a) = cis n (- a).
Proof.
  unfold cis. rewrite opp_IZR.
  replace (2 * PI * - IZR a / INR n) with (- (2 * PI * IZR a / INR n)) by (unfold Rdiv; ring).
  rewrite cos_neg, sin_neg. reflexivity.
Qed.
Lemma cis_norm n a : cnorm2 (cis n a) = 1.
Proof.
  unfold cnorm2, cis. cbn. pose proof (sin2_cos2 (2 * PI * IZR a / INR n)) as H. unfold Rsqr in H. lra.
Qed.
Lemma cis_period n q : (0 < n)%nat -> cis n (q * Z.of_nat n) = c1.
Proof.
  intros Hn. unfold cis. rewrite mult_IZR, <- INR_IZR_INZ.
  assert (INR n <> 0) by (apply not_0_INR; lia).
  replace (2 * PI * (IZR q * INR n) / INR n) with (0 + 2 * IZR q * PI) by (field; assumption).
  apply cx_eq; cbn.
  - destruct (Z_le_gt_dec 0 q) as [Hq|Hq].
    + rewrite <- (Z2Nat.id q Hq), <- INR_IZR_INZ, cos_period. apply cos_0.
    + replace (0 + 2 * IZR q * PI) with (- (0 + 2 * INR (Z.to_nat (- q)) * PI)).
      * rewrite cos_neg, cos_period. apply cos_0.
      * rewrite INR_IZR_INZ, Z2Nat.id by lia. rewrite opp_IZR. ring.
  - destruct (Z_le_gt_dec 0 q) as [Hq|Hq].
    + rewrite <- (Z2Nat.id q Hq), <- INR_IZR_INZ, sin_period. apply sin_0.
    + replace (0 + 2 * IZR q * PI) with (- (0 + 2 * INR (Z.to_nat (- q)) * PI)).
      * rewrite sin_neg, sin_period, sin_0. ring.
      * rewrite INR_IZR_INZ, Z2Nat.id by lia. rewrite opp_IZR. ring.
Qed.
Lemma cis_mod n a b : (0 < n)%nat -> (a mod Z.of_nat n = b mod Z.of_nat n)%Z -> cis n a = cis n b.
Proof.
  intros Hn E.
  rewrite (Z.div_mod a (Z.of_nat n)), (Z.div_mod b (Z.of_nat n)) by lia. rewrite E.
  rewrite !cis_add, !(Z.mul_comm (Z.of_nat n)), !cis_period by exact Hn. reflexivity.
Qed.
Lemma cis_neq1 n a : (0 < n)%nat -> (a mod Z.of_nat n <> 0)%Z -> cis n a <> c1.
Proof.
  intros Hn Ha E.
  assert (Hb := Z.mod_pos_bound a (Z.of_nat n) ltac:(lia)).
  rewrite (cis_mod n a (a mod Z.of_nat n)) in E by (try exact Hn; now rewrite Z.mod_mod by lia).
  set (r := (a mod Z.of_nat n)%Z) in *.
  assert (E1 : cos (2 * PI * IZR r / INR n) = 1) by (unfold cis, c1 in E; congruence).
  assert (INR n > 0) by (apply lt_0_INR; lia).
  replace (2 * PI * IZR r / INR n) with (2 * (PI * IZR r / INR n)) in E1 by (unfold Rdiv; ring).
  rewrite cos_2a_sin in E1.
  assert (S : 0 < sin (PI * IZR r / INR n)).
  { pose proof PI_RGT_0. assert (0 < IZR r) by (apply IZR_lt; lia).
    assert (IZR r < INR n) by (rewrite INR_IZR_INZ; apply IZR_lt; lia).
    apply sin_gt_0.
    - apply Rdiv_lt_0_compat; [|assumption]. now apply Rmult_lt_0_compat.
    - apply Rmult_lt_reg_r with (INR n); [assumption|].
      replace (PI * IZR r / INR n * INR n) with (PI * IZR r) by (field; lra).
      now apply Rmult_lt_compat_l. }
  nra.
Qed.
Lemma cis_geom n a : (0 < n)%nat -> (a mod Z.of_nat n <> 0)%Z ->
  cs n (fun k => cis n (Z.of_nat k * a)) = c0.
Proof.
  intros Hn Ha. apply cmul_zero with (csub c1 (cis n a)).
  - assert (T : forall m, cmul (csub c1 (cis n a)) (cs m (fun k => cis n (Z.of_nat k * a)))
                          = csub c1 (cis n (Z.of_nat m * a))).
    { induction m as [|m IH].
      - rewrite cs_0, cis_0. ring.
      - rewrite cs_S, Nat2Z.inj_succ.
        replace (Z.succ (Z.of_nat m) * a)%Z with (Z.of_nat m * a + a)%Z by ring.
        rewrite cis_add.
        transitivity (cadd (cmul (csub c1 (cis n a)) (cs m (fun k => cis n (Z.of_nat k * a))))
                           (cmul (csub c1 (cis n a)) (cis n (Z.of_nat m * a)))); [ring|].
        rewrite IH. ring. }
    rewrite T, (Z.mul_comm (Z.of_nat n)), cis_period by exact Hn. ring.
  - intros E. apply (cis_neq1 n a Hn Ha).
    transitivity (csub c1 (csub c1 (cis n a))); [ring|]. rewrite E. ring.
Qed.
Lemma cis_orth n i j : (i < n)%nat -> (j < n)%nat -> i <> j ->
  cs n (fun k => cis n (Z.of_nat k * (Z.of_nat i - Z.of_nat j))) = c0.
Proof.
  intros Hi Hj N. apply cis_geom; [lia|].
  intros E. apply N. apply Z.mod_divide in E; [|lia]. destruct E as [q Hq].
  assert (q = 0)%Z by nia. nia.
Qed.
