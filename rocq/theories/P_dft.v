(* P_dft.v: facts about the discrete Fourier transform *)
From Verif Require Import Np Cplx M_fourier S_fourier.
From Coq Require Import Lra.
Open Scope R_scope.

Lemma fft_len x : length (fft x) = length x.
Proof. unfold fft. now rewrite map_length, seq_length. Qed.

Lemma fft_nth x k : (k < length x)%nat ->
  nth k (fft x) c0 = cs (length x) (fun j => cmul (nth j x c0) (cis (length x) (- Z.of_nat (k * j)))).
Proof.
  intros H. unfold fft.
  set (f := fun k => cs (length x) (fun j => cmul (nth j x c0) (cis (length x) (- Z.of_nat (k * j))))).
  rewrite nth_indep with (d' := f 0%nat) by (now rewrite map_length, seq_length).
  rewrite map_nth, seq_nth by exact H. reflexivity.
Qed.

Lemma dft_cs x k : dft x k = cs (length x) (fun j => cmul (rtoc (val x j)) (cis (length x) (- Z.of_nat (k * j)))).
Proof.
  apply cx_eq.
  - rewrite re_cs. cbn. apply rs_ext. intros j _. unfold cis; cbn.
    rewrite opp_IZR, <- INR_IZR_INZ, (Nat.mul_comm k j).
    replace (2 * PI * - INR (j * k) / INR (length x)) with (- (2 * PI * INR (j * k) / INR (length x)))
      by (unfold Rdiv; ring).
    rewrite cos_neg. ring.
  - rewrite im_cs. cbn.
    transitivity ((-1) * rs (length x) (fun j => val x j * sin (2 * PI * INR (j * k) / INR (length x)))); [ring|].
    rewrite <- rs_scal_l. apply rs_ext. intros j _. unfold cis; cbn.
    rewrite opp_IZR, <- INR_IZR_INZ, (Nat.mul_comm k j).
    replace (2 * PI * - INR (j * k) / INR (length x)) with (- (2 * PI * INR (j * k) / INR (length x)))
      by (unfold Rdiv; ring).
    rewrite sin_neg. ring.
Qed.

Lemma fft_dft x k : (k < length x)%nat -> nth k (fft (map rtoc x)) c0 = dft x k.
Proof.
  intros H. rewrite fft_nth by (now rewrite map_length). rewrite map_length, dft_cs.
  apply cs_ext. intros j Hj. f_equal. unfold val.
  rewrite nth_indep with (d' := rtoc 0) by (now rewrite map_length). now rewrite map_nth.
Qed.

Lemma fft_map x : fft (map rtoc x) = map (dft x) (seq 0 (length x)).
Proof.
  apply nth_ext with (d := c0) (d' := dft x 0).
  - now rewrite fft_len, !map_length, seq_length.
  - intros k Hk. rewrite fft_len, map_length in Hk. rewrite fft_dft by exact Hk.
    rewrite map_nth, seq_nth by exact Hk. reflexivity.
Qed.

Lemma power_at_norm x k : power_at x k = cnorm2 (dft x k).
Proof. reflexivity. Qed.

(* Parseval, all bins *)
Lemma parseval x : rs (length x) (fun k => power_at x k) = INR (length x) * rs (length x) (fun j => val x j * val x j).
Proof.
  set (n := length x).
  destruct (Nat.eq_dec n 0) as [E|N].
  { rewrite E. rewrite !rs_0. cbn. ring. }
  assert (T : cs n (fun k => cmul (dft x k) (cconj (dft x k)))
              = rtoc (INR n * rs n (fun j => val x j * val x j))).
  { transitivity (cs n (fun k => cs n (fun i => cs n (fun j =>
        cmul (rtoc (val x i * val x j)) (cis n (Z.of_nat k * (Z.of_nat j - Z.of_nat i))))))).
    - apply cs_ext. intros k _. rewrite dft_cs, conj_cs. fold n.
      rewrite <- cs_mul. apply cs_ext. intros i _. rewrite <- cs_mul_l. apply cs_ext. intros j _.
      rewrite conj_mul, cis_conj.
      replace (Z.of_nat k * (Z.of_nat j - Z.of_nat i))%Z with (- Z.of_nat (k * i) + (- - Z.of_nat (k * j)))%Z by lia.
      rewrite cis_add.
      assert (E1 : cconj (rtoc (val x j)) = rtoc (val x j)) by (apply cx_eq; cbn; ring). rewrite E1.
      assert (E2 : rtoc (val x i * val x j) = cmul (rtoc (val x i)) (rtoc (val x j))) by (apply cx_eq; cbn; ring).
      rewrite E2. ring.
    - rewrite cs_swap.
      transitivity (cs n (fun i => rtoc (INR n * (val x i * val x i)))).
      + apply cs_ext. intros i Hi. rewrite cs_swap.
        rewrite (cs_delta n i) by
          (try exact Hi; intros j Hj Nij; rewrite cs_mul_l, cis_orth by (auto; lia); ring).
        rewrite cs_mul_l.
        assert (E : cs n (fun k => cis n (Z.of_nat k * (Z.of_nat i - Z.of_nat i))) = rtoc (INR n)).
        { transitivity (cs n (fun _ => rtoc 1)).
          - apply cs_ext. intros k _. rewrite Z.sub_diag, Z.mul_0_r. apply cis_0.
          - apply cx_eq; [rewrite re_cs|rewrite im_cs]; cbn; rewrite rs_const; ring. }
        rewrite E. apply cx_eq; cbn; ring.
      + apply cx_eq; [rewrite re_cs|rewrite im_cs]; cbn; [|rewrite rs_const; ring].
        now rewrite rs_scal_l. }
  assert (E := f_equal re T). rewrite re_cs in E. cbn [re rtoc fst] in E. rewrite <- E.
  apply rs_ext. intros k _. rewrite mul_conj. reflexivity.
Qed.

(* the transform of a real array at -k is the conjugate *)
Lemma dft_neg x k : (0 < k < length x)%nat -> dft x (length x - k) = cconj (dft x k).
Proof.
  intros H. rewrite !dft_cs, conj_cs. apply cs_ext. intros j Hj. rewrite conj_mul, cis_conj. f_equal.
  - apply cx_eq; cbn; ring.
  - apply cis_mod; [lia|].
    replace (- Z.of_nat ((length x - k) * j))%Z
      with (- - Z.of_nat (k * j) + (- Z.of_nat j) * Z.of_nat (length x))%Z by nia.
    apply Z_mod_plus_full.
Qed.
Lemma power_neg x k : (0 < k < length x)%nat -> power_at x (length x - k) = power_at x k.
Proof. intros H. rewrite !power_at_norm, dft_neg by exact H. apply cnorm2_conj. Qed.

Lemma dft_0 x : dft x 0 = rtoc (rlsum x).
Proof.
  rewrite rlsum_rs. apply cx_eq; cbn.
  - apply rs_ext. intros j _. rewrite Nat.mul_0_r. cbn.
    replace (2 * PI * 0 / INR (length x)) with 0 by (unfold Rdiv; ring). rewrite cos_0. unfold val. ring.
  - rewrite rs_zero; [ring|]. intros j _. rewrite Nat.mul_0_r. cbn.
    replace (2 * PI * 0 / INR (length x)) with 0 by (unfold Rdiv; ring). rewrite sin_0. ring.
Qed.
Lemma power_0 x : power_at x 0 = rlsum x * rlsum x.
Proof. unfold power_at. rewrite dft_0. cbn. ring. Qed.

(* variance as mean square minus squared mean *)
Lemma variance_alt x : x <> [] ->
  INR (length x) * INR (length x) * variance x
  = INR (length x) * rs (length x) (fun j => val x j * val x j) - rlsum x * rlsum x.
Proof.
  intros N. assert (Hn : INR (length x) <> 0) by (apply not_0_INR; destruct x; cbn; congruence).
  unfold variance. rewrite (rs_nth_seq x 0). set (n := length x) in *.
  set (m := avg (fun y => y) x).
  assert (Em : m * INR n = rlsum x).
  { unfold m, avg. rewrite map_id. fold n. field. exact Hn. }
  transitivity (INR n * (rs n (fun i => (nth i x 0 - m) * (nth i x 0 - m)))); [field; exact Hn|].
  transitivity (INR n * (rs n (fun j => val x j * val x j) + rs n (fun i => nth i x 0 * (-2 * m)) + rs n (fun _ => m * m))).
  { f_equal. rewrite <- !rs_plus. apply rs_ext. intros i _. unfold val. ring. }
  rewrite rs_const, rs_scal, <- (rlsum_rs x : rlsum x = rs n _). rewrite <- Em. ring.
Qed.

(* sum over the strictly positive frequencies *)
Lemma parseval_pos x : x <> [] ->
  2 * rs (n_pos (length x)) (fun k => power_at x (S k))
  + (if Nat.even (length x) then power_at x (length x / 2) else 0)
  = INR (length x) * INR (length x) * variance x.
Proof.
  intros N. rewrite variance_alt, <- parseval, <- power_0 by exact N. unfold n_pos.
  set (n := length x). assert (Hn : (0 < n)%nat) by (unfold n; destruct x; cbn; [congruence|lia]).
  assert (M : forall m, (2 * m < n)%nat ->
     rs m (fun k => power_at x (S k)) = rs m (fun i => power_at x (n - m + i))).
  { intros m Hm. rewrite rs_rev. apply rs_ext. intros i Hi.
    rewrite <- (power_neg x) by (fold n; lia). f_equal. fold n. lia. }
  destruct (Nat.even n) eqn:E.
  - apply Nat.even_spec in E. destruct E as [h Hh].
    assert (D1 : ((n - 1) / 2 = h - 1)%nat).
    { symmetry. apply Nat.div_unique with (r := 1%nat); lia. }
    assert (D2 : (n / 2 = h)%nat) by (rewrite Hh, Nat.mul_comm; apply Nat.div_mul; lia).
    rewrite D1, D2.
    replace (rs n (fun k => power_at x k)) with (rs (S (h - 1) + (1 + (h - 1))) (fun k => power_at x k)) by (f_equal; lia).
    rewrite rs_add, rs_first, rs_add, rs_S, rs_0.
    replace (rs (h - 1) (fun i => power_at x (S (h - 1) + (1 + i))))
      with (rs (h - 1) (fun i => power_at x (n - (h - 1) + i))).
    + rewrite <- M by lia. replace (S (h - 1) + 0)%nat with h by lia. ring.
    + apply rs_ext. intros i Hi. f_equal. lia.
  - assert (O : Nat.odd n = true) by (rewrite <- Nat.negb_even, E; reflexivity).
    apply Nat.odd_spec in O. destruct O as [h Hh].
    assert (D1 : ((n - 1) / 2 = h)%nat).
    { replace (n - 1)%nat with (h * 2)%nat by lia. apply Nat.div_mul. lia. }
    rewrite D1.
    replace (rs n (fun k => power_at x k)) with (rs (S h + h) (fun k => power_at x k)) by (f_equal; lia).
    rewrite rs_add, rs_first.
    replace (rs h (fun i => power_at x (S h + i))) with (rs h (fun i => power_at x (n - h + i))).
    + rewrite <- M by lia. ring.
    + apply rs_ext. intros i Hi. f_equal. lia.
Qed.
